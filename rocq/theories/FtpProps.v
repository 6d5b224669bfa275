(** C79: reading FTP directory listings. *)
From Verif Require Import Base FtpModel FtpSpec FtpDates FtpProofs FtpTrips FtpUnix FtpOther.
Local Open Scope Z_scope.
Local Open Scope list_scope.

(** C79.  No line a server can send makes the parser read a byte outside it,
    or run for ever; and when it finds a name (or an identifier), that is a
    part of the line. *)
Theorem C79_inside : forall clock k l,
  match ftpparse clock k l with
  | Wild | NoFuel => False
  | Over | Ret (None, _) => True
  | Ret (Some f, _) =>
      (f_name f + f_namelen f <= length l)%nat /\
      match f_id f with Some (a, n) => (a + n <= length l)%nat | None => True end
  end.
Proof.
  intros clock k l. pose proof (safe_ftpparse clock k l) as H.
  destruct (ftpparse clock k l) as [[[f|] c]| | |]; exact H || exact I.
Qed.
Print Assumptions C79_inside.

Example C79_inside_ex :
  exists f k, ftpparse 0 None (B "-rw-r--r--   1 root     other        531 Jan 29 03:26 README")
              = Ret (Some f, k) /\ f_namelen f = 6%nat.
Proof. eexists; eexists. split; vm_compute; reflexivity. Qed.

(** C79.  Numbers that do not fit overflow: an ordinary line whose group has
    a name of twenty letters is undefined behaviour. *)
Theorem C79_overflow_refuted : exists group, word group /\ length group = 20%nat /\
  ftpparse 0 None (B "-rw-r--r--   1 root     " ++ group ++ B "        531 Jan 29 03:26 README") = Over.
Proof.
  exists (B "softwaredevelopmentx"). split; [|split; [reflexivity|vm_compute; reflexivity]].
  split; [discriminate|]. cbn. intros H. repeat (destruct H as [H|H]; [discriminate H|]). exact H.
Qed.
Print Assumptions C79_overflow_refuted.

(** C79.  Dates are those of the Gregorian calendar, in seconds since 1970. *)
Theorem C79_calendar : forall y m d, date y m d -> y <= 10 ^ 10 ->
  totai y m d = Ret (unixtime y m d).
Proof. exact totai_unixtime. Qed.
Print Assumptions C79_calendar.

Lemma known y m d v : date y m d -> y <= 10 ^ 10 -> totai y m d = Ret v -> unixtime y m d = v.
Proof. intros H1 H2 H. rewrite (totai_unixtime y m d H1 H2) in H. injection H as ->. reflexivity. Qed.

Ltac when := apply known; [unfold date; vm_compute; intuition congruence|lia|vm_compute; reflexivity].

Example C79_calendar_ex : date 2024 1 29 /\ unixtime 2024 1 29 = 1709164800 /\
  ~ date 2023 1 29 /\ ~ date 1900 1 29 /\ date 2000 1 29.
Proof.
  assert (E : unixtime 2024 1 29 = 1709164800) by when.
  unfold date. repeat split; try exact E; try (vm_compute; congruence);
    intros (_ & _ & _ & H); vm_compute in H; congruence.
Qed.

(** C79.  And the year worked out from the clock is the calendar's. *)
Theorem C79_year : forall y m d s, date y m d -> 0 <= s < 86400 ->
  yearof (unixtime y m d + s) = y.
Proof. exact yearof_date. Qed.
Print Assumptions C79_year.

(** C79.  EPLF: every fact is understood, whatever their number and order,
    and the name is any bytes at all. *)
Theorem C79_eplf : forall clock k fs name, Forall fact_ok fs ->
  exists f, ftpparse clock k (eplf_line fs name) = Ret (Some f, k) /\
            view (eplf_line fs name) f = eplf_entry fs name.
Proof. exact eplf_trip. Qed.
Print Assumptions C79_eplf.

Ltac numb := split; [discriminate|split; [repeat constructor; cbn; lia|vm_compute; reflexivity]].
Ltac nospace := cbn; intros H; repeat (destruct H as [H|H]; [discriminate H|]); exact H.
Ltac wrd := split; [discriminate|nospace].

Example C79_eplf_ex :
  let fs := [FId (B "8388621.44468"); FTime (B "839956783"); FFile; FSize (B "10376"); FOther (B "up644")] in
  Forall fact_ok fs /\
  eplf_line fs (B "RFCEPLF") = B "+i8388621.44468,m839956783,r,s10376,up644," ++ [tab] ++ B "RFCEPLF" /\
  eplf_entry fs (B "RFCEPLF") =
    Entry (B "RFCEPLF") false true (Some 10376) Exact 839956783 (Some (B "8388621.44468")).
Proof.
  split; [|split; reflexivity].
  constructor; [split; nospace|]. constructor; [numb|]. constructor; [exact I|]. constructor; [numb|].
  constructor; [split; [nospace|split; [nospace|]]|constructor].
  intros c r E. injection E as <- <-. nospace.
Qed.

(** What UNIX lines say, apart from the time: directories and links may be
    entered, files and links fetched. *)
Definition unix_entry (kind : byte) (perm name : bytes) (size : Z) (sr : sort) (t : Z) : entry :=
  Entry (unix_name kind perm name)
        (Ascii.eqb kind "d" || Ascii.eqb kind "l") (Ascii.eqb kind "-" || Ascii.eqb kind "l")
        (Some size) sr t None.

(** The words before the date, and what is asked of them.  [more] are words
    such as the group; all but the first must not look like a month, and they
    must be short enough for C79_overflow_refuted not to happen. *)
Definition unix_words (kind : byte) (perm : bytes) (g0 : nat) (owner more : list (bytes * nat))
    (size : bytes) (gs : nat) (mon : bytes) (gm : nat) (day : bytes) (gd : nat) :=
  (kind :: perm, g0) :: owner ++ more ++ [(size, gs); (mon, gm); (day, gd)].

Definition words_ok kind perm g0 owner more size gs mon gm day gd m : Prop :=
  In kind (B "bcdlps-") /\
  Forall (fun p => word (fst p)) (unix_words kind perm g0 owner more size gs mon gm day gd) /\
  ownership owner /\ Forall (fun p => (length (fst p) <= 17)%nat) more /\
  Forall (fun p => ~ exists q, names_month (fst p) q) (tl more) /\
  number (10 ^ 18) size /\ names_month mon m /\ number (10 ^ 18) day.

(** C79.  UNIX, with a year. *)
Theorem C79_unix_year : forall clock k kind perm g0 owner more size gs mon gm day gd m year name,
  words_ok kind perm g0 owner more size gs mon gm day gd m ->
  number (10 ^ 10) year -> (4 <= length year)%nat -> date (value year) m (value day) ->
  let l := unix_line (unix_words kind perm g0 owner more size gs mon gm day gd) year name in
  exists f, ftpparse clock k l = Ret (Some f, k) /\
    view l f = unix_entry kind perm name (value size) Day (unixtime (value year) m (value day)).
Proof.
  intros clock k kind perm g0 owner more size gs mon gm day gd m year name
    (H1 & H2 & H3 & H4 & H5 & H6 & H7 & H8) Hy Hl Hd l.
  apply (unix_trip clock k kind perm g0 owner more size gs mon gm day gd year name m
           MDay (unixtime (value year) m (value day)) k); auto.
  - eapply number_word; eauto.
  - intros s Hs Hm Hdd. eapply when_year; [reflexivity|..]; auto.
Qed.
Print Assumptions C79_unix_year.

(** C79.  UNIX, with a time of day: the year is the first that makes the file
    less than 350 days old, at whatever time the listing is read, and however
    long ago the parser was first used (up to 98 years). *)
Theorem C79_unix_clock : forall y0 m0 d0 s0 k kind perm g0 owner more size gs mon gm day gd m when_ sec name,
  date y0 m0 d0 -> 1970 <= y0 <= 10 ^ 5 -> 0 <= s0 < 86400 ->
  (k = None \/ exists y1, k = Some y1 /\ y0 - 98 <= y1 <= y0) ->
  words_ok kind perm g0 owner more size gs mon gm day gd m ->
  clock_time when_ sec -> (forall y, 1 <= y -> date y m (value day)) ->
  let clock := unixtime y0 m0 d0 + s0 in
  let l := unix_line (unix_words kind perm g0 owner more size gs mon gm day gd) when_ name in
  exists f k' y, ftpparse clock k l = Ret (Some f, k') /\ meant clock m (value day) y /\
    view l f = unix_entry kind perm name (value size) Minute (unixtime y m (value day) + sec).
Proof.
  intros y0 m0 d0 s0 k kind perm g0 owner more size gs mon gm day gd m when_ sec name
    Hd0 Hy0 Hs0 Hk (H1 & H2 & H3 & H4 & H5 & H6 & H7 & H8) Hw Hd clock l.
  assert (He : everyday m (value day)).
  { destruct (Hd 1 ltac:(lia)) as (_ & A & B). split; assumption. }
  destruct (guesstai_ok y0 m0 d0 s0 k m (value day) Hd0 Hy0 Hs0 Hk He) as (G & k' & E & R & A & C).
  assert (UR : - 10 ^ 18 <= unixtime G m (value day) <= 10 ^ 18).
  { pose proof (unixtime_range G m (value day) (Hd G ltac:(lia)) ltac:(lia)). lia. }
  destruct (unix_trip clock k kind perm g0 owner more size gs mon gm day gd when_ name m
           MMinute (unixtime G m (value day) + sec) k') as (f & E1 & E2); auto.
  - eapply clock_word; eauto.
  - intros s Hs Hm Hdd. eapply when_clock; [reflexivity|..]; eauto.
  - exists f, k', G. split; [exact E1|]. split; [split; assumption|exact E2].
Qed.
Print Assumptions C79_unix_clock.

(** C79.  There is no other such year. *)
Theorem C79_meant_once : forall now m d y y', (forall z, 1 <= z -> date z m d) ->
  2 <= y -> 2 <= y' -> meant now m d y -> meant now m d y' -> y = y'.
Proof.
  intros now m d y y' Hd Hy Hy' [A B] [A' B'].
  assert (MONO : forall a b, 1 <= a < b -> unixtime a m d <= unixtime b m d).
  { intros a b H. unfold unixtime.
    pose proof (in_year a m d (Hd a ltac:(lia))). pose proof (in_year b m d (Hd b ltac:(lia))).
    pose proof (newyear_step (a + 1) (b - a - 1) ltac:(lia) ltac:(lia)) as N.
    replace (a + 1 + (b - a - 1)) with b in N by lia. lia. }
  destruct (Z.lt_trichotomy y y') as [H|[H|H]]; auto.
  - exfalso. destruct (Z.eq_dec y (y' - 1)) as [->|]; [lia|]. pose proof (MONO y (y' - 1)). lia.
  - exfalso. destruct (Z.eq_dec y' (y - 1)) as [->|]; [lia|]. pose proof (MONO y' (y - 1)). lia.
Qed.
Print Assumptions C79_meant_once.

Example C79_unix_ex :
  let g := [(B "other", 7)]%nat in
  let o := [(B "1", 0); (B "root", 4)]%nat in
  words_ok "l" (B "rwxrwxrwx") 2 o g (B "7") 0 (B "Jan") 0 (B "25") 0 0 /\
  unix_line (unix_words "l" (B "rwxrwxrwx") 2 o g (B "7") 0 (B "Jan") 0 (B "25") 0) (B "00:17") (B "bin -> usr/bin")
    = B "lrwxrwxrwx   1 root     other        7 Jan 25 00:17 bin -> usr/bin" /\
  clock_time (B "00:17") 1020 /\ number (10 ^ 10) (B "1994") /\
  (forall y, 1 <= y -> date y 0 25) /\ unix_name "l" (B "rwxrwxrwx") (B "bin -> usr/bin") = B "bin" /\
  meant (unixtime 2026 10 17) 0 25 2026 /\ meant (unixtime 2026 0 17) 0 25 2026 /\
  meant (unixtime 2026 0 1) 0 25 2025.
Proof.
  split; [|split; [reflexivity|split; [|split; [numb|split; [|split; [reflexivity|]]]]]].
  - unfold words_ok. split; [cbn; tauto|]. split.
    { unfold unix_words. repeat (constructor; [cbn [fst]; wrd|]). constructor. }
    split; [left; do 4 eexists; split; [reflexivity|intros [X _]; discriminate X]|].
    split; [repeat constructor; cbn; lia|]. split; [constructor|].
    split; [numb|]. split; [split; [lia|reflexivity]|numb].
  - exists (B "00"), (B "17"). split; [reflexivity|]. split; [cbn; lia|]. split; [reflexivity|].
    split; [repeat constructor; cbn; lia|]. split; [repeat constructor; cbn; lia|]. reflexivity.
  - intros y Hy. unfold date. change (mlen y 0) with 31. lia.
  - assert (E1 : unixtime 2026 10 17 = 1794873600) by when.
    assert (E2 : unixtime 2026 0 17 = 1768608000) by when.
    assert (E3 : unixtime 2026 0 1 = 1767225600) by when.
    assert (E4 : unixtime 2026 0 25 = 1769299200) by when.
    assert (E5 : unixtime 2025 0 25 = 1737763200) by when.
    assert (E6 : unixtime 2024 0 25 = 1706140800) by when.
    unfold meant. rewrite E1, E2, E3. change (2026 - 1) with 2025. change (2025 - 1) with 2024.
    rewrite E4, E5, E6. lia.
Qed.

Example C79_netware_ex :
  let l := B "- [R----F--] rhesus             214059       Oct 20 15:27    cx.exe" in
  let o := [(B "[R----F--]", 0); (B "rhesus", 12)]%nat in
  words_ok "-" [] 0 o [] (B "214059") 6 (B "Oct") 0 (B "20") 0 9 /\
  unix_line (unix_words "-" [] 0 o [] (B "214059") 6 (B "Oct") 0 (B "20") 0) (B "15:27") (B "   cx.exe") = l /\
  unix_name "-" [] (B "   cx.exe") = B "cx.exe".
Proof.
  cbv zeta. split; [|split; reflexivity].
  unfold words_ok. split; [cbn; tauto|]. split.
  { unfold unix_words. repeat (constructor; [cbn [fst]; wrd|]). constructor. }
  split; [left; do 4 eexists; split; [reflexivity|intros [X _]; discriminate X]|].
  split; [constructor|]. split; [constructor|].
  split; [numb|]. split; [split; [lia|reflexivity]|numb].
Qed.

(** C79.  VMS: the version, the size and all that follows the time are passed
    over; .DIR is taken off the names of directories. *)
Theorem C79_vms : forall clock k name ver g1 blocks g2 day mon year g3 hour minute e rest m base,
  let l := vms_line name ver g1 blocks g2 day mon year g3 hour minute (e :: rest) in
  (forall c r, l = c :: r -> ~ In c (B "+bcdlps-")) -> ~ In ";"%char name ->
  ~ In space ver -> word blocks -> number (10 ^ 6) day -> names_month mon m ->
  number (10 ^ 10) year -> number (10 ^ 6) hour -> number (10 ^ 6) minute ->
  e = space \/ e = ":"%char -> date (value year) m (value day) ->
  let t := unixtime (value year) m (value day) + (3600 * value hour + 60 * value minute) in
  (vms_dir name base -> exists f, ftpparse clock k l = Ret (Some f, k) /\
     view l f = Entry base true false None Minute t None) /\
  ((forall b, ~ vms_dir name b) -> exists f, ftpparse clock k l = Ret (Some f, k) /\
     view l f = Entry name false true None Minute t None).
Proof. exact vms_trip. Qed.
Print Assumptions C79_vms.

Example C79_vms_ex :
  vms_line (B "CORE.DIR") (B "1") 9 (B "1") 1 (B "8") (B "SEP") (B "1996") 0 (B "16") (B "09") (B " [SYSTEM] (RWE,RWE,RE,RE)")
    = B "CORE.DIR;1          1  8-SEP-1996 16:09 [SYSTEM] (RWE,RWE,RE,RE)" /\
  vms_dir (B "CORE.DIR") (B "CORE") /\ names_month (B "SEP") 8 /\ date (value (B "1996")) 8 (value (B "8")) /\
  number (10 ^ 6) (B "16") /\ number (10 ^ 6) (B "8").
Proof.
  split; [reflexivity|]. split; [split; [discriminate|reflexivity]|].
  split; [split; [lia|reflexivity]|]. split; [unfold date; vm_compute; intuition congruence|].
  split; numb.
Qed.

(** C79.  MS-DOS: months are numbered from 1, years may have two digits, and
    the clock has twelve hours. *)
Theorem C79_msdos : forall clock k mon day year g1 hour minute pm g2 what g3 name m,
  let l := msdos_line mon day year g1 hour minute pm g2 what g3 name in
  ~ In ";"%char l -> number (10 ^ 6) mon -> number (10 ^ 6) day -> number (10 ^ 9) year ->
  number (10 ^ 5) hour -> number (10 ^ 6) minute ->
  name <> [] -> (forall r, name <> space :: r) -> m = value mon - 1 ->
  date (full_year (value year)) m (value day) ->
  let t := unixtime (full_year (value year)) m (value day)
           + (3600 * hour24 (value hour) pm + 60 * value minute) in
  ((exists r, what = B "<" ++ r /\ ~ In space r) ->
     exists f, ftpparse clock k l = Ret (Some f, k) /\
     view l f = Entry name true false None Minute t None) /\
  (number (10 ^ 18) what ->
     exists f, ftpparse clock k l = Ret (Some f, k) /\
     view l f = Entry name false true (Some (value what)) Minute t None).
Proof. exact msdos_trip. Qed.
Print Assumptions C79_msdos.

Example C79_msdos_ex :
  let l := msdos_line (B "04") (B "14") (B "00") 1 (B "03") (B "47") true 17 (B "589") 0 (B "readme.htm") in
  l = B "04-14-00  03:47PM                  589 readme.htm" /\ ~ In ";"%char l /\
  number (10 ^ 6) (B "04") /\ date (full_year (value (B "00"))) (value (B "04") - 1) (value (B "14")) /\
  hour24 (value (B "03")) true = 15 /\ hour24 12 false = 0 /\ hour24 12 true = 12.
Proof.
  split; [reflexivity|]. split; [nospace|]. split; [numb|].
  split; [unfold date; vm_compute; intuition congruence|]. repeat split.
Qed.

(** C79.  But a semicolon in the name of an MS-DOS file makes it a VMS line,
    and the file is left out. *)
Theorem C79_semicolon_refuted : exists l,
  l = msdos_line (B "04") (B "14") (B "00") 1 (B "03") (B "47") true 17 (B "589") 0 (B "a;b.txt") /\
  forall clock k, ftpparse clock k l = Ret (None, k).
Proof. eexists. split; [reflexivity|]. intros clock k. vm_compute. reflexivity. Qed.
Print Assumptions C79_semicolon_refuted.
