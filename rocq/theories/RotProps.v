(** Property C93: log files. *)
From Verif Require Import Base RotSpec RotModel RotProofs.
Local Open Scope Z_scope.

(** ** Every line is in the file of its day, at its end, whatever the clock does; no
    file is written to that is more than 100 megabytes; what was there stays there
    unless it is too old. *)
Theorem C93_line : forall z b keep append d0 calls now text,
  zoned z -> 0 <= keep <= 24855 -> NoDup (map fst d0) -> sane z b d0 ->
  Forall (fun c => 0 <= fst c + gmtoffset z) (calls ++ [(now, text)]) ->
  exists d l d' l', run z calls d0 (closed b keep append) = Ok (d, l) /\ log_line z now text d l = Ok (d', l') /\
    (exists n before lines, let name := fullname z b ((now + gmtoffset z) / day_seconds) n in
      get d' name = Some (File before (lines ++ [text]) now) /\ size before lines <= megs 100 /\
      (linkish d0 b -> exists m, get d' (curname b) = Some (Link name m))) /\
    (forall x e, get d x = Some e ->
      (x = curname b /\ exists t m, e = Link t m) \/ (keep <> 0 /\ begins b x /\ old now keep e) \/ exists e', get d' x = Some e' /\ grown e e').
Proof.
  intros z b k a d0 calls now text Z K U S V. apply Forall_app in V. destruct V as [V V1]. inversion V1 as [|? ? P _]; subst. cbn [fst] in P.
  destruct (run_inv z b k a (linkish d0 b) Z K calls d0 (closed b k a) V) as (d & l & R & I); [apply closed_inv; auto|].
  destruct (line_inv z b k a _ now text d l Z K P I) as (d' & l' & E & _ & KP & (n & s & ls & _ & G & SZ & L)).
  exists d, l, d', l'. split; [exact R|]. split; [exact E|]. split; [|exact KP]. exists n, s, ls. cbn zeta. unfold day_of in *. rewrite Z.quot_div_nonneg in * by lia. auto.
Qed.
Print Assumptions C93_line.

(** ** Which file is taken: the first number whose file is not there, or not full
    when files may be appended to. *)
Theorem C93_number : forall z now d l, zoned z -> 0 <= keep_for l <= 24855 -> NoDup (map fst d) -> sane z (base l) d -> 0 <= now + gmtoffset z ->
  exists d' l' n, start_log z now d l = Ok (d', l') /\
    let name i := fullname z (base l) ((now + gmtoffset z) / day_seconds) i in
    opened l' = Some (name n) /\
    (get d (name n) = None \/ exists s ls m, get d (name n) = Some (File s ls m) /\ size s ls < megs 100 /\ allow_append l = true) /\
    (forall i, (i < n)%nat -> exists s ls m, get d (name i) = Some (File s ls m) /\ (megs 100 <= size s ls \/ allow_append l = false)).
Proof.
  intros z now d l Z K U S P. destruct (start_ok z now d l Z U S P K) as (d' & n & E & _ & _ & (US & UN & _)).
  eexists d', _, n. split; [exact E|]. cbn zeta. unfold day_of in *. rewrite Z.quot_div_nonneg in * by lia. split; [reflexivity|]. split; [exact US|exact UN].
Qed.
Print Assumptions C93_number.

(** ** When a log is started, everything that begins with its name and is too old goes. *)
Theorem C93_trimmed : forall z now d l d' l', zoned z -> 0 < keep_for l <= 24855 -> NoDup (map fst d) -> sane z (base l) d -> 0 <= now + gmtoffset z ->
  start_log z now d l = Ok (d', l') ->
  forall x e, get d' x = Some e -> begins (base l) x -> old now (keep_for l) e -> exists m, e = Dir m.
Proof.
  intros z now d l d' l' Z K U S P E x e G BG OL.
  destruct (start_inv z (base l) (keep_for l) (allow_append l) False now d (closed (base l) (keep_for l) (allow_append l)) Z) as (d1 & nm & E1 & _ & _ & _ & _ & T); [lia|exact P|apply closed_inv; tauto|].
  assert (Q : d1 = d'). { unfold start_log in E, E1. cbn [base keep_for allow_append closed] in E1. assert (PK : pick (Datatypes.S (length d)) z (closed (base l) (keep_for l) (allow_append l)) (day_of z now) d 0 = pick (Datatypes.S (length d)) z l (day_of z now) d 0).
    { generalize 0%nat. generalize (Datatypes.S (length d)). induction n as [|f IH]; intros i; [reflexivity|]. cbn [pick base allow_append closed]. destruct (get d _) as [[]|]; try reflexivity. rewrite IH. reflexivity. }
    rewrite PK in E1. destruct (pick _ _ _ _ _ _); try discriminate. cbn [bind] in *. destruct (trim_old_logs _ _ _ _); try discriminate. cbn [bind] in *. congruence. }
  subst d1. specialize (T ltac:(lia) x e G BG OL). destruct e; try discriminate. eauto.
Qed.
Print Assumptions C93_trimmed.

(** A concrete directory: two days, a full file, an old one, and a link. *)
Definition ex_zone : zone := Zone 3600 (fun day => if day <? 0 then B "minus" ++ dec (Z.to_nat (- day)) else B "day" ++ dec (Z.to_nat day)).
Definition ex_dir : dir :=
  [(B "log.day100.0", File (megs 100) [] 8640000); (B "log.day90.0", File 5 [] 7776000); (B "log.current", Link (B "log.day90.0") 7776000); (B "other", File 9 [] 0)].
Example C93_ex_meets : zoned ex_zone /\ NoDup (map fst ex_dir) /\ sane ex_zone (B "log") ex_dir /\ linkish ex_dir (B "log").
Proof.
  assert (Z : zoned ex_zone).
  { intros a b H. cbn [date ex_zone] in H. destruct (Z.ltb_spec a 0), (Z.ltb_spec b 0); cbn [B app list_ascii_of_string] in H; try discriminate; injection H as H; apply dec_inj in H; lia. }
  split; [exact Z|]. split; [repeat constructor; cbn; intuition discriminate|]. split; [|exact I].
  intros day n e H. cbn [ex_dir get] in H. destruct (same _ _) eqn:E in H.
  { apply same_iff in E. change (B "log.day100.0") with (fullname ex_zone (B "log") 100 0) in E. apply fullname_inj in E; [|exact Z]. destruct E as [<- _]. injection H as <-. do 3 eexists. split; [reflexivity|]. cbn. lia. }
  clear E. destruct (same _ _) eqn:E in H.
  { apply same_iff in E. change (B "log.day90.0") with (fullname ex_zone (B "log") 90 0) in E. apply fullname_inj in E; [|exact Z]. destruct E as [<- _]. injection H as <-. do 3 eexists. split; [reflexivity|]. cbn. lia. }
  clear E. destruct (same _ _) eqn:E in H.
  { apply same_iff in E. symmetry in E. apply fullname_cur in E. destruct E. }
  clear E. destruct (same _ _) eqn:E in H; [apply same_iff in E; discriminate|discriminate].
Qed.
Example C93_ex : exists l, run ex_zone [(8640100, B "hello"); (8640200, B "there"); (8726400, B "next")] ex_dir (closed (B "log") 7 true) =
  Ok ([(B "log.day101.0", File 0 [B "next"] 8726400); (B "log.current", Link (B "log.day101.0") 8726400);
       (B "log.day100.1", File 0 [B "hello"; B "there"] 8640200); (B "log.day100.0", File (megs 100) [] 8640000); (B "other", File 9 [] 0)], l).
Proof. eexists. vm_compute. reflexivity. Qed.

(** ** Only logs should go, but everything that begins like the log goes: *)
Theorem C93_foreign_refuted : exists d d' l', run ex_zone [(8640100, B "hello")] d (closed (B "log") 7 true) = Ok (d', l') /\
  get d (B "logbook.txt") = Some (File 1000 [] 0) /\ get d' (B "logbook.txt") = None.
Proof. exists [(B "logbook.txt", File 1000 [] 0)]. eexists _, _. split; [vm_compute; reflexivity|]. split; reflexivity. Qed.
Print Assumptions C93_foreign_refuted.

(** A negative number of days deletes the log that was just opened, and lines are lost. *)
Theorem C93_negative_refuted : exists d' l', run ex_zone [(8640100, B "hello")] [] (closed (B "log") (-1) true) = Ok (d', l') /\ d' = [].
Proof. eexists _, _. split; [vm_compute; reflexivity|reflexivity]. Qed.
Print Assumptions C93_negative_refuted.

(** More than 24855 days overflow an int. *)
Theorem C93_long_refuted : run ex_zone [(8640100, B "hello")] [] (closed (B "log") 30000 true) = Fault.
Proof. vm_compute. reflexivity. Qed.
Print Assumptions C93_long_refuted.
