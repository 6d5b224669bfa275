(** Proofs about hexadecimal dumps. *)
From Verif Require Import Base Ctype HexdSpec HexdModel.
Local Open Scope char_scope.

(** ** %X *)
Lemma xdigit_ok v : (0 <= v < 16)%Z -> xdigit v = digit (Z.to_nat v).
Proof. intros H. assert (C : (v = 0 \/ v = 1 \/ v = 2 \/ v = 3 \/ v = 4 \/ v = 5 \/ v = 6 \/ v = 7 \/ v = 8 \/ v = 9 \/ v = 10 \/ v = 11 \/ v = 12 \/ v = 13 \/ v = 14 \/ v = 15)%Z) by lia. repeat (destruct C as [->|C]; [reflexivity|]). subst. reflexivity. Qed.
Fixpoint nds (k : nat) (v : Z) : list nat := match k with 0 => [] | S k => nds k (v / 16) ++ [Z.to_nat (v mod 16)] end.
Lemma xdigits_ok k : forall v, xdigits k v = map digit (nds k v) /\ Forall (fun d => d < 16) (nds k v) /\ length (nds k v) = k.
Proof.
  induction k as [|k IH]; intros v; [repeat split; constructor|]. cbn [xdigits nds]. destruct (IH (v / 16)%Z) as (A & F & L).
  assert (B : (0 <= v mod 16 < 16)%Z) by (apply Z.mod_pos_bound; lia).
  rewrite A, map_app, xdigit_ok by exact B. split; [reflexivity|]. rewrite app_length, L. split; [|cbn; lia].
  apply Forall_app. split; [exact F|]. constructor; [lia|constructor].
Qed.
Lemma number_app a b : forall acc, number acc (a ++ b) = number (number acc a) b.
Proof. induction a as [|x a IH]; intros acc; [reflexivity|]. cbn [app number]. apply IH. Qed.
Lemma nds_number k : forall v, (0 <= v)%Z -> number 0 (nds k v) = (v mod 16 ^ Z.of_nat k)%Z.
Proof.
  induction k as [|k IH]; intros v V; [cbn; rewrite Z.mod_1_r; reflexivity|]. cbn [nds]. rewrite number_app, IH by (apply Z.div_pos; lia). cbn [number].
  rewrite Nat2Z.inj_succ, Z.pow_succ_r by lia. rewrite Z.rem_mul_r by lia. rewrite Z2Nat.id by (apply Z.mod_pos_bound; lia). lia.
Qed.
Lemma digit_zero d : d < 16 -> Ascii.eqb (digit d) "0" = Nat.eqb d 0.
Proof. intros H. do 16 (destruct d as [|d]; [reflexivity|]). lia. Qed.
Lemma strip_ok w ds : Forall (fun d => d < 16) ds -> w <= length ds ->
  exists ds', strip w (map digit ds) = map digit ds' /\ Forall (fun d => d < 16) ds' /\ number 0 ds' = number 0 ds /\
    w <= length ds' <= length ds /\ (w < length ds' -> hd 0 ds' <> 0).
Proof.
  induction ds as [|d ds IH]; intros F W.
  - exists []. cbn in *. repeat split; auto; lia.
  - inversion F as [|? ? D F']; subst. cbn [map strip]. rewrite digit_zero, map_length by exact D. destruct (Nat.eqb_spec d 0) as [->|N]; cbn [andb].
    + destruct (Nat.leb_spec w (length ds)) as [L|L].
      * destruct (IH F' L) as (ds' & A & B & C & E & G). exists ds'. cbn [length number]. repeat split; auto; lia.
      * exists (0 :: ds). cbn [length] in *. repeat split; auto; lia.
    + exists (d :: ds). cbn [length] in *. repeat split; auto.
Qed.
Lemma addr_ok off : address off (fmt_X 3 (Z.of_nat off)) /\ length (fmt_X 3 (Z.of_nat off)) <= 8.
Proof.
  unfold fmt_X. destruct (xdigits_ok 8 (Z.of_nat off mod 2 ^ 32)%Z) as (A & F & L). rewrite A.
  destruct (strip_ok 3 _ F) as (ds & S1 & F1 & N1 & L1 & H1); [lia|]. rewrite S1. split; [|rewrite map_length; lia].
  exists ds. split; [reflexivity|]. split; [exact F1|]. split; [|split; [lia|exact H1]].
  rewrite N1, nds_number by (apply Z.mod_pos_bound; lia). change (16 ^ Z.of_nat 8)%Z with (2 ^ 32)%Z. apply Z.mod_mod. lia.
Qed.
Lemma hex2_ok b : fmt_X 2 (Z.of_nat (nat_of_ascii b)) = hex2 b.
Proof. destruct b as [[] [] [] [] [] [] [] []]; vm_compute; reflexivity. Qed.
Lemma shown_ok b : (if isprint b then b else ".") = shown b.
Proof. unfold isprint, shown. rewrite <- (Nat.leb_antisym (nat_of_ascii b) 126) || idtac. destruct (Nat.leb_spec (nat_of_ascii b) 126), (Nat.ltb_spec (nat_of_ascii b) 127); try lia; reflexivity. Qed.

(** ** The loops *)
Definition sepd (c2 : nat) : bool := (negb (Nat.eqb c2 0) && Nat.eqb (c2 mod 4) 0)%bool.
Fixpoint hexs (c2 : nat) (chunk : bytes) : bytes :=
  match chunk with [] => [] | b :: r => (if sepd c2 then [" "] else []) ++ hex2 b ++ hexs (S c2) r end.
Fixpoint pads (k c2 : nat) : bytes := match k with 0 => [] | S k => (if sepd c2 then B "   " else B "  ") ++ pads k (S c2) end.
Fixpoint shows (c2 : nat) (chunk : bytes) : bytes :=
  match chunk with [] => [] | b :: r => (if Nat.eqb (c2 mod 4) 0 then [" "] else []) ++ shown b :: shows (S c2) r end.

Lemma hex_loop_ok cap buf count chunk : forall c2 s,
  (forall i, i < length chunk -> nth_error buf (count + (c2 + i)) = nth_error chunk i) -> length s + length (hexs c2 chunk) < cap ->
  hex_loop cap buf count (length chunk) c2 s = Ok (s ++ hexs c2 chunk).
Proof.
  induction chunk as [|b r IH]; intros c2 s R L; [cbn; rewrite app_nil_r; reflexivity|]. cbn [length hex_loop hexs] in *. fold (sepd c2). rewrite !app_length in L.
  assert (X : (if sepd c2 then put cap s " " else Ok s) = Ok (s ++ if sepd c2 then [" "] else [])).
  { destruct (sepd c2); [|rewrite app_nil_r; reflexivity]. unfold put. destruct (Nat.ltb_spec (length s) cap); [reflexivity|cbn in L; lia]. }
  rewrite X. cbn [bind]. unfold read. specialize (R 0) as R0. rewrite Nat.add_0_r in R0. rewrite R0 by lia. cbn [nth_error bind]. rewrite hex2_ok. unfold puts at 1.
  rewrite app_length. destruct (Nat.ltb_spec (length s + length (if sepd c2 then [" "] else []) + length (hex2 b)) cap); [|lia]. cbn [bind].
  rewrite IH; [rewrite <- !app_assoc; reflexivity| |rewrite !app_length; lia]. intros i I. specialize (R (S i)). replace (S c2 + i) with (c2 + S i) by lia. apply R. lia.
Qed.
Lemma pad_loop_ok cap k : forall c2 s, length s + length (pads k c2) < cap -> pad_loop cap k c2 s = Ok (s ++ pads k c2).
Proof.
  induction k as [|k IH]; intros c2 s L; [cbn; rewrite app_nil_r; reflexivity|]. cbn [pad_loop pads] in *. fold (sepd c2). rewrite app_length in L.
  assert (X : (if sepd c2 then puts cap s (B "   ") else puts cap s (B "  ")) = Ok (s ++ if sepd c2 then B "   " else B "  ")).
  { destruct (sepd c2); unfold puts; match goal with |- context [Nat.ltb ?a ?b] => destruct (Nat.ltb_spec a b) end; try reflexivity; lia. }
  rewrite X. cbn [bind]. rewrite IH by (rewrite app_length; lia). rewrite app_assoc. reflexivity.
Qed.
Lemma char_loop_ok cap buf count chunk : forall c2 s,
  (forall i, i < length chunk -> nth_error buf (count + (c2 + i)) = nth_error chunk i) -> length s + length (shows c2 chunk) <= cap ->
  char_loop cap buf count (length chunk) c2 s = Ok (s ++ shows c2 chunk).
Proof.
  induction chunk as [|b r IH]; intros c2 s R L; [cbn; rewrite app_nil_r; reflexivity|]. cbn [length char_loop shows] in *. rewrite app_length in L. cbn [length] in L.
  assert (X : (if Nat.eqb (c2 mod 4) 0 then put cap s " " else Ok s) = Ok (s ++ if Nat.eqb (c2 mod 4) 0 then [" "] else [])).
  { destruct (Nat.eqb (c2 mod 4) 0); [|rewrite app_nil_r; reflexivity]. unfold put. destruct (Nat.ltb_spec (length s) cap); [reflexivity|cbn [length] in L; lia]. }
  rewrite X. cbn [bind]. unfold read. specialize (R 0) as R0. rewrite Nat.add_0_r in R0. rewrite R0 by lia. cbn [nth_error bind]. rewrite shown_ok. unfold put at 1.
  rewrite app_length. destruct (Nat.ltb_spec (length s + length (if Nat.eqb (c2 mod 4) 0 then [" "] else [])) cap); [|lia]. cbn [bind].
  rewrite IH; [rewrite <- !app_assoc; reflexivity| |rewrite !app_length; cbn [length]; lia]. intros i I. specialize (R (S i)). replace (S c2 + i) with (c2 + S i) by lia. apply R. lia.
Qed.

Lemma line_hex chunk : length chunk <= 16 -> chunk <> [] ->
  hexs 0 chunk ++ pads (16 - length chunk) (length chunk) = ljust 35 (join " " (map (fun g => concat (map hex2 g)) (fours chunk))) /\
  length (hexs 0 chunk ++ pads (16 - length chunk) (length chunk)) = 35.
Proof.
  intros L N. do 16 (destruct chunk as [|? chunk]; [try (destruct N; reflexivity); split; reflexivity|]). destruct chunk; [split; reflexivity|]. cbn [length] in L. lia.
Qed.
Lemma line_chars chunk : length chunk <= 16 -> shows 0 chunk = concat (map (fun g => " " :: map shown g) (fours chunk)) /\ length (shows 0 chunk) <= 20.
Proof.
  intros L. do 16 (destruct chunk as [|? chunk]; [split; [reflexivity|cbn [shows Nat.eqb Nat.modulo app length]; cbn; lia]|]). destruct chunk; [split; [reflexivity|cbn; lia]|]. cbn [length] in L. lia.
Qed.

Lemma nth_firstn {A} (l : list A) : forall k i, i < k -> nth_error (firstn k l) i = nth_error l i.
Proof. induction l as [|x l IH]; intros [|k] i H; try lia; [destruct i; reflexivity|]. destruct i; [reflexivity|]. cbn [firstn nth_error]. apply IH. lia. Qed.
Lemma skip_skip {A} (l : list A) a b : skipn a (skipn b l) = skipn (a + b) l.
Proof. revert a l. induction b as [|b IH]; intros a l; [rewrite Nat.add_0_r; reflexivity|]. rewrite Nat.add_succ_r. destruct l as [|x l]; [rewrite !skipn_nil; reflexivity|]. cbn [skipn]. apply IH. Qed.
Lemma bound (a b cap : nat) : a < cap -> Nat.ltb a cap = true.
Proof. intros H. apply Nat.ltb_lt, H. Qed.

Lemma line_loop_ok cap buf chars : cap = length buf / 16 * 80 + 80 -> forall fuel n s,
  length buf < fuel + n -> (n = 0 \/ 16 * (n - 1) < length buf) -> length s <= 68 * n ->
  exists t, line_loop fuel cap buf (length buf) (16 * n) chars s = Ok (s ++ t) /\ dump chars (16 * n) (skipn (16 * n) buf) t /\ length (s ++ t) < cap.
Proof.
  intros C. induction fuel as [|fuel IH]; intros n s F M L; [lia|]. cbn [line_loop].
  assert (Q : forall k, 16 * k < length buf -> 80 * k + 80 <= cap).
  { intros k K. assert (k <= length buf / 16) by (apply Nat.div_le_lower_bound; lia). lia. }
  destruct (Nat.ltb_spec (16 * n) (length buf)) as [H|H].
  - specialize (Q n H). set (rest := skipn (16 * n) buf). set (chunk := firstn 16 rest).
    assert (RL : length rest = length buf - 16 * n) by apply skipn_length.
    assert (CL : length chunk = if Nat.ltb (length buf - 16 * n) 16 then length buf - 16 * n else 16).
    { unfold chunk. rewrite firstn_length, RL. destruct (Nat.ltb_spec (length buf - 16 * n) 16); lia. }
    rewrite <- CL. assert (C16 : length chunk <= 16) by (rewrite CL; destruct (Nat.ltb_spec (length buf - 16 * n) 16); lia).
    assert (CN : chunk <> []) by (intros E; apply (f_equal (@length _)) in E; rewrite CL in E; cbn [length] in E; destruct (Nat.ltb_spec (length buf - 16 * n) 16); lia).
    assert (RD : forall i, i < length chunk -> nth_error buf (16 * n + (0 + i)) = nth_error chunk i).
    { intros i I. cbn [Nat.add]. unfold chunk, rest. rewrite <- (firstn_skipn (16 * n) buf) at 1. rewrite nth_error_app2 by (rewrite firstn_length; lia). rewrite firstn_length, Nat.min_l by lia.
      replace (16 * n + i - 16 * n) with i by lia. fold rest. fold chunk in I. rewrite nth_firstn by lia. reflexivity. }
    destruct (addr_ok (16 * n)) as [AD AL]. destruct (line_hex chunk C16 CN) as [LH LL]. destruct (line_chars chunk C16) as [CH CC]. rewrite app_length in LL.
    unfold puts at 1. rewrite !app_length. change (length (B "[")) with 1. change (length (B "] ")) with 2.
    rewrite bound by (exact 0 || lia). cbn [bind]. set (s1 := s ++ _). assert (L1 : length s1 <= 68 * n + 11) by (unfold s1; rewrite !app_length; cbn [length B]; change (length (B "[")) with 1; change (length (B "] ")) with 2; lia).
    rewrite hex_loop_ok by (exact RD || lia). cbn [bind]. rewrite pad_loop_ok by (rewrite app_length; lia). cbn [bind]. unfold put at 1. rewrite bound by (exact 0 || (rewrite !app_length; lia)). cbn [bind].
    set (s2 := ((s1 ++ _) ++ _) ++ _). assert (L2 : length s2 <= 68 * n + 47) by (unfold s2; rewrite !app_length; cbn [length]; lia).
    set (ch := if chars then shows 0 chunk else []).
    assert (X : (if chars then char_loop cap buf (16 * n) (length chunk) 0 s2 else Ok s2) = Ok (s2 ++ ch)).
    { unfold ch. destruct chars; [apply char_loop_ok; [exact RD|lia]|rewrite app_nil_r; reflexivity]. }
    assert (CHL : length ch <= 20) by (unfold ch; destruct chars; cbn [length]; lia).
    rewrite X. cbn [bind]. unfold put at 1. rewrite bound by (exact 0 || (rewrite !app_length; lia)). cbn [bind].
    replace (16 * n + 16) with (16 * S n) by lia.
    destruct (IH (S n) ((s2 ++ ch) ++ ["010"])) as (t & E & D & LT).
    + lia.
    + right. replace (S n - 1) with n by lia. exact H.
    + rewrite !app_length. cbn [length]. lia.
    + set (line := B "[" ++ fmt_X 3 (Z.of_nat (16 * n)) ++ B "] " ++ (hexs 0 chunk ++ pads (16 - length chunk) (length chunk)) ++ [" "] ++ ch ++ ["010"]).
      assert (EQ : (s2 ++ ch) ++ ["010"] = s ++ line) by (unfold s2, s1, line; rewrite <- !app_assoc; reflexivity).
      rewrite EQ in E, LT. exists (line ++ t). split; [rewrite EQ, E, app_assoc; reflexivity|]. split; [|rewrite app_assoc; exact LT].
      fold rest. rewrite <- (firstn_skipn 16 rest). fold chunk. apply dump_line; try assumption.
      * intros RN. assert (length (skipn 16 rest) <> 0) by (intros Z; apply length_zero_iff_nil in Z; contradiction). rewrite skipn_length in H0. rewrite CL. destruct (Nat.ltb_spec (length buf - 16 * n) 16); lia.
      * exists (fmt_X 3 (Z.of_nat (16 * n))). split; [exact AD|]. unfold line. rewrite LH. unfold ch. rewrite CH. reflexivity.
      * replace (16 * n + 16) with (16 * S n) by lia. unfold rest. rewrite skip_skip. replace (16 + 16 * n) with (16 * S n) by lia. exact D.
  - exists []. rewrite app_nil_r. split; [reflexivity|]. split; [rewrite skipn_all2 by lia; constructor|].
    destruct M as [->|M]; [lia|]. specialize (Q _ M). lia.
Qed.

(** ** Reading a dump back *)
Definition dehex (c : byte) : nat := let n := nat_of_ascii c in if Nat.leb 65 n then n - 55 else n - 48.
Fixpoint pairs (s : bytes) : bytes := match s with a :: b :: r => ascii_of_nat (16 * dehex a + dehex b) :: pairs r | _ => [] end.
Definition solid (s : bytes) : bytes := filter (fun c => negb (Ascii.eqb c " ")) s.
Lemma dehex2 b : exists x y, hex2 b = [x; y] /\ ascii_of_nat (16 * dehex x + dehex y) = b /\ Ascii.eqb x " " = false /\ Ascii.eqb y " " = false.
Proof. exists (digit (nat_of_ascii b / 16)), (digit (nat_of_ascii b mod 16)). split; [reflexivity|]. destruct b as [[] [] [] [] [] [] [] []]; vm_compute; repeat split. Qed.
Lemma solid_hexs chunk : forall c2, solid (hexs c2 chunk) = concat (map hex2 chunk).
Proof.
  induction chunk as [|b r IH]; intros c2; [reflexivity|]. cbn [hexs map concat]. unfold solid in *. rewrite !filter_app, IH. destruct (dehex2 b) as (x & y & E & _ & X & Y). rewrite E. cbn [filter]. rewrite X, Y. destruct (sepd c2); reflexivity.
Qed.
Lemma solid_pads k : forall c2, solid (pads k c2) = [].
Proof. induction k as [|k IH]; intros c2; [reflexivity|]. cbn [pads]. unfold solid in *. rewrite filter_app, IH. destruct (sepd c2); reflexivity. Qed.
Lemma pairs_hex chunk : pairs (concat (map hex2 chunk)) = chunk.
Proof. induction chunk as [|b r IH]; [reflexivity|]. cbn [map concat]. destruct (dehex2 b) as (x & y & E & V & _). rewrite E. cbn [app pairs]. rewrite V, IH. reflexivity. Qed.
Definition area (chunk : bytes) : bytes := ljust 35 (join " " (map (fun g => concat (map hex2 g)) (fours chunk))).
Lemma area_ok chunk : length chunk <= 16 -> chunk <> [] -> pairs (solid (area chunk)) = chunk /\ length (area chunk) = 35.
Proof.
  intros L N. destruct (line_hex chunk L N) as [E LL]. unfold area. rewrite <- E. split; [|exact LL].
  unfold solid. rewrite filter_app. fold (solid (hexs 0 chunk)). fold (solid (pads (16 - length chunk) (length chunk))). rewrite solid_hexs, solid_pads, app_nil_r. apply pairs_hex.
Qed.
Lemma digit_close d : d < 16 -> digit d <> "]".
Proof. intros H. do 16 (destruct d as [|d]; [discriminate|]). lia. Qed.
Lemma addr_split a b x y : Forall (fun c => c <> "]") a -> Forall (fun c => c <> "]") b -> a ++ "]" :: x = b ++ "]" :: y -> a = b /\ x = y.
Proof.
  revert b. induction a as [|c a IH]; intros [|d b] A C H; cbn [app] in H.
  - injection H as ->. auto.
  - injection H as <- _. inversion C; congruence.
  - injection H as -> _. inversion A; congruence.
  - injection H as -> H. inversion A; subst. inversion C; subst. destruct (IH b H3 H5 H) as [-> ->]. auto.
Qed.
Lemma app_len {A} (a b x y : list A) : length a = length b -> a ++ x = b ++ y -> a = b /\ x = y.
Proof. revert b. induction a as [|c a IH]; intros [|d b] L H; try discriminate; [auto|]. injection L as L. injection H as -> H. destruct (IH b L H) as [-> ->]. auto. Qed.
Lemma address_close off a : address off a -> Forall (fun c => c <> "]") a.
Proof. intros (ds & -> & F & _). apply Forall_map. eapply Forall_impl; [|exact F]. exact digit_close. Qed.
Lemma dump_inj chars off a t : dump chars off a t -> forall off' b, dump chars off' b t -> a = b.
Proof.
  induction 1 as [off|off chunk rest t text N L16 R (addr & AD & ->) D IH]; intros off' b D'; inversion D' as [o E1 E2 E3|o chunk' rest' t' text' N' L16' R' (addr' & AD' & ->) DD E1 E2 E3]; subst; try discriminate; [reflexivity|].
  fold (area chunk) in E3. fold (area chunk') in E3. repeat rewrite <- !app_assoc, <- ?app_comm_cons in E3.
  apply addr_split in E3; [|eapply address_close; eassumption|eapply address_close; eassumption]. destruct E3 as [_ E3]. injection E3 as E3. rewrite <- ?app_assoc in E3.
  destruct (area_ok chunk L16 N) as [P1 L1]. destruct (area_ok chunk' L16' N') as [P2 L2].
  apply app_len in E3; [|congruence]. destruct E3 as [EA E3]. assert (chunk = chunk') by congruence. subst chunk'. injection E3 as E3. apply app_inv_head in E3. cbn [app] in E3. injection E3 as E3. f_equal. eapply IH. rewrite <- E3. exact DD.
Qed.
Lemma dump_nonul chars off a t : dump chars off a t -> ~ In "000" t.
Proof.
  induction 1 as [off|off chunk rest t text N L16 R (addr & AD & ->) D IH]; [intros []|]. intros I. apply in_app_or in I. destruct I as [I|I]; [|exact (IH I)].
  assert (NA : ~ In "000" addr). { intros J. destruct AD as (ds & -> & F & _). apply in_map_iff in J. destruct J as (d & E & J). rewrite Forall_forall in F. apply F in J. do 16 (destruct d as [|d]; [discriminate|]). lia. }
  destruct (line_hex chunk L16 N) as [LH _]. destruct (line_chars chunk L16) as [LC _]. rewrite <- LH, <- LC in I.
  assert (NH : forall l c2, ~ In "000" (hexs c2 l)). { induction l as [|b l IHl]; intros c2 J; [exact J|]. cbn [hexs] in J. apply in_app_or in J. destruct J as [J|J]; [destruct (sepd c2); [destruct J as [J|[]]; discriminate|exact J]|]. apply in_app_or in J. destruct J as [J|J]; [|eapply IHl; exact J]. destruct b as [[] [] [] [] [] [] [] []]; vm_compute in J; intuition discriminate. }
  assert (NP : forall k c2, ~ In "000" (pads k c2)). { induction k as [|k IHl]; intros c2 J; [exact J|]. cbn [pads] in J. apply in_app_or in J. destruct J as [J|J]; [destruct (sepd c2); vm_compute in J; intuition discriminate|eapply IHl; exact J]. }
  assert (NS : forall l c2, ~ In "000" (shows c2 l)). { induction l as [|b l IHl]; intros c2 J; [exact J|]. cbn [shows] in J. apply in_app_or in J. destruct J as [J|[J|J]]; [destruct (Nat.eqb (c2 mod 4) 0); [destruct J as [J|[]]; discriminate|exact J]| |eapply IHl; exact J]. destruct b as [[] [] [] [] [] [] [] []]; vm_compute in J; discriminate. }
  destruct I as [I|I]; [discriminate|]. apply in_app_or in I. destruct I as [I|I]; [exact (NA I)|]. apply in_app_or in I. destruct I as [I|I]; [vm_compute in I; intuition discriminate|].
  apply in_app_or in I. destruct I as [I|I]; [apply in_app_or in I; destruct I as [I|I]; [eapply NH; exact I|eapply NP; exact I]|].
  apply in_app_or in I. destruct I as [I|I]; [vm_compute in I; intuition discriminate|]. apply in_app_or in I. destruct I as [I|I]; [|vm_compute in I; intuition discriminate]. destruct chars; [eapply NS; exact I|exact I].
Qed.
