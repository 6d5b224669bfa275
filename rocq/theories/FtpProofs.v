(** Proofs about urlget/ftpparse.cc: reading inside the line, and what the
    lines of each format are decoded to. *)
From Verif Require Import Base FtpModel FtpSpec FtpDates.
Local Open Scope Z_scope.
Local Open Scope list_scope.

(** ** Reading inside the line *)

Definition safe {A} (o : out A) (P : A -> Prop) : Prop :=
  match o with Ret a => P a | Over => True | Wild | NoFuel => False end.

Lemma safe_bind {A C} (a : out A) (f : A -> out C) P Q :
  safe a P -> (forall x, P x -> safe (f x) Q) -> safe (obind a f) Q.
Proof. destruct a; cbn; auto. Qed.

Lemma safe_weak {A} (a : out A) (P Q : A -> Prop) :
  safe a P -> (forall x, P x -> Q x) -> safe a Q.
Proof. destruct a; cbn; auto. Qed.

Lemma safe_rd l k : (k < length l)%nat -> safe (rd l k) (fun _ => True).
Proof.
  intros H. unfold rd. destruct (nth_error l k) eqn:E; cbn; auto.
  apply nth_error_None in E. lia.
Qed.

Lemma safe_lng z : safe (lng z) (fun _ => True).
Proof. unfold lng. destruct (_ && _); exact I. Qed.

Definition any {A} (_ : A) : Prop := True.

Ltac sb := lazymatch goal with
  | |- safe (obind (lng _) _) _ => eapply safe_bind; [apply safe_lng|intros ? _]
  | |- safe (obind (rd _ _) _) _ => eapply safe_bind; [apply safe_rd; lia|intros ? _]
  end.

Lemma safe_totai y m d : safe (totai y m d) any.
Proof.
  unfold totai.
  eapply safe_bind with (P := any).
  { destruct (2 <=? m); repeat sb; exact I. }
  intros [y1 m1] _. do 5 sb.
  eapply safe_bind with (P := any).
  { destruct (_ =? 365); repeat sb; exact I. }
  intros [y2 r2] _. sb.
  eapply safe_bind with (P := any).
  { destruct (_ =? 36524); repeat sb; exact I. }
  intros [y3 r3] _. repeat sb. apply safe_lng.
Qed.

Lemma safe_guess n : forall y now m d, safe (guess n y now m d) any.
Proof.
  induction n; intros; cbn [guess]; [exact I|].
  eapply safe_bind; [apply safe_totai|intros t _]. sb.
  destruct (_ <? _); [exact I|apply IHn].
Qed.

Lemma safe_guesstai clock c m d : safe (guesstai clock c m d) any.
Proof.
  unfold guesstai, initnow. rewrite base_0. cbn [obind].
  eapply safe_bind with (P := any); [sb; exact I|]. intros [now cur] _.
  eapply safe_bind; [apply safe_guess|]. intros; exact I.
Qed.

Lemma safe_getl l n : forall k u, (k + n <= length l)%nat \/ n = 0%nat ->
  safe (getl l k n u) any.
Proof.
  induction n as [|n IH]; intros k u H; cbn [getl]; [exact I|].
  destruct H as [H|H]; [|discriminate]. do 3 sb. apply IH. lia.
Qed.

Lemma safe_getlong l k n : (k + n <= length l)%nat \/ n = 0%nat -> safe (getlong l k n) any.
Proof. apply safe_getl. Qed.

Lemma safe_check l k m : (k + 3 <= length l)%nat -> safe (check l k m) any.
Proof.
  intros H. unfold check. destruct m as [|? [|? [|? [|]]]]; try exact I.
  sb. destruct (negb _); [exact I|]. sb. destruct (negb _); [exact I|]. sb. exact I.
Qed.

Lemma safe_getmonth l k n : (k + n <= length l)%nat \/ n = 0%nat -> safe (getmonth l k n) any.
Proof.
  intros H. unfold getmonth. destruct (Nat.eqb_spec n 3) as [->|]; [|exact I].
  destruct H; [|lia]. generalize 0. induction months as [|m r IH]; intros z; cbn [findmonth]; [exact I|].
  eapply safe_bind; [apply safe_check; lia|]. intros [|] _; [exact I|apply IH].
Qed.

Lemma safe_moment a b c d : safe (moment a b c d) any.
Proof. unfold moment. repeat sb. apply safe_lng. Qed.

Ltac sg := lazymatch goal with
  | |- safe (obind (getlong _ _ _) _) _ => eapply safe_bind; [apply safe_getlong; lia|intros ? _]
  | |- safe (obind (getmonth _ _ _) _) _ => eapply safe_bind; [apply safe_getmonth; lia|intros ? _]
  | |- safe (obind (totai _ _ _) _) _ => eapply safe_bind; [apply safe_totai|intros ? _]
  | |- safe (obind (moment _ _ _ _) _) _ => eapply safe_bind; [apply safe_moment|intros ? _]
  | |- safe (obind initbase _) _ => rewrite base_0; cbn [obind]
  | _ => sb
  end.

(** The name and the identifier are parts of the line. *)
Definition inside (l : bytes) (f : fp) : Prop :=
  (f_name f + f_namelen f <= length l)%nat /\
  match f_id f with Some (a, n) => (a + n <= length l)%nat | None => True end.

Definition inside_o l (o : option fp) : Prop :=
  match o with Some f => inside l f | None => True end.

Lemma safe_efact l i j f : (i <= j < length l)%nat -> inside l f ->
  safe (efact l i j f) (inside l).
Proof.
  intros H Hf. unfold efact. sb.
  destruct (is "/" x); [exact Hf|]. destruct (is "r" x); [exact Hf|].
  destruct (is "s" x); [repeat sg; exact Hf|].
  destruct (is "m" x); [repeat sg; exact Hf|].
  destruct (is "i" x); [|exact Hf].
  destruct Hf. split; cbn [f_name f_namelen set_id f_id]; [assumption|lia].
Qed.

Lemma safe_eplf l n : forall j i f, n = (length l - j)%nat -> (i <= j)%nat -> inside l f ->
  safe (eplf l n j i f) (inside_o l).
Proof.
  induction n as [|n IH]; intros j i f Hn Hi Hf; cbn [eplf]; [exact I|].
  sb. destruct (Ascii.eqb x _).
  - destruct Hf. split; cbn [set_name f_name f_namelen f_id]; [lia|assumption].
  - destruct (is "," x).
    + eapply safe_bind; [apply safe_efact; eauto; lia|]. intros f' Hf'. apply IH; auto; lia.
    + apply IH; auto; lia.
Qed.

Definition inside_u l (o : option ust) : Prop :=
  match o with Some s => inside l (u_fp s) | None => True end.

Lemma inside_name l j f k t : (j < length l)%nat -> inside l f ->
  inside l (set_name (j + 1) (length l - j - 1) (set_time k t f)).
Proof. intros H [_ Hf]. split; cbn [set_name set_time f_name f_namelen f_id]; [lia|assumption]. Qed.

Lemma safe_uwhen clock l j s : (j < length l)%nat -> inside l (u_fp s) ->
  safe (uwhen clock l j s) (inside_u l).
Proof.
  intros Hj Hf. unfold uwhen. cbv zeta.
  destruct (Nat.eqb_spec (j - u_i s) 4) as [E4|E4].
  - eapply safe_bind with (P := any); [sb; exact I|]. intros [|] _.
    + do 3 sg. eapply safe_bind; [apply safe_guesstai|]. intros [g c] _. sg.
      apply inside_name; auto.
    + rewrite E4. cbn [Nat.eqb obind Nat.leb]. repeat sg. apply inside_name; auto.
  - cbn [obind]. destruct (Nat.eqb_spec (j - u_i s) 5) as [E5|E5].
    + eapply safe_bind with (P := any); [sb; exact I|]. intros [|] _.
      * do 3 sg. eapply safe_bind; [apply safe_guesstai|]. intros [g c] _. sg.
        apply inside_name; auto.
      * rewrite E5. cbn [Nat.leb]. repeat sg. apply inside_name; auto.
    + cbn [obind]. destruct (Nat.leb_spec 4 (j - u_i s)); [|exact I].
      repeat sg. apply inside_name; auto.
Qed.

Lemma safe_uword clock l j s : (j < length l)%nat -> inside l (u_fp s) ->
  safe (uword clock l j s) (inside_u l).
Proof.
  intros Hj Hf. unfold uword. cbv zeta.
  destruct (u_state s) as [|[|[|[|[|[|[|[|]]]]]]]]; try exact Hf.
  - eapply safe_bind with (P := any).
    + destruct (Nat.eqb_spec (j - u_i s) 6); [sb; exact I|exact I].
    + intros; exact Hf.
  - sg. exact Hf.
  - sg. destruct (0 <=? x); [exact Hf|]. sg. exact Hf.
  - sg. exact Hf.
  - apply safe_uwhen; auto.
Qed.

Lemma safe_skipsp l n : forall i, n = (length l - i)%nat -> safe (skipsp l n i) any.
Proof.
  induction n as [|n IH]; intros i H; cbn [skipsp]; [exact I|].
  sb. destruct (is " " x); [apply IH; lia|exact I].
Qed.

Lemma safe_uloop clock l n : forall j s, n = (length l - j)%nat -> (1 <= j)%nat ->
  inside l (u_fp s) -> safe (uloop clock l n j s) (inside_u l).
Proof.
  induction n as [|n IH]; intros j s Hn Hj Hf; cbn [uloop]; [exact Hf|].
  sb. eapply safe_bind with (P := any).
  { destruct (is " " x); [sb; exact I|exact I]. }
  intros [|] _; [|apply IH; auto; lia].
  eapply safe_bind; [apply safe_uword; auto; lia|]. intros [s'|] Hs'; [|exact I].
  eapply safe_bind; [apply safe_skipsp; reflexivity|]. intros i _. apply IH; auto; lia.
Qed.

Lemma safe_arrow l a len n : forall i, (a + len <= length l)%nat ->
  safe (arrow l a len n i) (fun k => (k <= len)%nat).
Proof.
  induction n as [|n IH]; intros i H; cbn [arrow]; [cbn; lia|].
  destruct (Nat.ltb_spec (i + 3) len); [|cbn; lia]. sb.
  eapply safe_bind with (P := any).
  { destruct (negb _); [exact I|]. sb. destruct (negb _); [exact I|]. sb.
    destruct (negb _); [exact I|]. sb. exact I. }
  intros [|] _; [cbn; lia|apply IH; lia].
Qed.

Lemma safe_netware l f : (2 <= length l)%nat -> inside l f -> safe (netware l f) (inside l).
Proof.
  intros H Hf. unfold netware. sb. destruct (negb _); [exact Hf|].
  destruct (Nat.ltb_spec 3 (f_namelen f)); cbn [negb]; [|exact Hf].
  destruct Hf as [Hf Hi].
  repeat (sb; destruct (negb _); [split; assumption|]).
  split; cbn [set_name f_name f_namelen f_id]; [lia|assumption].
Qed.

Definition inside_a l (a : ans) : Prop := inside_o l (fst a).

Lemma safe_unix clock l c0 k : (2 <= length l)%nat -> safe (unix clock l c0 k) (inside_a l).
Proof.
  intros H. unfold unix. cbv zeta.
  set (f := if is "l" c0 then _ else _).
  assert (Hf : inside l f).
  { unfold f. destruct (is "l" c0), (is "-" c0), (is "d" c0); split; cbn; auto; lia. }
  clearbody f.
  eapply safe_bind; [apply safe_uloop; cbn [u_fp]; auto|]. intros [s|] Hs; [|exact I].
  destruct (negb (Nat.eqb (u_state s) 8)); [exact I|].
  destruct Hs as [Hs Hi].
  eapply safe_bind with (P := fun n => (n <= f_namelen (u_fp s))%nat).
  { destruct (is "l" c0); [|cbn; lia]. eapply safe_weak; [apply safe_arrow|]; cbn; auto. }
  intros n Hn. eapply safe_bind; [apply safe_netware; auto|intros x Hx; exact Hx].
  cbn [set_size f_name f_namelen] in *.
  split; cbn [set_name set_size f_name f_namelen f_id]; [lia|assumption].
Qed.

Lemma safe_scan p l n : forall i, (i < length l < i + n)%nat ->
  safe (scan p l n i) (fun r => match r with Some j => (i <= j < length l)%nat | None => True end).
Proof.
  induction n as [|n IH]; intros i H; cbn [scan]; [lia|].
  sb. destruct (p x); [|cbn; lia].
  destruct (Nat.eqb_spec (S i) (length l)); [exact I|].
  eapply safe_weak; [apply IH; lia|]. intros [j|]; lia.
Qed.

Lemma safe_past {A} p l i (f : nat -> out (option A)) P : (i < length l)%nat ->
  (forall j, (i <= j < length l)%nat -> safe (f j) P) -> P None -> safe (past p l i f) P.
Proof.
  intros H Hf HN. unfold past. eapply safe_bind; [apply safe_scan; lia|].
  intros [j|] Hj; [apply Hf; exact Hj|exact HN].
Qed.

Lemma safe_maybe {A} c l j (f : nat -> out (option A)) P : (j < length l)%nat ->
  (forall k, (j <= k < length l)%nat -> safe (f k) P) -> P None -> safe (maybe c l j f) P.
Proof.
  intros H Hf HN. unfold maybe. sb. destruct (is c x); [|apply Hf; lia].
  destruct (Nat.eqb_spec (S j) (length l)); [exact HN|apply Hf; lia].
Qed.

Lemma safe_semi l n : forall i, n = (length l - i)%nat -> (i <= length l)%nat ->
  safe (semi l n i) (fun j => (j <= length l)%nat).
Proof.
  induction n as [|n IH]; intros i H Hi; cbn [semi]; [exact Hi|].
  sb. destruct (is ";" x); [exact Hi|apply IH; lia].
Qed.

Lemma safe_dotdir l i : (i <= length l)%nat -> safe (dotdir l i) (fun b => b = true -> (4 < i)%nat).
Proof.
  intros H. unfold dotdir. destruct (Nat.ltb_spec 4 i); cbn [negb]; [|discriminate].
  repeat (sb; destruct (negb _); [discriminate|]). sb. cbn. auto.
Qed.

Ltac sp := lazymatch goal with
  | |- safe (past _ _ _ _) _ => apply safe_past; [lia|intros ? ?|exact I]
  | |- safe (maybe _ _ _ _) _ => apply safe_maybe; [lia|intros ? ?|exact I]
  | _ => sg
  end.

Lemma safe_vms l i : (i < length l)%nat -> safe (vms l i) (inside_o l).
Proof.
  intros H. unfold vms. eapply safe_bind; [apply safe_dotdir; lia|]. intros d Hd.
  repeat sp. destruct (_ <? 0); [exact I|]. repeat sp.
  destruct d; split; cbn [set_time set_cwd set_retr set_name f_name f_namelen f_id fp0]; auto; lia.
Qed.

Lemma safe_msdos l : (2 <= length l)%nat -> safe (msdos l) (inside_o l).
Proof.
  intros H. unfold msdos. repeat sp. cbv zeta.
  destruct (is "<" _); repeat sp;
    (split; cbn [set_time set_cwd set_retr set_name set_size f_name f_namelen f_id fp0]; [lia|exact I]).
Qed.

Lemma safe_ftpparse clock k l : safe (ftpparse clock k l) (inside_a l).
Proof.
  unfold ftpparse. destruct (Nat.ltb_spec (length l) 2); [exact I|]. sb.
  destruct (is "+" x).
  { eapply safe_bind; [apply safe_eplf; auto; split; cbn; auto; lia|]. intros r Hr. exact Hr. }
  destruct (_ || _); [apply safe_unix; lia|].
  eapply safe_bind; [apply safe_semi; lia|]. intros i Hi. cbn beta in Hi.
  destruct (Nat.ltb_spec i (length l)).
  { eapply safe_bind; [apply safe_vms; lia|]. intros r Hr. exact Hr. }
  destruct (_ && _); [|exact I].
  eapply safe_bind; [apply safe_msdos; lia|]. intros r Hr. exact Hr.
Qed.
