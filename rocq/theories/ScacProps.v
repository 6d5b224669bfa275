(** C98: the cache of strings. *)
From Verif Require Import Base BaseFacts ScacModel ScacProofs.
Local Open Scope nat_scope.

(** Any history. *)
Definition reached (s : st) : Prop := exists l, run initial l = Ok s.
Lemma reached_inv s : reached s -> inv s.
Proof. intros (l & E). eapply run_inv; [exact initial_inv|exact E]. Qed.
(** The text of the program's [i]-th variable. *)
Definition text_of (s : st) (i : nat) : option bytes := match nth_error (vars s) i with Some b => Some (txt s b) | None => None end.

(** get() always gives a string with the same text. *)
Theorem C98_get s t : reached s -> caches s <> 0 ->
  (exists s', step s (GetText t) = Ok s' /\ text_of s' 0 = Some t) /\
  forall i, text_of s i = Some t -> exists s', step s (GetVar i) = Ok s' /\ text_of s' 0 = Some t.
Proof.
  intros R C. split.
  - cbn [step]. unfold get_text. destruct (caches s); [congruence|]. destruct (lookup s t) as [b|] eqn:L; eexists; (split; [reflexivity|]); unfold text_of; cbn [nth_error vars]; f_equal.
    + apply lookup_some in L. apply L.
    + apply txt_new.
  - intros i E. unfold text_of in E. cbn [step]. unfold get_var. destruct (caches s); [congruence|]. destruct (nth_error (vars s) i) as [v|]; [|discriminate]. injection E as E. rewrite E. destruct (lookup s t) as [b|] eqn:L; eexists; (split; [reflexivity|]); unfold text_of; cbn [nth_error vars]; f_equal.
    + apply lookup_some in L. apply L.
    + exact E.
Qed.
(** The other variables keep their texts, whatever is done to the cache, and when a
    variable is edited. *)
Theorem C98_texts s o s' : reached s -> step s o = Ok s' ->
  match o with
  | Make t => text_of s' 0 = Some t /\ forall j, text_of s' (S j) = text_of s j
  | GetText _ | GetVar _ => forall j, text_of s' (S j) = text_of s j
  | Drop i => forall j, text_of s' j = text_of s (if Nat.ltb j i then j else S j)
  | Edit i t => forall j, text_of s' j = if (Nat.eqb j i && Nat.ltb j (length (vars s)))%bool then Some t else text_of s j
  | Clean | New | Delete => forall j, text_of s' j = text_of s j
  end.
Proof.
  intros R E. pose proof (reached_inv s R) as [Iv It _ _].
  assert (G : forall x v t c m j, text_of (St (bufs s ++ x) (v :: vars s) t c m) (S j) = text_of s j).
  { intros x v t c m j. unfold text_of. cbn [nth_error vars]. destruct (nth_error (vars s) j) as [b|] eqn:N; [|reflexivity]. f_equal. apply txt_grow. rewrite Forall_forall in Iv. apply Iv, (nth_error_In _ _ N). }
  destruct o as [t|i|i t|t|i| | |]; cbn [step] in E.
  - injection E as <-. split; [unfold text_of; cbn [make nth_error vars]; f_equal; apply txt_new|]. intros j. apply G.
  - injection E as <-. intros j. unfold text_of. cbn [drop vars]. assert (X : nth_error (del (vars s) i) j = nth_error (vars s) (if Nat.ltb j i then j else S j)); [|rewrite X; reflexivity].
    clear. revert i j. induction (vars s) as [|a l IH]; intros [|i] [|j]; cbn [del nth_error]; try reflexivity; [destruct (_ <? _); reflexivity|].
    rewrite IH. change (S j <? S i) with (j <? i). destruct (j <? i); reflexivity.
  - injection E as <-. intros j. unfold edit. destruct (nth_error (vars s) i) as [b|] eqn:N.
    + assert (Li : i < length (vars s)) by (apply nth_error_Some; congruence). assert (Lb : b < length (bufs s)) by (rewrite Forall_forall in Iv; apply Iv, (nth_error_In _ _ N)). destruct (is_unique s b) eqn:U.
      * destruct (unique_alone s b i N U) as [_ A]. unfold text_of. cbn [vars]. destruct (Nat.eqb_spec j i) as [->|Ne].
        -- cbn [andb]. replace (i <? length (vars s)) with true by (symmetry; apply Nat.ltb_lt, Li). rewrite N. f_equal. unfold txt. cbn [bufs]. apply put_nth_same, Lb.
        -- cbn [andb]. destruct (nth_error (vars s) j) as [c|] eqn:Nj; [|reflexivity]. f_equal. unfold txt. cbn [bufs]. apply put_nth. intros <-. apply Ne, A, Nj.
      * unfold text_of. cbn [vars]. destruct (Nat.eqb_spec j i) as [->|Ne].
        -- cbn [andb]. replace (i <? length (vars s)) with true by (symmetry; apply Nat.ltb_lt, Li). rewrite put_same by exact Li. f_equal. apply txt_new.
        -- cbn [andb]. rewrite put_other by congruence. destruct (nth_error (vars s) j) as [c|] eqn:Nj; [|reflexivity]. f_equal. apply txt_grow. rewrite Forall_forall in Iv. apply Iv, (nth_error_In _ _ Nj).
    + destruct (Nat.eqb_spec j i) as [->|Ne]; [|reflexivity]. apply nth_error_None in N. replace (i <? length (vars s)) with false by (symmetry; apply Nat.ltb_ge, N). reflexivity.
  - unfold get_text in E. destruct (caches s); [discriminate|]. destruct (lookup s t); injection E as <-; intros j; [reflexivity|apply G].
  - unfold get_var in E. destruct (caches s); [discriminate|]. destruct (nth_error (vars s) i); [|discriminate]. destruct (lookup s _); injection E as <-; intros j; reflexivity.
  - destruct (caches s); [discriminate|]. injection E as <-. intros j. unfold text_of, txt. destruct (clean_bufs s) as (-> & -> & _). reflexivity.
  - injection E as <-. unfold construct. destruct (caches s); reflexivity.
  - injection E as <-. unfold destruct_cache. destruct (caches s) as [|[|c]]; try reflexivity. intros j. set (s1 := St _ _ _ _ _). unfold text_of, txt. destruct (clean_bufs s1) as (-> & -> & _). reflexivity.
Qed.

(** While a string from get() is in use and some cache object lives, get() of the same text
    gives the same memory again: after any calls, also of clean(). *)
Fixpoint run_using (b : nat) (s : st) (l : list op) : option st :=
  match l with
  | [] => Some s
  | o :: l => match step s o with Ok s => if (existsb (Nat.eqb b) (vars s) && negb (Nat.eqb (caches s) 0))%bool then run_using b s l else None | _ => None end
  end.
Theorem C98_share s t s1 b l s2 : reached s -> step s (GetText t) = Ok s1 -> nth_error (vars s1) 0 = Some b -> run_using b s1 l = Some s2 ->
  (exists s3, step s2 (GetText t) = Ok s3 /\ nth_error (vars s3) 0 = Some b) /\
  forall i, text_of s2 i = Some t -> exists s3, step s2 (GetVar i) = Ok s3 /\ nth_error (vars s3) 0 = Some b.
Proof.
  intros R E N U. pose proof (reached_inv s R) as I. assert (I1 := step_inv _ _ _ I E).
  assert (X : In b (tab s1) /\ txt s1 b = t /\ In b (vars s1) /\ caches s1 <> 0).
  { cbn [step] in E. unfold get_text in E. destruct (caches s) eqn:C; [discriminate|]. destruct (lookup s t) as [c|] eqn:L; injection E as <-; cbn in N; injection N as <-.
    - destruct (lookup_some _ _ _ L) as [A1 A2]. cbn. split; [exact A1|]. split; [exact A2|]. split; [auto|discriminate].
    - split; [left; reflexivity|]. split; [apply txt_new|]. split; [left; reflexivity|discriminate]. }
  assert (Y : inv s2 /\ In b (tab s2) /\ txt s2 b = t /\ caches s2 <> 0).
  { clear E N I R. revert s1 I1 X U. induction l as [|o l IH]; intros s1 I1 (X1 & X2 & X3 & X4) U; cbn [run_using] in U; [injection U as <-; auto|]. destruct (step s1 o) as [s'| |] eqn:St; try discriminate. destruct (existsb (Nat.eqb b) (vars s')) eqn:Ex; [|discriminate]. destruct (Nat.eqb_spec (caches s') 0) as [|Nc]; [discriminate|]. cbn in U.
    destruct (step_tab s1 o s' b I1 St X1 X3 Nc) as [T1 T2]. apply (IH s'); [eapply step_inv; eassumption| |exact U]. split; [exact T1|]. split; [congruence|]. split; [|exact Nc]. apply existsb_exists in Ex. destruct Ex as (c & Ec & Q). apply Nat.eqb_eq in Q. subst c. exact Ec. }
  destruct Y as (I2 & T2 & E2 & C2). assert (L := lookup_in s2 b I2 T2). rewrite E2 in L. split.
  - cbn [step]. unfold get_text. destruct (caches s2); [congruence|]. rewrite L. eexists. split; reflexivity.
  - intros i Ei. cbn [step]. unfold get_var, text_of in *. destruct (caches s2); [congruence|]. destruct (nth_error (vars s2) i) as [v|]; [|discriminate]. injection Ei as ->. rewrite L. eexists. split; reflexivity.
Qed.
(** No text is in the cache twice. *)
Theorem C98_once s : reached s -> NoDup (map (txt s) (tab s)).
Proof. intros R. apply (i_one s (reached_inv s R)). Qed.

(** What clean() leaves, if it has not been put off: exactly what is in use.  It is put off
    until the table has grown by a tenth, and one, since it last was not. *)
Theorem C98_clean_partial s s1 l s2 : reached s -> caches s <> 0 -> limit s <= length (tab s) -> step s Clean = Ok s1 -> run s1 l = Ok s2 ->
  (forall o, In o l -> o <> Clean /\ o <> New /\ o <> Delete) -> caches s2 <> 0 ->
  (forall b, In b (tab s1) <-> In b (tab s) /\ In b (vars s)) /\
  (length (tab s1) + length (tab s1) / 10 < length (tab s2) -> forall s3, step s2 Clean = Ok s3 -> forall b, In b (tab s3) <-> In b (tab s2) /\ In b (vars s2)) /\
  (length (tab s2) <= length (tab s1) + length (tab s1) / 10 -> step s2 Clean = Ok s2).
Proof.
  intros R C L E1 E2 O C2. pose proof (reached_inv s R) as I. assert (I1 := step_inv _ _ _ I E1). assert (I2 := run_inv _ _ _ I1 E2). cbn [step] in *. destruct (caches s) eqn:Cs; [congruence|]. injection E1 as <-.
  assert (LM : limit s2 = length (tab (clean s)) + length (tab (clean s)) / 10 + 1).
  { assert (L1 : limit (clean s) = length (tab (clean s)) + length (tab (clean s)) / 10 + 1) by (unfold clean; replace (Nat.ltb _ _) with false by (symmetry; apply Nat.ltb_ge, L); reflexivity).
    rewrite <- L1. clear - E2 O. revert E2. generalize (clean s). induction l as [|o l IH]; intros s1 E; cbn [run] in E; [congruence|]. destruct (step s1 o) as [s'| |] eqn:St; try discriminate. cbn [bind] in E. rewrite (IH (fun o H => O o (or_intror H)) s' E).
    destruct (O o (or_introl eq_refl)) as (O1 & O2 & O3). destruct o as [t|i|i t|t|i| | |]; cbn [step] in St; try congruence; try (injection St as <-; reflexivity).
    - injection St as <-. unfold edit. destruct (nth_error _ _); [|reflexivity]. destruct (is_unique _ _); reflexivity.
    - unfold get_text in St. destruct (caches s1); [discriminate|]. destruct (lookup _ _); injection St as <-; reflexivity.
    - unfold get_var in St. destruct (caches s1); [discriminate|]. destruct (nth_error _ _); [|discriminate]. destruct (lookup _ _); injection St as <-; reflexivity. }
  split; [intros b; apply clean_due; assumption|]. destruct (caches s2); [congruence|]. split.
  - intros G s3 E3 b. injection E3 as <-. apply clean_due; [exact I2|lia].
  - intros G. unfold clean at 1. replace (Nat.ltb _ _) with true by (symmetry; apply Nat.ltb_lt; lia). reflexivity.
Qed.
(** What is in use is never removed, put off or not. *)
Theorem C98_keeps s b : In b (tab s) -> In b (vars s) -> In b (tab (clean s)).
Proof. apply clean_keeps. Qed.
(** A string that is no longer in use may stay in the table through any number of clean()s. *)
Theorem C98_clean_refuted n : exists s, reached s /\ vars s = [] /\ tab s = [0] /\ run s (repeat Clean n) = Ok s.
Proof.
  eexists (St [B "big"] [] [0] 1 2). split; [exists [New; GetText (B "big"); Clean; Drop 0]; vm_compute; reflexivity|]. split; [reflexivity|]. split; [reflexivity|]. induction n as [|n IH]; [reflexivity|]. cbn [repeat run step bind]. exact IH.
Qed.

Example C98_ex : exists s s1 s2 b, reached s /\ caches s = 2 /\ step s (GetText (B "k")) = Ok s1 /\ nth_error (vars s1) 0 = Some b /\
  run_using b s1 [Clean; Make (B "k"); GetVar 0; Clean; Edit 0 (B "z"); Make (B "k"); GetText (B "k"); Delete] = Some s2 /\ tab s2 = [b] /\ length (vars s2) = 5.
Proof. eexists _, _, _, _. split; [exists [New; GetText (B "x"); Drop 0; New]; vm_compute; reflexivity|]. repeat (split; [vm_compute; reflexivity|]). vm_compute. reflexivity. Qed.
Example C98_ex_clean : exists s s1 s2, reached s /\ caches s <> 0 /\ limit s <= length (tab s) /\ step s Clean = Ok s1 /\ run s1 [GetText (B "a"); GetText (B "b"); Drop 0] = Ok s2 /\ caches s2 <> 0 /\ length (tab s1) + length (tab s1) / 10 < length (tab s2).
Proof. eexists _, _, _. split; [exists [New; GetText (B "x"); GetText (B "y"); Drop 0]; vm_compute; reflexivity|]. split; [discriminate|]. split; [cbn; lia|]. split; [vm_compute; reflexivity|]. split; [vm_compute; reflexivity|]. split; [discriminate|]. vm_compute. lia. Qed.

Print Assumptions C98_get.
Print Assumptions C98_texts.
Print Assumptions C98_share.
Print Assumptions C98_once.
Print Assumptions C98_clean_partial.
Print Assumptions C98_keeps.
Print Assumptions C98_clean_refuted.
