From Coq Require Import Permutation.
From Verif Require Import Base BaseFacts Ctype KeyModel KeySpec KeyProofs TempModel TempSpec.
Local Open Scope nat_scope.

Definition low (s : bytes) : bytes := map tolower s.
Definition lows (k : key) : list bytes := map low k.

Lemma teq_spec a b : teq a b = true <-> low a = low b.
Proof. unfold teq. change (map tolower) with low. destruct (list_eq_dec ascii_dec (low a) (low b)); split; congruence || discriminate || auto. Qed.
Lemma teq_refl a : teq a a = true.
Proof. apply teq_spec. reflexivity. Qed.
Lemma teq_sym a b : teq a b = teq b a.
Proof. destruct (teq a b) eqn:E; symmetry; [apply teq_spec; apply teq_spec in E; congruence|]. destruct (teq b a) eqn:F; [|reflexivity]. apply teq_spec in F. symmetry in F. apply teq_spec in F. congruence. Qed.
Lemma teq_trans a b c : teq a b = true -> teq b c = teq a c.
Proof.
  intros H. apply teq_spec in H. destruct (teq a c) eqn:E.
  - apply teq_spec in E. apply teq_spec. congruence.
  - destruct (teq b c) eqn:F; [|reflexivity]. apply teq_spec in F. assert (teq a c = true) by (apply teq_spec; congruence). congruence.
Qed.
Lemma under_lows : forall k k', under k k' = true <-> exists r, lows k' = lows k ++ r.
Proof.
  induction k as [|x k IH]; intros k'; cbn.
  - split; [exists (lows k'); reflexivity|reflexivity].
  - destruct k' as [|y k']; cbn.
    + split; [discriminate|]. intros (r & E). discriminate.
    + rewrite andb_true_iff, teq_spec, IH. split.
      * intros [E (r & F)]. exists r. fold low. change (map low k') with (lows k'). rewrite E, F. reflexivity.
      * intros (r & E). injection E as E F. split; [symmetry; exact E|]. exists r. exact F.
Qed.
Lemma same_lows k k' : same k k' = true <-> lows k = lows k'.
Proof.
  unfold same. rewrite andb_true_iff, !under_lows. split.
  - intros [(r & E) (r' & E')]. rewrite E in E'. assert (length (lows k) = length ((lows k ++ r) ++ r')) by congruence.
    rewrite !app_length in H. destruct r; [|cbn in H; lia]. rewrite app_nil_r in E. congruence.
  - intros ->. split; exists []; rewrite app_nil_r; reflexivity.
Qed.
Lemma same_refl k : same k k = true.
Proof. apply same_lows. reflexivity. Qed.
Lemma same_cons x k y k' : same (x :: k) (y :: k') = teq x y && same k k'.
Proof. unfold same. cbn [under]. rewrite (teq_sym y x). destruct (teq x y), (under k k'), (under k' k); reflexivity. Qed.
Lemma same_nil_cons y k : same [] (y :: k) = false.
Proof. reflexivity. Qed.

Lemma same_seg_teq a b : nul_free a -> nul_free b -> same_seg a b = teq a b.
Proof.
  intros Ha Hb. unfold same_seg. destruct (teq a b) eqn:E.
  - apply key_eq_spec; [repeat constructor; assumption..|]. apply teq_spec in E. repeat constructor. exact E.
  - destruct (key_eq [a] [b]) eqn:F; [|reflexivity]. apply key_eq_spec in F; [|repeat constructor; assumption..].
    inversion F; subst. change (low a = low b) in H2. apply teq_spec in H2. congruence.
Qed.
Lemma plain_nulf s : plain s -> nul_free s.
Proof. intros (_ & _ & H). exact H. Qed.

Lemma lows_app a b : lows (a ++ b) = lows a ++ lows b.
Proof. apply map_app. Qed.

Lemma plain_slashed k : Forall plain k -> slashed k = false /\ named k = k.
Proof.
  intros P. split; [|apply filter_plain; exact P]. unfold slashed. induction P as [|s k Ps Pk IH]; [reflexivity|]. cbn.
  destruct s; [destruct Ps; congruence|exact IH].
Qed.
Lemma trailing_slashed k : Forall plain k -> slashed (k ++ [[]]) = true /\ named (k ++ [[]]) = k.
Proof.
  intros P. split.
  - unfold slashed. rewrite forallb_app. cbn. rewrite andb_false_r. reflexivity.
  - unfold named. rewrite filter_app. cbn. rewrite app_nil_r. apply filter_plain, P.
Qed.
Lemma canonical_named k : canonical k -> Forall plain (named k).
Proof. intros [P|(k' & _ & P & ->)]; [destruct (plain_slashed k P) as [_ ->]; exact P|destruct (trailing_slashed k' P) as [_ ->]; exact P]. Qed.
Lemma isempty_plain s k : plain s -> isempty (collapse (s :: k)) = false.
Proof. intros (H & _). destruct s; [congruence|]. destruct k; reflexivity. Qed.
Lemma NoDup_app_intro {A} (a b : list A) : NoDup a -> NoDup b -> (forall x, In x a -> In x b -> False) -> NoDup (a ++ b).
Proof.
  induction a as [|x a IH]; intros Ha Hb H; [exact Hb|]. inversion Ha; subst. cbn. constructor.
  - rewrite in_app_iff. intros [?|?]; [contradiction|]. apply (H x); [left; reflexivity|assumption].
  - apply IH; auto. intros y Hy. apply H. right. exact Hy.
Qed.

Section Tree.
Context {V : Type}.
Notation tree := (TempModel.tree V).

Inductive WF : tree -> Prop :=
| WF_node k v ch : Forall (fun c : tree => plain (tkey c)) ch -> NoDup (map (fun c : tree => low (tkey c)) ch) -> Forall WF ch -> WF (Node k v ch).
Lemma WF_inv t : WF t -> Forall (fun c : tree => plain (tkey c)) (tch t) /\ NoDup (map (fun c : tree => low (tkey c)) (tch t)) /\ Forall WF (tch t).
Proof. intros H. inversion H. cbn. auto. Qed.

Lemma child_split : forall ch s c, child ch s = Some c -> exists a b, ch = a ++ c :: b /\ same_seg (tkey c) s = true /\
  (forall n, with_child ch s n = a ++ match n with Some n => n :: b | None => b end) /\ Forall (fun d : tree => same_seg (tkey d) s = false) a.
Proof.
  induction ch as [|d ch IH]; intros s c H; cbn [child] in H; [discriminate|]. destruct (same_seg (tkey d) s) eqn:E.
  - injection H as ->. exists [], ch. cbn. rewrite E. repeat split; auto.
  - destruct (IH s c H) as (a & b & -> & E2 & W & F). exists (d :: a), b. cbn [with_child app]. rewrite E. repeat split; auto.
    intros n. rewrite W. reflexivity.
Qed.
Lemma child_none (ch : list tree) s : child ch s = None <-> Forall (fun d : tree => same_seg (tkey d) s = false) ch.
Proof.
  induction ch as [|d ch IH]; cbn [child]; [split; auto|]. destruct (same_seg (tkey d) s) eqn:E.
  - split; [discriminate|]. intros H. inversion H. congruence.
  - rewrite IH. split; [constructor; assumption|]. intros H. inversion H. assumption.
Qed.
Lemma child_app (a b : list tree) s : child (a ++ b) s = match child a s with Some c => Some c | None => child b s end.
Proof. induction a as [|d a IH]; cbn [child app]; [reflexivity|]. destruct (same_seg (tkey d) s); auto. Qed.
Lemma child_in (ch : list tree) s c : Forall (fun c : tree => plain (tkey c)) ch -> NoDup (map (fun c : tree => low (tkey c)) ch) -> nul_free s ->
  (child ch s = Some c <-> In c ch /\ low (tkey c) = low s).
Proof.
  intros P N Hs. split.
  - intros H. destruct (child_split _ _ _ H) as (a & b & -> & E & _). split; [apply in_app_iff; right; left; reflexivity|].
    rewrite Forall_app in P. destruct P as [_ P]. inversion P; subst. rewrite same_seg_teq in E by (auto using plain_nulf). apply teq_spec, E.
  - intros [Hin E]. apply in_split in Hin. destruct Hin as (a & b & ->). rewrite child_app.
    rewrite map_app in N. cbn in N. apply NoDup_remove_2 in N.
    assert (A : child a s = None).
    { apply child_none. rewrite Forall_forall. intros d Hd. rewrite Forall_forall in P. rewrite same_seg_teq; [|apply plain_nulf, P, in_app_iff; auto|exact Hs].
      destruct (teq (tkey d) s) eqn:F; [|reflexivity]. exfalso. apply N. apply in_app_iff. left. apply teq_spec in F. rewrite E, <- F.
      apply (in_map (fun c : tree => low (tkey c))). exact Hd. }
    rewrite A. cbn [child]. rewrite same_seg_teq; [|apply plain_nulf; rewrite Forall_app in P; destruct P as [_ P]; inversion P; assumption|exact Hs].
    apply teq_spec in E. rewrite E. reflexivity.
Qed.

Fixpoint lk (t : tree) (k : key) : option V :=
  match k with
  | [] => Some (tval t)
  | s :: r => match child (tch t) s with Some c => lk c r | None => None end
  end.
Definition lko (o : option tree) (k : key) : option V := match o with Some t => lk t k | None => None end.

Lemma child_plain t s c : WF t -> child (tch t) s = Some c -> plain (tkey c) /\ WF c.
Proof.
  intros W H. apply WF_inv in W. destruct W as (P & _ & F). destruct (child_split _ _ _ H) as (a & b & E & _). rewrite E in *.
  rewrite Forall_app in P, F. destruct P as [_ P], F as [_ F]. inversion P; inversion F; auto.
Qed.

Lemma child_one (c : tree) s : child [c] s = if same_seg (tkey c) s then Some c else None.
Proof. reflexivity. Qed.

Definition WFo (o : option tree) : Prop := match o with Some t => WF t | None => True end.
Lemma WF_with_child k v0 (ch : list tree) s c c' : WF (Node k v0 ch) -> child ch s = Some c -> tkey c' = tkey c -> WF c' -> WF (Node k v0 (with_child ch s (Some c'))).
Proof.
  intros W H E Wc. destruct (child_split _ _ _ H) as (a & b & -> & _ & Wi & _). rewrite Wi. apply WF_inv in W. cbn [tch] in W. destruct W as (P & N & F).
  constructor.
  - rewrite Forall_app in *. destruct P as [Pa Pb]. inversion Pb; subst. split; [assumption|]. constructor; [rewrite E|]; assumption.
  - rewrite map_app in *. cbn in *. rewrite E. exact N.
  - rewrite Forall_app in *. destruct F as [Fa Fb]. inversion Fb; subst. auto.
Qed.
Lemma low_ne_child (ch : list tree) s : Forall (fun c : tree => plain (tkey c)) ch -> nul_free s -> child ch s = None -> ~ In (low s) (map (fun c : tree => low (tkey c)) ch).
Proof.
  intros P Hs H Hin. apply in_map_iff in Hin. destruct Hin as (d & E & Hd). apply child_none in H. rewrite Forall_forall in H, P.
  specialize (H d Hd). rewrite same_seg_teq in H by (auto using plain_nulf). assert (teq (tkey d) s = true) by (apply teq_spec; exact E). congruence.
Qed.


Lemma lk_low (t : tree) : forall k k', WF t -> Forall plain k -> Forall plain k' -> same k k' = true -> lk t k = lk t k'.
Proof.
  intros k. revert t. induction k as [|s r IH]; intros t [|s' r'] W P P' E; try reflexivity; try discriminate.
  rewrite same_cons in E. apply andb_true_iff in E. destruct E as [E1 E2]. inversion P as [|? ? Ps Pr]; inversion P' as [|? ? Ps' Pr']; subst. cbn [lk].
  assert (C : child (tch t) s = child (tch t) s').
  { apply teq_spec in E1. apply WF_inv in W. destruct W as (Pc & N & _). destruct (child (tch t) s) as [c|] eqn:Ec.
    - symmetry. apply child_in; auto using plain_nulf. apply child_in in Ec; auto using plain_nulf. rewrite <- E1. exact Ec.
    - destruct (child (tch t) s') as [c'|] eqn:Ec'; [|reflexivity]. apply child_in in Ec'; auto using plain_nulf. rewrite <- E1 in Ec'.
      apply child_in in Ec'; auto using plain_nulf. congruence. }
  rewrite C. destruct (child (tch t) s') as [c|] eqn:Ec; [|reflexivity]. apply (IH c); auto. eapply child_plain; eauto.
Qed.

Lemma child_replace t s c c' s' : WF t -> nul_free s -> nul_free s' -> child (tch t) s = Some c -> tkey c' = tkey c ->
  child (with_child (tch t) s (Some c')) s' = if teq s s' then Some c' else child (tch t) s'.
Proof.
  intros W Ns Ns' Ec Tk. pose proof (child_plain t s c W Ec) as [Pc Wc]. pose proof (WF_inv _ W) as (P & N & F).
  pose proof Ec as Hin. apply child_in in Hin; auto. destruct Hin as [_ El].
  destruct (child_split _ _ _ Ec) as (a & b & E & Es & Wi & Fa). rewrite Wi. rewrite E in *.
  rewrite !child_app. cbn [child]. rewrite Tk. rewrite (same_seg_teq (tkey c) s') by (auto using plain_nulf).
  assert (Et : teq (tkey c) s' = teq s s') by (symmetry; apply teq_trans, teq_spec; exact El).
  rewrite Et. destruct (teq s s') eqn:T; [|reflexivity].
  assert (Ha : child a s' = None).
  { apply child_none. rewrite Forall_forall in *. intros d Hd. specialize (Fa d Hd). cbv beta in *.
    assert (plain (tkey d)) by (apply P, in_app_iff; auto).
    rewrite same_seg_teq in Fa |- * by (auto using plain_nulf). rewrite teq_sym in Fa |- *. rewrite <- (teq_trans _ _ _ T) in Fa. exact Fa. }
  rewrite Ha. reflexivity.
Qed.
Lemma child_remove t s c s' : WF t -> nul_free s -> nul_free s' -> child (tch t) s = Some c ->
  child (with_child (tch t) s None) s' = if teq s s' then None else child (tch t) s'.
Proof.
  intros W Ns Ns' Ec. pose proof (child_plain t s c W Ec) as [Pc Wc]. pose proof (WF_inv _ W) as (P & N & F).
  pose proof Ec as Hin. apply child_in in Hin; auto. destruct Hin as [_ El].
  destruct (child_split _ _ _ Ec) as (a & b & E & Es & Wi & Fa). rewrite Wi. rewrite E in *.
  rewrite !child_app. cbn [child]. rewrite (same_seg_teq (tkey c) s') by (auto using plain_nulf).
  assert (Et : teq (tkey c) s' = teq s s') by (symmetry; apply teq_trans, teq_spec; exact El).
  rewrite Et. destruct (teq s s') eqn:T; [|destruct (child a s'); reflexivity].
  apply teq_spec in T. rewrite map_app in N. cbn [map] in N. apply NoDup_remove_2 in N. rewrite El, T in N.
  assert (Hn : child (a ++ b) s' = None).
  { apply child_none. rewrite Forall_forall in *. intros d Hd. cbv beta in *.
    assert (plain (tkey d)) by (apply P; apply in_app_iff in Hd; apply in_app_iff; cbn; tauto).
    rewrite same_seg_teq by (auto using plain_nulf). destruct (teq (tkey d) s') eqn:Q; [|reflexivity]. exfalso. apply N.
    apply teq_spec in Q. rewrite <- map_app, <- Q. apply (in_map (fun c : tree => low (tkey c))). exact Hd. }
  rewrite child_app in Hn. destruct (child a s'); [discriminate|]. exact Hn.
Qed.
Lemma child_added (ch : list tree) c s' : plain (tkey c) -> nul_free s' -> child ch (tkey c) = None -> Forall (fun c : tree => plain (tkey c)) ch ->
  child (ch ++ [c]) s' = if teq (tkey c) s' then Some c else child ch s'.
Proof.
  intros Pc Ns' Ec P. rewrite child_app, child_one, same_seg_teq by (auto using plain_nulf). destruct (teq (tkey c) s') eqn:T.
  - assert (H : child ch s' = None).
    { apply child_none. apply child_none in Ec. rewrite Forall_forall in *. intros d Hd. specialize (Ec d Hd). cbv beta in *.
      specialize (P d Hd). rewrite same_seg_teq in Ec |- * by (auto using plain_nulf). rewrite teq_sym in Ec |- *. rewrite (teq_trans _ _ _ T). exact Ec. }
    rewrite H. reflexivity.
  - destruct (child ch s'); reflexivity.
Qed.

Lemma tree_ind2 (Q : tree -> Prop) : (forall k v ch, Forall Q ch -> Q (Node k v ch)) -> forall t, Q t.
Proof.
  intros H. fix IH 1. intros [k v ch]. apply H. induction ch as [|c ch IHc]; constructor; [apply IH|exact IHc].
Qed.
Lemma child_Forall (ch : list tree) s c (Q : tree -> Prop) : Forall Q ch -> child ch s = Some c -> Q c.
Proof. intros F H. destruct (child_split _ _ _ H) as (a & b & -> & _). rewrite Forall_app in F. destruct F as [_ F]. inversion F; assumption. Qed.
Lemma child_In (ch : list tree) s c : child ch s = Some c -> In c ch.
Proof. intros H. destruct (child_split _ _ _ H) as (a & b & -> & _). apply in_app_iff. right. left. reflexivity. Qed.

Lemma WF_without k v (ch : list tree) s c : WF (Node k v ch) -> child ch s = Some c -> WF (Node k v (with_child ch s None)).
Proof.
  intros W H. destruct (child_split _ _ _ H) as (a & b & -> & _ & Wi & _). rewrite Wi. apply WF_inv in W. cbn [tch] in W. destruct W as (P & N & F).
  constructor.
  - rewrite Forall_app in *. destruct P as [Pa Pb]. inversion Pb; subst. auto.
  - rewrite map_app in *. cbn [map] in N. apply NoDup_remove_1 in N. exact N.
  - rewrite Forall_app in *. destruct F as [Fa Fb]. inversion Fb; subst. auto.
Qed.
Lemma child_same t s s' : WF t -> plain s -> plain s' -> teq s s' = true -> child (tch t) s' = child (tch t) s.
Proof.
  intros W Ps Ps' E. apply teq_spec in E. apply WF_inv in W. destruct W as (P & N & _). destruct (child (tch t) s) as [c|] eqn:Ec.
  - apply child_in; auto using plain_nulf. apply child_in in Ec; auto using plain_nulf. rewrite <- E. exact Ec.
  - destruct (child (tch t) s') as [c'|] eqn:Ec'; [|reflexivity]. apply child_in in Ec'; auto using plain_nulf. rewrite <- E in Ec'.
    apply child_in in Ec'; auto using plain_nulf. congruence.
Qed.

Lemma shuffle_ok t t' : shuffle t t' -> WF t -> WF t' /\ tkey t' = tkey t /\ tval t' = tval t /\ forall k, Forall plain k -> lk t' k = lk t k.
Proof.
  induction 1 as [k v c c' Hp|k v a x y b Hs IH]; intros W; pose proof (WF_inv _ W) as (P & N & F); cbn [tch] in *.
  - assert (P' : Forall (fun c : tree => plain (tkey c)) c') by (rewrite Forall_forall in *; intros d Hd; apply P; eapply Permutation_in; [symmetry; exact Hp|exact Hd]).
    assert (N' : NoDup (map (fun c : tree => low (tkey c)) c')) by (eapply Permutation_NoDup; [apply Permutation_map; exact Hp|exact N]).
    split; [|split; [reflexivity|split; [reflexivity|]]].
    + constructor; auto. rewrite Forall_forall in *; intros d Hd; apply F; eapply Permutation_in; [symmetry; exact Hp|exact Hd].
    + intros [|s r] Pk; [reflexivity|]. pose proof (plain_nulf _ (Forall_inv Pk)) as Ns. cbn [lk tch].
      assert (child c' s = child c s) as ->; [|reflexivity]. destruct (child c s) as [d|] eqn:E.
      * apply child_in in E; auto. apply child_in; auto. destruct E as [E1 E2]. split; [eapply Permutation_in; eauto|exact E2].
      * destruct (child c' s) as [d|] eqn:E'; [|reflexivity]. apply child_in in E'; auto. destruct E' as [E1 E2].
        assert (child c s = Some d); [|congruence]. apply child_in; auto. split; [|exact E2]. eapply Permutation_in; [symmetry; exact Hp|exact E1].
  - pose proof F as F0. rewrite Forall_app in F. destruct F as [Fa Fb]. inversion Fb as [|? ? Fx Fb']; subst. destruct (IH Fx) as (Wy & Ky & Vy & Ly).
    assert (E : map (fun c : tree => low (tkey c)) (a ++ y :: b) = map (fun c : tree => low (tkey c)) (a ++ x :: b)) by (rewrite !map_app; cbn [map]; rewrite Ky; reflexivity).
    split; [|split; [reflexivity|split; [reflexivity|]]].
    + constructor.
      * rewrite Forall_app in *. destruct P as [Pa Pb]. inversion Pb; subst. split; [assumption|]. constructor; [rewrite Ky|]; assumption.
      * rewrite E. exact N.
      * rewrite Forall_app. auto.
    + intros [|s r] Pk; [reflexivity|]. cbn [lk tch]. rewrite !child_app. cbn [child]. rewrite Ky. destruct (child a s); [reflexivity|].
      destruct (same_seg (tkey x) s); [|reflexivity]. apply Ly. exact (Forall_inv_tail Pk).
Qed.

Lemma find_lk (t : tree) : forall k, canonical k \/ k = [[]] -> match find t k with Some n => lk t (named k) = Some (tval n) /\ (WF t -> WF n) /\
  (forall s r, lk t (named k ++ s :: r) = lk n (s :: r)) | None => lk t (named k) = None /\ forall s r, lk t (named k ++ s :: r) = None end.
Proof.
  intros k. revert t. induction k as [|s r IH]; intros t Hc; cbn [find].
  - cbn. auto.
  - destruct Hc as [Hc|E].
    2:{ injection E as -> ->. cbn. auto. }
    apply canonical_cons in Hc. destruct Hc as [Ps Hr]. unfold findchild. rewrite isempty_plain by assumption.
    assert (En : named (s :: r) = s :: named r) by (unfold named; cbn; destruct Ps as (Hs & _); destruct s; [congruence|reflexivity]).
    rewrite En. cbn [lk app]. destruct (child (tch t) s) as [c|] eqn:Ec; [|auto]. specialize (IH c Hr). destruct (find c r) as [n|]; [|exact IH].
    destruct IH as (A & B & C). split; [exact A|]. split; [|exact C]. intros W. apply B. eapply child_plain; eauto.
Qed.

Lemma lk_prefix : forall k t r, lk t (k ++ r) <> None -> lk t k <> None.
Proof. induction k as [|s k IH]; intros t r H; cbn [lk app] in *; [discriminate|]. destruct (child (tch t) s); [eapply IH, H|congruence]. Qed.

End Tree.
