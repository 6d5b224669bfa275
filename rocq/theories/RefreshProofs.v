From Coq Require Import Permutation Sorted.
From Verif Require Import Base BaseFacts Ctype KeyModel KeySpec KeyProofs UrlModel TclModel TempModel TempSpec TreeProofs TempProofs TclProofs IniModel IniProofs RefreshModel.
Local Open Scope nat_scope.

Notation tr := (tree bytes).
(** ** The order of the children *)
Definition lt_t (a b : tr) : Prop := (compareto [tkey a] [tkey b] < 0)%Z.
Lemma nf1 (a : tr) : plain (tkey a) -> Forall nul_free [tkey a].
Proof. intros H. constructor; [exact (plain_nulf _ H)|constructor]. Qed.
Lemma ord_eq (a b : tr) : plain (tkey a) -> plain (tkey b) -> compareto [tkey a] [tkey b] = 0%Z <-> teq (tkey a) (tkey b) = true.
Proof.
  intros Pa Pb. rewrite <- same_seg_teq by (apply plain_nulf; assumption). unfold same_seg, key_eq. symmetry. apply Z.eqb_eq.
Qed.
Lemma ord_trans (a b c : tr) : plain (tkey a) -> plain (tkey b) -> plain (tkey c) -> lt_t a b -> lt_t b c -> lt_t a c.
Proof.
  intros Pa Pb Pc H1 H2. unfold lt_t in *. apply compareto_lt in H1; [|apply nf1; assumption..]. apply compareto_lt in H2; [|apply nf1; assumption..].
  apply compareto_lt; [apply nf1; assumption..|]. eapply key_less_trans; eauto.
Qed.
Lemma ord_flip (a b : tr) : plain (tkey a) -> plain (tkey b) -> (0 < compareto [tkey a] [tkey b])%Z <-> lt_t b a.
Proof.
  intros Pa Pb. pose proof (compareto_sgn [tkey a] [tkey b] (nf1 _ Pa) (nf1 _ Pb)) as H. unfold lt_t.
  destruct (compareto [tkey a] [tkey b]), (compareto [tkey b] [tkey a]); cbn in H; lia.
Qed.
Lemma ord_ne (a b : tr) : plain (tkey a) -> plain (tkey b) -> lt_t a b -> teq (tkey a) (tkey b) = false.
Proof.
  intros Pa Pb H. destruct (teq (tkey a) (tkey b)) eqn:E; [|reflexivity]. apply ord_eq in E; auto. unfold lt_t in H. lia.
Qed.

Definition all_plain (l : list tr) : Prop := Forall (fun c : tr => plain (tkey c)) l.
Definition distinct (l : list tr) : Prop := NoDup (map (fun c : tr => low (tkey c)) l).
Definition ordered : list tr -> Prop := StronglySorted lt_t.

Lemma insert_perm x : forall l, Permutation (x :: l) (insert x l).
Proof. induction l as [|y l IH]; cbn [insert]; [reflexivity|]. destruct (before y x); [|reflexivity]. eapply perm_trans; [apply perm_swap|]. constructor. exact IH. Qed.
Lemma sorted_perm : forall l, Permutation l (sorted l).
Proof. induction l as [|x l IH]; cbn; [constructor|]. eapply perm_trans; [constructor; exact IH|]. apply insert_perm. Qed.
Lemma insert_ordered x : forall l, plain (tkey x) -> all_plain l -> ~ In (low (tkey x)) (map (fun c : tr => low (tkey c)) l) -> ordered l -> ordered (insert x l).
Proof.
  induction l as [|y l IH]; intros Px P N O; cbn [insert]; [constructor; constructor|]. inversion O as [|? ? O1 O2]; subst.
  pose proof (Forall_inv P) as Py. unfold before. destruct (compareto [tkey y] [tkey x] <? 0)%Z eqn:E.
  - apply Z.ltb_lt in E. constructor.
    + apply IH; auto. exact (Forall_inv_tail P). intros H. apply N. right. exact H.
    + eapply Permutation_Forall; [apply insert_perm|]. constructor; assumption.
  - apply Z.ltb_ge in E. assert (L : lt_t x y).
    { apply ord_flip; auto. assert (compareto [tkey y] [tkey x] <> 0)%Z; [|lia]. intros E0. apply ord_eq in E0; auto. apply N. left. apply teq_spec, E0. }
    constructor; [exact O|]. constructor; [exact L|]. rewrite Forall_forall in *. intros z Hz. apply (ord_trans x y z); auto. unfold all_plain in P. rewrite Forall_forall in P. apply P. right. exact Hz.
Qed.
Lemma sorted_ordered : forall l, all_plain l -> distinct l -> ordered (sorted l).
Proof.
  induction l as [|x l IH]; intros P N; cbn; [constructor|]. inversion N; subst. apply insert_ordered.
  - exact (Forall_inv P).
  - eapply Permutation_Forall; [apply sorted_perm|]. exact (Forall_inv_tail P).
  - intros H. apply H1. eapply Permutation_in; [symmetry; apply Permutation_map, sorted_perm|exact H].
  - apply IH; [exact (Forall_inv_tail P)|assumption].
Qed.
Lemma ordered_distinct : forall l, all_plain l -> ordered l -> distinct l.
Proof.
  induction l as [|x l IH]; intros P O; [constructor|]. inversion O as [|? ? O1 O2]; subst. constructor; [|apply IH; [exact (Forall_inv_tail P)|exact O1]].
  intros H. apply in_map_iff in H. destruct H as (y & E & Hy). rewrite Forall_forall in O2. pose proof (O2 y Hy) as L.
  assert (Py : plain (tkey y)) by (unfold all_plain in P; rewrite Forall_forall in P; apply P; right; exact Hy).
  apply ord_ne in L; [|exact (Forall_inv P)|exact Py]. assert (teq (tkey x) (tkey y) = true) by (apply teq_spec; symmetry; exact E). congruence.
Qed.
Lemma child_perm (l l' : list tr) s : all_plain l -> distinct l -> nul_free s -> Permutation l l' -> child l' s = child l s.
Proof.
  intros P N Ns Hp. assert (P' : all_plain l') by (eapply Permutation_Forall; eauto).
  assert (N' : distinct l') by (eapply Permutation_NoDup; [apply Permutation_map; exact Hp|exact N]).
  destruct (child l s) as [c|] eqn:E.
  - apply child_in in E; auto. apply child_in; auto. destruct E as [E1 E2]. split; [eapply Permutation_in; eauto|exact E2].
  - destruct (child l' s) as [c|] eqn:E'; [|reflexivity]. apply child_in in E'; auto. destruct E' as [E1 E2].
    assert (child l s = Some c); [|congruence]. apply child_in; auto. split; [eapply Permutation_in; [symmetry; exact Hp|exact E1]|exact E2].
Qed.

(** ** What the comparison reports *)
(** Contents below a list of children *)
Definition inl (l : list tr) (k : key) : option bytes :=
  match k with [] => None | s :: r => match child l s with Some c => lk c r | None => None end end.
Record reports (p : list bytes) (ma mb : contents) (l : list notif) : Prop := {
  rep_sound : forall q w, In (q, w) l -> Forall plain q /\ exists r, Forall plain r /\ lows q = p ++ lows r /\ mb r = w /\ ma r <> w;
  rep_all : forall r, Forall plain r -> ma r <> mb r -> exists q w, In (q, w) l /\ lows q = p ++ lows r;
  rep_once : NoDup (map (fun x => lows (fst x)) (filter (fun x => match snd x with Some _ => true | None => false end) l)) }.
Arguments rep_sound {p ma mb l}. Arguments rep_all {p ma mb l}. Arguments rep_once {p ma mb l}.

Lemma reports_ext p ma ma' mb mb' l : (forall r, Forall plain r -> ma r = ma' r) -> (forall r, Forall plain r -> mb r = mb' r) ->
  reports p ma mb l -> reports p ma' mb' l.
Proof.
  intros Ea Eb [S A O]. split; [| |exact O].
  - intros q w H. destruct (S q w H) as (P & r & Pr & E & E1 & E2). split; [exact P|]. exists r. rewrite <- Ea, <- Eb by exact Pr. auto.
  - intros r Pr H. rewrite <- Ea, <- Eb in H by exact Pr. apply A; assumption.
Qed.
Lemma filter_in_some (l : list notif) x : In x (map (fun x => lows (fst x)) (filter (fun x => match snd x with Some _ => true | None => false end) l)) ->
  exists q w, In (q, w) l /\ lows q = x.
Proof. intros H. apply in_map_iff in H. destruct H as ([q w] & E & H). apply filter_In in H. exists q, w. split; [apply H|exact E]. Qed.

(** one child on its own, and the others *)
Lemma reports_cons p s ma mb ma' mb' l1 l2 : plain s ->
  reports (p ++ [low s]) (fun r => ma (s :: r)) (fun r => mb (s :: r)) l1 -> reports p ma' mb' l2 ->
  (forall s' r, Forall plain (s' :: r) -> teq s s' = true -> ma (s' :: r) = ma (s :: r) /\ mb (s' :: r) = mb (s :: r) /\ ma' (s' :: r) = mb' (s' :: r)) ->
  (forall s' r, Forall plain (s' :: r) -> teq s s' = false -> ma' (s' :: r) = ma (s' :: r) /\ mb' (s' :: r) = mb (s' :: r)) ->
  ma [] = mb [] -> ma' [] = mb' [] -> reports p ma mb (l1 ++ l2).
Proof.
  intros Ps [S1 A1 O1] [S2 A2 O2] Hs Ho Hn Hn'.
  assert (S2' : forall q w, In (q, w) l2 -> Forall plain q /\ exists s' r, Forall plain (s' :: r) /\ lows q = p ++ lows (s' :: r) /\ teq s s' = false /\ mb' (s' :: r) = w /\ ma' (s' :: r) <> w).
  { intros q w H. destruct (S2 q w H) as (Pq & r & Pr & E & E1 & E2). split; [exact Pq|]. destruct r as [|s' r]; [congruence|]. exists s', r.
    split; [exact Pr|]. split; [exact E|]. split; [|auto]. destruct (teq s s') eqn:T; [|reflexivity]. destruct (Hs s' r Pr T) as (_ & _ & X). congruence. }
  split.
  - intros q w H. apply in_app_iff in H. destruct H as [H|H].
    + destruct (S1 q w H) as (Pq & r & Pr & E & E1 & E2). split; [exact Pq|]. exists (s :: r). split; [constructor; assumption|]. split; [rewrite E, <- app_assoc; reflexivity|auto].
    + destruct (S2' q w H) as (Pq & s' & r & Pr & E & T & E1 & E2). split; [exact Pq|]. exists (s' :: r). destruct (Ho s' r Pr T) as [X Y]. rewrite <- X, <- Y. auto.
  - intros r Pr H. destruct r as [|s' r]; [congruence|]. destruct (teq s s') eqn:T.
    + destruct (Hs s' r Pr T) as (X & Y & _). rewrite X, Y in H. destruct (A1 r (Forall_inv_tail Pr) H) as (q & w & Hi & E). exists q, w. split; [apply in_app_iff; left; exact Hi|].
      rewrite E, <- app_assoc. cbn. apply teq_spec in T. rewrite T. reflexivity.
    + destruct (Ho s' r Pr T) as [X Y]. rewrite <- X, <- Y in H. destruct (A2 _ Pr H) as (q & w & Hi & E). exists q, w. split; [apply in_app_iff; right; exact Hi|exact E].
  - rewrite filter_app, map_app. apply NoDup_app_intro; [exact O1|exact O2|]. intros x H1 H2. apply filter_in_some in H1, H2.
    destruct H1 as (q1 & w1 & I1 & X1), H2 as (q2 & w2 & I2 & X2). destruct (S1 _ _ I1) as (_ & r1 & _ & E1 & _). destruct (S2' _ _ I2) as (_ & s' & r2 & _ & E2 & T & _).
    rewrite X1 in E1. rewrite X2, E1, <- app_assoc in E2. apply app_inv_head in E2. cbn in E2. injection E2 as E2 _. assert (teq s s' = true) by (apply teq_spec; exact E2). congruence.
Qed.

Lemma child_cons (c : tr) l s : plain (tkey c) -> plain s -> child (c :: l) s = if teq (tkey c) s then Some c else child l s.
Proof. intros P Q. cbn [child]. rewrite same_seg_teq by (apply plain_nulf; assumption). reflexivity. Qed.
Lemma child_teq (l : list tr) s s' : all_plain l -> plain s -> plain s' -> teq s s' = true -> child l s' = child l s.
Proof.
  intros P Ps Ps' T. induction l as [|c l IH]; [reflexivity|]. rewrite !child_cons by (assumption || exact (Forall_inv P)).
  rewrite (teq_sym (tkey c) s'), (teq_sym (tkey c) s). rewrite (teq_trans _ _ _ T). destruct (teq s (tkey c)); [reflexivity|]. apply IH. exact (Forall_inv_tail P).
Qed.
Lemma child_absent (l : list tr) s : all_plain l -> plain s -> (forall c, In c l -> teq (tkey c) s = false) -> child l s = None.
Proof.
  intros P Ps H. induction l as [|c l IH]; [reflexivity|]. rewrite child_cons by (assumption || exact (Forall_inv P)). rewrite H by (left; reflexivity).
  apply IH; [exact (Forall_inv_tail P)|]. intros d Hd. apply H. right. exact Hd.
Qed.

Section Merge.
Context (f : option tr -> option tr -> res (list notif)) (p : list bytes).
Definition child_ok (a b : option tr) : Prop :=
  exists l, f a b = Ok l /\ reports (p ++ [match b, a with Some b, _ => low (tkey b) | None, Some a => low (tkey a) | _, _ => [] end]) (lko a) (lko b) l.
Lemma merge_nil_l : forall lb, merge f [] lb = match lb with [] => Ok [] | b :: rb => let! n := f None (Some b) in let! m := merge f [] rb in Ok (n ++ m) end.
Proof. destruct lb; reflexivity. Qed.
Lemma merge_nil_r : forall la, merge f la [] = match la with [] => Ok [] | a :: ra => let! n := f (Some a) None in let! m := merge f ra [] in Ok (n ++ m) end.
Proof. destruct la; reflexivity. Qed.
Lemma merge_cons a ra b rb : merge f (a :: ra) (b :: rb) =
  let order := compareto [tkey a] [tkey b] in
  if (order <? 0)%Z then let! n := f (Some a) None in let! m := merge f ra (b :: rb) in Ok (n ++ m)
  else if (0 <? order)%Z then let! n := f None (Some b) in let! m := merge f (a :: ra) rb in Ok (n ++ m)
  else let! n := f (Some a) (Some b) in let! m := merge f ra rb in Ok (n ++ m).
Proof. reflexivity. Qed.

Lemma merge_ok : forall n la lb, length la + length lb <= n -> all_plain la -> all_plain lb -> ordered la -> ordered lb ->
  (forall a, In a la -> child_ok (Some a) None) -> (forall b, In b lb -> child_ok None (Some b)) ->
  (forall a b, In a la -> In b lb -> teq (tkey a) (tkey b) = true -> child_ok (Some a) (Some b)) ->
  exists l, merge f la lb = Ok l /\ reports p (inl la) (inl lb) l.
Proof.
  induction n as [|n IH]; intros la lb Hn Pa Pb Oa Ob Fa Fb Fab.
  - destruct la, lb; cbn in Hn; try lia. exists []. split; [reflexivity|]. split; [intros q w []|intros r _ H; destruct r; congruence|constructor].
  - (* only a left *)
    assert (LEFT : forall a ra, la = a :: ra -> (forall b, In b lb -> lt_t a b) ->
      exists l1 l2, f (Some a) None = Ok l1 /\ merge f ra lb = Ok l2 /\ reports p (inl la) (inl lb) (l1 ++ l2)).
    { intros a ra -> L. destruct (Fa a (or_introl eq_refl)) as (l1 & E1 & R1). pose proof (Forall_inv Pa) as Pk. pose proof (Forall_inv_tail Pa) as Pra.
      destruct (IH ra lb) as (l2 & E2 & R2); [cbn [length] in Hn; lia|exact Pra|exact Pb|inversion Oa; assumption|exact Ob|intros x Hx; apply Fa; right; exact Hx|exact Fb|intros x y Hx; apply Fab; right; exact Hx|].
      exists l1, l2. split; [exact E1|]. split; [exact E2|].
      assert (Nb : forall s', plain s' -> teq (tkey a) s' = true -> child lb s' = None).
      { intros s' Ps' T. apply child_absent; auto. intros d Hd. assert (Pd : plain (tkey d)) by (unfold all_plain in Pb; rewrite Forall_forall in Pb; apply Pb, Hd).
        rewrite teq_sym, (teq_trans _ _ _ T). apply ord_ne; auto. }
      assert (Nr : forall s', plain s' -> teq (tkey a) s' = true -> child ra s' = None).
      { intros s' Ps' T. apply child_absent; auto. intros d Hd. assert (Pd : plain (tkey d)) by (unfold all_plain in Pra; rewrite Forall_forall in Pra; apply Pra, Hd).
        rewrite teq_sym, (teq_trans _ _ _ T). apply ord_ne; auto. inversion Oa as [|? ? _ Hall]; subst. rewrite Forall_forall in Hall. apply Hall, Hd. }
      eapply (reports_cons p (tkey a) _ _ _ _ l1 l2 Pk); [|exact R2| | |reflexivity|reflexivity].
      - eapply reports_ext; [| |exact R1]; intros r Pr; cbn [lko inl].
        + rewrite child_cons, teq_refl by assumption. reflexivity.
        + rewrite (Nb (tkey a)) by (auto using teq_refl). reflexivity.
      - intros s' r Pr T. pose proof (Forall_inv Pr) as Ps'. cbn [inl]. rewrite !child_cons by assumption. rewrite T, teq_refl. rewrite (Nb s'), (Nb (tkey a)), (Nr s') by (auto using teq_refl). auto.
      - intros s' r Pr T. pose proof (Forall_inv Pr) as Ps'. cbn [inl]. rewrite child_cons by assumption. rewrite T. auto. }
    assert (RIGHT : forall b rb, lb = b :: rb -> (forall a, In a la -> lt_t b a) ->
      exists l1 l2, f None (Some b) = Ok l1 /\ merge f la rb = Ok l2 /\ reports p (inl la) (inl lb) (l1 ++ l2)).
    { intros b rb -> L. destruct (Fb b (or_introl eq_refl)) as (l1 & E1 & R1). pose proof (Forall_inv Pb) as Pk. pose proof (Forall_inv_tail Pb) as Prb.
      destruct (IH la rb) as (l2 & E2 & R2); [cbn [length] in Hn; lia|exact Pa|exact Prb|exact Oa|inversion Ob; assumption|exact Fa|intros x Hx; apply Fb; right; exact Hx|intros x y Hx Hy; apply Fab; [exact Hx|right; exact Hy]|].
      exists l1, l2. split; [exact E1|]. split; [exact E2|].
      assert (Na : forall s', plain s' -> teq (tkey b) s' = true -> child la s' = None).
      { intros s' Ps' T. apply child_absent; auto. intros d Hd. assert (Pd : plain (tkey d)) by (unfold all_plain in Pa; rewrite Forall_forall in Pa; apply Pa, Hd).
        rewrite teq_sym, (teq_trans _ _ _ T). apply ord_ne; auto. }
      assert (Nr : forall s', plain s' -> teq (tkey b) s' = true -> child rb s' = None).
      { intros s' Ps' T. apply child_absent; auto. intros d Hd. assert (Pd : plain (tkey d)) by (unfold all_plain in Prb; rewrite Forall_forall in Prb; apply Prb, Hd).
        rewrite teq_sym, (teq_trans _ _ _ T). apply ord_ne; auto. inversion Ob as [|? ? _ Hall]; subst. rewrite Forall_forall in Hall. apply Hall, Hd. }
      eapply (reports_cons p (tkey b) _ _ _ _ l1 l2 Pk); [|exact R2| | |reflexivity|reflexivity].
      - eapply reports_ext; [| |exact R1]; intros r Pr; cbn [lko inl].
        + rewrite (Na (tkey b)) by (auto using teq_refl). reflexivity.
        + rewrite child_cons, teq_refl by assumption. reflexivity.
      - intros s' r Pr T. pose proof (Forall_inv Pr) as Ps'. cbn [inl]. rewrite !child_cons by assumption. rewrite T, teq_refl. rewrite (Na s'), (Na (tkey b)), (Nr s') by (auto using teq_refl). auto.
      - intros s' r Pr T. pose proof (Forall_inv Pr) as Ps'. cbn [inl]. rewrite child_cons by assumption. rewrite T. auto. }
    destruct la as [|a ra].
    + destruct lb as [|b rb]; [apply (IH [] []); auto; cbn; lia|]. destruct (RIGHT b rb eq_refl) as (l1 & l2 & E1 & E2 & R2); [intros a []|].
      exists (l1 ++ l2). split; [|exact R2]. rewrite merge_nil_l, E1. cbn [bind]. rewrite E2. reflexivity.
    + destruct lb as [|b rb].
      * destruct (LEFT a ra eq_refl) as (l1 & l2 & E1 & E2 & R2); [intros b []|]. exists (l1 ++ l2). split; [|exact R2]. rewrite merge_nil_r, E1. cbn [bind]. rewrite E2. reflexivity.
      * rewrite merge_cons. cbv zeta. pose proof (Forall_inv Pa) as Pka. pose proof (Forall_inv Pb) as Pkb.
        assert (Ga : forall x, In x ra -> lt_t a x) by (inversion Oa as [|? ? _ Hall]; subst; rewrite Forall_forall in Hall; exact Hall).
        assert (Gb : forall x, In x rb -> lt_t b x) by (inversion Ob as [|? ? _ Hall]; subst; rewrite Forall_forall in Hall; exact Hall).
        destruct (compareto [tkey a] [tkey b] <? 0)%Z eqn:C1; [|destruct (0 <? compareto [tkey a] [tkey b])%Z eqn:C2].
        -- apply Z.ltb_lt in C1. destruct (LEFT a ra eq_refl) as (l1 & l2 & E1 & E2 & R2).
           { intros x [<-|Hx]; [exact C1|]. apply (ord_trans a b x); auto. unfold all_plain in Pb. rewrite Forall_forall in Pb. apply Pb. right. exact Hx. }
           exists (l1 ++ l2). split; [|exact R2]. rewrite E1. cbn [bind]. rewrite E2. reflexivity.
        -- apply Z.ltb_lt in C2. apply ord_flip in C2; auto. destruct (RIGHT b rb eq_refl) as (l1 & l2 & E1 & E2 & R2).
           { intros x [<-|Hx]; [exact C2|]. apply (ord_trans b a x); auto. unfold all_plain in Pa. rewrite Forall_forall in Pa. apply Pa. right. exact Hx. }
           exists (l1 ++ l2). split; [|exact R2]. rewrite E1. cbn [bind]. rewrite E2. reflexivity.
        -- apply Z.ltb_ge in C1, C2. assert (T0 : teq (tkey a) (tkey b) = true) by (apply ord_eq; auto; lia).
           destruct (Fab a b (or_introl eq_refl) (or_introl eq_refl) T0) as (l1 & E1 & R1). pose proof (Forall_inv_tail Pa) as Pra. pose proof (Forall_inv_tail Pb) as Prb.
           destruct (IH ra rb) as (l2 & E2 & R2); [cbn [length] in Hn; lia|exact Pra|exact Prb|inversion Oa; assumption|inversion Ob; assumption|intros x Hx; apply Fa; right; exact Hx|intros x Hx; apply Fb; right; exact Hx|intros x y Hx Hy; apply Fab; right; assumption|].
           exists (l1 ++ l2). split; [rewrite E1; cbn [bind]; rewrite E2; reflexivity|].
           assert (Nra : forall s', plain s' -> teq (tkey b) s' = true -> child ra s' = None).
           { intros s' Ps' T. apply child_absent; auto. intros d Hd. assert (Pd : plain (tkey d)) by (unfold all_plain in Pra; rewrite Forall_forall in Pra; apply Pra, Hd).
             rewrite teq_sym, (teq_trans _ _ _ T). rewrite (teq_trans _ _ _ T0). apply ord_ne; auto. }
           assert (Nrb : forall s', plain s' -> teq (tkey b) s' = true -> child rb s' = None).
           { intros s' Ps' T. apply child_absent; auto. intros d Hd. assert (Pd : plain (tkey d)) by (unfold all_plain in Prb; rewrite Forall_forall in Prb; apply Prb, Hd).
             rewrite teq_sym, (teq_trans _ _ _ T). apply ord_ne; auto. }
           assert (Ta : forall s', teq (tkey a) s' = teq (tkey b) s') by (intros s'; symmetry; apply teq_trans, T0).
           eapply (reports_cons p (tkey b) _ _ _ _ l1 l2 Pkb); [|exact R2| | |reflexivity|reflexivity].
           ++ eapply reports_ext; [| |exact R1]; intros r Pr; cbn [lko inl].
              ** rewrite child_cons, Ta, teq_refl by assumption. reflexivity.
              ** rewrite child_cons, teq_refl by assumption. reflexivity.
           ++ intros s' r Pr T. pose proof (Forall_inv Pr) as Ps'. cbn [inl]. rewrite !child_cons by assumption. rewrite !Ta, T, teq_refl. rewrite (Nra s'), (Nrb s') by assumption. auto.
           ++ intros s' r Pr T. pose proof (Forall_inv Pr) as Ps'. cbn [inl]. rewrite !child_cons by assumption. rewrite Ta, T. auto.
Qed.
End Merge.

(** ** The whole comparison *)
Lemma lk_inl (t : tr) k : lk t k = match k with [] => Some (tval t) | _ => inl (tch t) k end.
Proof. destruct k; reflexivity. Qed.
Lemma inl_sorted l k : all_plain l -> distinct l -> Forall plain k -> inl (sorted l) k = inl l k.
Proof.
  intros P N Pk. destruct k as [|s r]; [reflexivity|]. cbn [inl]. rewrite (child_perm l (sorted l)); auto using sorted_perm. apply plain_nulf. exact (Forall_inv Pk).
Qed.
Lemma height_child (t c : tr) : In c (tch t) -> height c < height t.
Proof.
  destruct t as [k v ch]. cbn [tch height]. intros H. apply Nat.lt_succ_r. pose proof (list_max_le (map height ch) (list_max (map height ch))) as X.
  destruct X as [X _]. specialize (X (Nat.le_refl _)). rewrite Forall_forall in X. apply X, in_map, H.
Qed.
Lemma lows_inj_len (a b : key) : lows a = lows b -> length a = length b.
Proof. intros H. apply (f_equal (@length _)) in H. unfold lows in H. rewrite !map_length in H. exact H. Qed.

Definition hmax (o : option tr) : nat := match o with Some t => height t | None => 0 end.
Lemma lows_app (a b : key) : lows (a ++ b) = lows a ++ lows b. Proof. apply map_app. Qed.
Lemma kids_facts (o : option tr) : WFo o -> all_plain (kids o) /\ ordered (kids o) /\ forall c, In c (kids o) -> plain (tkey c) /\ WF c /\ height c < hmax o.
Proof.
  destruct o as [t|]; intros W; cbn [kids].
  - destruct (WF_inv _ W) as (P & N & F). split; [|split].
    + eapply Permutation_Forall; [apply sorted_perm|exact P].
    + apply sorted_ordered; assumption.
    + intros c Hc. apply (Permutation_in (l' := tch t)) in Hc; [|symmetry; apply sorted_perm]. rewrite Forall_forall in P, F. split; [apply P, Hc|]. split; [apply F, Hc|]. apply height_child, Hc.
  - split; [constructor|]. split; [constructor|]. intros c [].
Qed.
(** A report on the node itself and one on what is below *)
Lemma reports_node p (a b : option tr) n m : WFo a -> WFo b ->
  (forall q w, In (q, w) n -> Forall plain q /\ exists r, Forall plain r /\ lows q = p ++ lows r /\ lko b r = w /\ lko a r <> w) ->
  (match a, b with Some a, Some b => tval a <> tval b | None, None => False | _, _ => True end -> exists q w, In (q, w) n /\ lows q = p) ->
  NoDup (map (fun x => lows (fst x)) (filter (fun x => match snd x with Some _ => true | None => false end) n)) ->
  (forall q w, In (q, Some w) n -> lows q = p) ->
  reports p (inl (kids a)) (inl (kids b)) m -> reports p (lko a) (lko b) (n ++ m).
Proof.
  intros Wa Wb Sn An On Kn [S A O].
  assert (I : forall (o : option tr) s r, WFo o -> Forall plain (s :: r) -> inl (kids o) (s :: r) = lko o (s :: r)).
  { intros [t|] s r W P; [|reflexivity]. cbn [kids lko]. destruct (WF_inv _ W) as (Pc & N & _). rewrite inl_sorted by assumption. reflexivity. }
  split.
  - intros q w H. apply in_app_iff in H. destruct H as [H|H]; [apply Sn; exact H|]. destruct (S q w H) as (Pq & r & Pr & E & E1 & E2). split; [exact Pq|].
    destruct r as [|s r]; [cbn in E1, E2; congruence|]. rewrite I in E1 by assumption. rewrite I in E2 by assumption. eauto 6.
  - intros r Pr H. destruct r as [|s r].
    + destruct An as (q & w & Hq & E).
      { destruct a as [a|], b as [b|]; cbn in H; auto. intros E. apply H. rewrite E. reflexivity. }
      exists q, w. rewrite app_nil_r. split; [apply in_app_iff; left; exact Hq|exact E].
    + destruct (A (s :: r) Pr) as (q & w & Hq & E); [rewrite !I by assumption; exact H|]. exists q, w. split; [apply in_app_iff; right; exact Hq|exact E].
  - rewrite filter_app, map_app. apply NoDup_app_intro; [exact On|exact O|]. intros x H1 H2.
    apply in_map_iff in H1. destruct H1 as ([q1 w1] & E1 & H1). apply filter_In in H1. destruct H1 as [H1 H1']. cbn in E1, H1'. destruct w1 as [w1|]; [|discriminate].
    apply Kn in H1. apply filter_in_some in H2. destruct H2 as (q2 & w2 & H2 & E2). destruct (S _ _ H2) as (_ & r & _ & Er & X & Y).
    assert (r = []) as ->; [|cbn in X, Y; congruence]. assert (Ep : p = p ++ lows r) by (rewrite <- Er, E2, <- E1; symmetry; exact H1). clear Er. rename Ep into Er. rewrite <- (app_nil_r p) in Er at 1. apply app_inv_head in Er. destruct r; [reflexivity|discriminate].
Qed.

Lemma recursivecompare_ok : forall fuel a b fa fb p, WFo a -> WFo b -> hmax a <= fuel -> hmax b <= fuel -> (a <> None \/ b <> None) ->
  (a <> None -> Forall plain fa /\ lows fa = p) -> (b <> None -> Forall plain fb /\ lows fb = p) ->
  exists l, recursivecompare fuel fa fb a b = Ok l /\ reports p (lko a) (lko b) l.
Proof.
  induction fuel as [|fuel IH]; intros a b fa fb p Wa Wb Ha Hb Hs Fa Fb.
  - exfalso. destruct a as [[]|]; [cbn in Ha; lia|]. destruct b as [[]|]; [cbn in Hb; lia|]. destruct Hs; congruence.
  - cbn [recursivecompare]. destruct (kids_facts a Wa) as (Pa & Oa & Ka). destruct (kids_facts b Wb) as (Pb & Ob & Kb).
    destruct (merge_ok (fun x y => recursivecompare fuel (below fa x) (below fb y) x y) p _ (kids a) (kids b) (Nat.le_refl _) Pa Pb Oa Ob) as (m & Em & Rm).
    { intros c Hc. destruct (Ka c Hc) as (Pc & Wc & Hh). destruct (IH (Some c) None (below fa (Some c)) (below fb None) (p ++ [low (tkey c)])) as (l & El & Rl); cbn; auto; try lia; try congruence.
      - left. discriminate.
      - intros _. destruct a as [a|]; [|contradiction Hc]. destruct Fa as [F1 F2]; [discriminate|]. split; [apply Forall_app; auto|]. rewrite lows_app, F2. reflexivity.
      - exists l. split; [exact El|exact Rl]. }
    { intros c Hc. destruct (Kb c Hc) as (Pc & Wc & Hh). destruct (IH None (Some c) (below fa None) (below fb (Some c)) (p ++ [low (tkey c)])) as (l & El & Rl); cbn; auto; try lia; try congruence.
      - right. discriminate.
      - intros _. destruct b as [b|]; [|contradiction Hc]. destruct Fb as [F1 F2]; [discriminate|]. split; [apply Forall_app; auto|]. rewrite lows_app, F2. reflexivity.
      - exists l. split; [exact El|exact Rl]. }
    { intros c d Hc Hd T. destruct (Ka c Hc) as (Pc & Wc & Hh). destruct (Kb d Hd) as (Pd & Wd & Hh').
      destruct (IH (Some c) (Some d) (below fa (Some c)) (below fb (Some d)) (p ++ [low (tkey d)])) as (l & El & Rl); cbn; auto; try lia; try congruence.
      - left. discriminate.
      - intros _. destruct a as [a|]; [|contradiction Hc]. destruct Fa as [F1 F2]; [discriminate|]. split; [apply Forall_app; auto|]. rewrite lows_app, F2. apply teq_spec in T. cbn. rewrite T. reflexivity.
      - intros _. destruct b as [b|]; [|contradiction Hd]. destruct Fb as [F1 F2]; [discriminate|]. split; [apply Forall_app; auto|]. rewrite lows_app, F2. reflexivity.
      - exists l. split; [exact El|exact Rl]. }
    assert (Hn : exists n, refreshcomparator fa fb a b = Ok n /\
      (forall q w, In (q, w) n -> Forall plain q /\ exists r, Forall plain r /\ lows q = p ++ lows r /\ lko b r = w /\ lko a r <> w) /\
      (match a, b with Some a, Some b => tval a <> tval b | None, None => False | _, _ => True end -> exists q w, In (q, w) n /\ lows q = p) /\
      NoDup (map (fun x => lows (fst x)) (filter (fun x => match snd x with Some _ => true | None => false end) n)) /\
      (forall q w, In (q, Some w) n -> lows q = p)).
    { destruct a as [a|], b as [b|]; cbn [refreshcomparator].
      - destruct Fb as [Fb1 Fb2]; [discriminate|]. destruct (list_eq_dec ascii_dec (tval a) (tval b)) as [E|E].
        + exists []. repeat split; try contradiction. constructor.
        + exists [(fb, Some (tval b))]. split; [reflexivity|]. split; [|split; [|split]].
          * intros q w [H|[]]. injection H as <- <-. split; [exact Fb1|]. exists []. rewrite app_nil_r. split; [constructor|]. split; [exact Fb2|]. split; [reflexivity|]. cbn. congruence.
          * intros _. exists fb, (Some (tval b)). split; [left; reflexivity|exact Fb2].
          * cbn. constructor; [intros []|constructor].
          * intros q w [H|[]]. injection H as <- <-. exact Fb2.
      - destruct Fa as [Fa1 Fa2]; [discriminate|]. exists (visit fa a). split; [reflexivity|].
        assert (V : forall q w, In (q, w) (visit fa a) -> w = None).
        { intros q w H. rewrite visit_full in H. unfold pre in H. apply in_map_iff in H. destruct H as ([q' w'] & E & H). cbn in E. destruct (visit_tells a Wa) as [T _ _]. destruct (T _ _ H) as (_ & X & _). unfold nothing in X. congruence. }
        split; [|split; [|split]].
        + intros q w H. pose proof (V _ _ H) as ->. rewrite visit_full in H. unfold pre in H. apply in_map_iff in H. destruct H as ([r w'] & E & H). cbn in E. injection E as <- ->.
          destruct (visit_tells a Wa) as [T _ _]. destruct (T _ _ H) as (Pr & X & Y). split; [apply Forall_app; auto|]. exists r. split; [exact Pr|]. split; [rewrite lows_app, Fa2; reflexivity|]. split; [reflexivity|exact Y].
        + intros _. exists fa, None. split; [destruct a; cbn; apply in_app_iff; right; left; reflexivity|exact Fa2].
        + replace (filter _ (visit fa a)) with (@nil notif); [constructor|]. symmetry. revert V. generalize (visit fa a). induction l as [|[q w] l IHl]; intros V; [reflexivity|]. cbn. rewrite (V q w (or_introl eq_refl)). apply IHl. intros q' w' H. apply (V q' w'). right. exact H.
        + intros q w H. apply V in H. discriminate.
      - destruct Fb as [Fb1 Fb2]; [discriminate|]. exists [(fb, Some (tval b))]. split; [reflexivity|]. split; [|split; [|split]].
        + intros q w [H|[]]. injection H as <- <-. split; [exact Fb1|]. exists []. rewrite app_nil_r. split; [constructor|]. split; [exact Fb2|]. split; [reflexivity|]. cbn. discriminate.
        + intros _. exists fb, (Some (tval b)). split; [left; reflexivity|exact Fb2].
        + cbn. constructor; [intros []|constructor].
        + intros q w [H|[]]. injection H as <- <-. exact Fb2.
      - destruct Hs; congruence. }
    destruct Hn as (n & En & H1 & H2 & H3 & H4). exists (n ++ m). split; [rewrite En; cbn [bind]; rewrite Em; reflexivity|]. apply reports_node; assumption.
Qed.
Lemma compare_ok old new : WF old -> WF new -> exists l, compare old new = Ok l /\ reports [] (lk old) (lk new) l.
Proof.
  intros Wo Wn. unfold compare. apply (recursivecompare_ok _ (Some old) (Some new)); cbn; auto; try lia; try (left; discriminate).
Qed.

(** ** Reading a file *)
Lemma unescape_nul s o : unescape_str s = Ok o -> nul_free o.
Proof.
  unfold unescape_str, wvtcl_unescape. destruct (unescape_emit s) as [x| |]; cbn [bind]; try discriminate. rewrite make_string_ok. cbn [bind of_opt]. intros H. injection H as <-. apply cstr_is_nul_free.
Qed.
Lemma parse_canonical s k : nul_free s -> parse (Some s) = Ok k -> canonical k.
Proof. intros N. rewrite parse_ok by exact N. intros H. injection H as <-. apply path_key_canonical, N. Qed.
Lemma collapse_canonical k : canonical k -> collapse k = k.
Proof. intros H. destruct k as [|[|c s] [|? ?]]; try reflexivity. exfalso. exact (canonical_not_nilseg _ H eq_refl). Qed.
Lemma kprepend_canonical sec k : canonical sec -> canonical k -> canonical (kprepend sec k).
Proof.
  intros Hs Hk. unfold kprepend. assert (F : Forall plain (filter (fun s => negb (isnil s)) sec)).
  { rewrite Forall_forall. intros x Hx. apply filter_In in Hx. destruct Hx as [Hx Hne]. destruct Hs as [P|(k' & _ & P & ->)].
    - rewrite Forall_forall in P. apply P, Hx.
    - apply in_app_iff in Hx. destruct Hx as [Hx|[<-|[]]]; [rewrite Forall_forall in P; apply P, Hx|discriminate]. }
  assert (C : canonical (filter (fun s => negb (isnil s)) sec ++ k)).
  { destruct Hk as [P|(k' & N & P & ->)]; [left; apply Forall_app; auto|]. right. exists (filter (fun s => negb (isnil s)) sec ++ k'). split; [|split; [apply Forall_app; auto|apply app_assoc]].
    intros E. apply app_eq_nil in E. apply N, E. }
  rewrite collapse_canonical by exact C. exact C.
Qed.
Definition good (st : pstate) : Prop := canonical (fst st) /\ WFo (root (snd st)) /\ root (snd st) <> None.
Lemma tset_some_root g k v : root g <> None -> root (fst (tset g k (Some v))) <> None.
Proof. intros H. unfold tset. destruct (strip k) as [k' t]. destruct t; [exact H|]. destruct (ins [] (root g) [] k' v) as [[t' n] d]. discriminate. Qed.
Lemma take_word_good w st st' : good st -> take_word w st = Ok st' -> good st'.
Proof.
  destruct st as [sec g]. intros (C & W & N) H. cbn [fst snd] in *. unfold take_word in H.
  assert (G : good (sec, g)) by (split; [exact C|split; [exact W|exact N]]).
  destruct (drop_space (rtrim w)) as [|c r] eqn:Es; [injection H as <-; exact G|]. destruct (Ascii.eqb c "#"); [injection H as <-; exact G|].
  match type of H with (if ?b then _ else _) = _ => destruct b end.
  - destruct (unescape_str _) as [name| |] eqn:Eu in H; cbn [bind] in H; try discriminate. destruct (parse (Some name)) as [k| |] eqn:Ep; cbn [bind] in H; try discriminate. injection H as <-.
    split; [|split; assumption]. cbn. eapply parse_canonical; [eapply unescape_nul; exact Eu|exact Ep].
  - destruct (wvtcl_getword equals false (rtrim w)) as [[name line]| |]; cbn [bind] in H; try discriminate.
    destruct name as [name|]; [|injection H as <-; exact G]. destruct line as [|e value]; [injection H as <-; exact G|].
    destruct (unescape_str (trim_string name)) as [nm| |] eqn:Eu; cbn [bind] in H; try discriminate. destruct nm as [|c1 r1]; [injection H as <-; exact G|].
    destruct (parse (Some (c1 :: r1))) as [k| |] eqn:Ep; cbn [bind] in H; try discriminate. destruct (Ascii.eqb e "="); [|discriminate].
    destruct (unescape_str (trim_string value)) as [vl| |]; cbn [bind] in H; try discriminate. injection H as <-.
    assert (Ck : canonical (kprepend sec k)) by (apply kprepend_canonical; [exact C|eapply parse_canonical; [eapply unescape_nul; exact Eu|exact Ep]]).
    destruct (tset g (kprepend sec k) (Some vl)) as [g' n] eqn:Et. destruct (tset_ok _ _ _ _ _ W Ck Et) as (W' & _). split; [exact C|]. cbn [fst snd]. split; [exact W'|].
    pose proof (tset_some_root g (kprepend sec k) vl N) as X. rewrite Et in X. exact X.
Qed.
Lemma take_words_good : forall f b st b' st', good st -> take_words f b st = Ok (b', st') -> good st'.
Proof.
  induction f as [|f IH]; intros b st b' st' G H; cbn [take_words] in H; [discriminate|]. destruct (wvtcl_getword _ _ _) as [[w b1]| |]; cbn [bind] in H; try discriminate.
  destruct w as [w|]; [|injection H as <- <-; exact G]. destruct (take_word w st) as [st1| |] eqn:E; cbn [bind] in H; try discriminate. eapply IH; [|exact H]. eapply take_word_good; eauto.
Qed.
Lemma read_lines_good : forall ls b st b' st', good st -> read_lines ls b st = Ok (b', st') -> good st'.
Proof.
  induction ls as [|l ls IH]; intros b st b' st' G H; cbn [read_lines] in H; [injection H as <- <-; exact G|].
  destruct (take_words _ _ _) as [[b1 st1]| |] eqn:E in H; cbn [bind] in H; try discriminate. eapply IH; [|exact H]. eapply take_words_good; eauto.
Qed.
Lemma at_eof_good : forall f b st st', good st -> at_eof f b st = Ok st' -> good st'.
Proof.
  induction f as [|f IH]; intros b st st' G H; cbn [at_eof] in H; [discriminate|]. destruct b as [|c b]; [injection H as <-; exact G|].
  destruct (take_words _ _ _) as [[b1 st1]| |] eqn:E in H; cbn [bind] in H; try discriminate. apply take_words_good in E; [|exact G]. destruct b1 as [|c1 b1]; [injection H as <-; exact E|].
  destruct (buf_strchr _ _); [discriminate|]. eapply IH; [|exact H]. exact E.
Qed.
Lemma start_good : good ([], fst (tset tinit [] (Some []))).
Proof.
  split; [left; constructor|]. destruct (tset tinit [] (Some [])) as [g n] eqn:E. destruct (tset_ok tinit [] (Some []) g n) as (W & _); [exact I|left; constructor|exact E|].
  split; [exact W|]. injection E as <- _. discriminate.
Qed.
Lemma load_good content g : load content = Ok g -> WFo (root g) /\ root g <> None.
Proof.
  unfold load. destruct (read_lines _ _ _) as [[b st]| |] eqn:E1; cbn [bind]; try discriminate. destruct (at_eof _ _ _) as [[k g1]| |] eqn:E2; cbn [bind]; try discriminate.
  intros H. injection H as <-. apply read_lines_good in E1; [|exact start_good]. apply at_eof_good in E2; [|exact E1]. apply E2.
Qed.

(** ** Histories *)
Definition fine_ini (i : ini) : Prop := WFo (root (live i)) /\ root (live i) <> None.
Lemma new_fine : fine_ini ini_new.
Proof. apply start_good. Qed.
Lemma set_fine i k v i' n : fine_ini i -> canonical k -> ini_set i k v = (i', n) -> fine_ini i' /\
  (forall m, same_contents m (has (live i)) -> same_contents (replay n m) (has (live i'))).
Proof.
  intros [W N] C H. unfold ini_set in H. destruct (tset (live i) k v) as [g n1] eqn:E. destruct (tset_ok _ _ _ _ _ W C E) as (W1 & _ & T1 & _).
  assert (R1 : forall m, same_contents m (has (live i)) -> same_contents (replay n1 m) (has g)).
  { intros m Em q P. rewrite (replay_ext n1 m (has (live i))) by (apply Em, P). apply tells_replay; assumption. }
  assert (K : v <> None \/ isempty k = false -> root g <> None).
  { intros Hc. destruct v as [v|].
    - pose proof (tset_some_root (live i) k v N) as X. rewrite E in X. exact X.
    - destruct Hc as [Hc|Hc]; [congruence|]. unfold tset in E. destruct (strip k) as [k' t] eqn:Ek. destruct (root (live i)) as [tr0|] eqn:Er; [|congruence].
      destruct (del [] tr0 k') as [[t' n2]|] eqn:Ed; [|injection E as <- <-; congruence]. injection E as <- <-. cbn [root].
      destruct k' as [|s r].
      + exfalso. destruct C as [P|(k0 & Hk & P & ->)].
        * unfold strip in Ek. destruct k as [|s r]; [discriminate|]. rewrite isempty_ne in Ek. unfold last_seg in Ek. cbv zeta in Ek. rewrite last_seg_plain in Ek by (auto; discriminate). discriminate.
        * unfold strip, last_seg in Ek. destruct (last_seg_trailing k0) as [X Y]. rewrite X, Y in Ek. rewrite (plain_collapse k0 P) in Ek. destruct k0; [congruence|discriminate].
      + cbn [del] in Ed. destruct (child (tch tr0) s); [|discriminate]. destruct (del _ _ r) as [[? ?]|]; [|discriminate]. injection Ed as <- _. discriminate. }
  destruct v as [v|].
  - injection H as <- <-. split; [|exact R1]. split; [exact W1|apply K; left; discriminate].
  - destruct (isempty k) eqn:Ei.
    + destruct (tset g [] (Some [])) as [g2 n2] eqn:E2. injection H as <- <-. assert (C0 : canonical []) by (left; constructor). destruct (tset_ok _ _ _ _ _ W1 C0 E2) as (W2 & _ & T2 & _).
      split.
      * split; [exact W2|]. unfold tset in E2. cbn in E2. cbn [live]. destruct (root g) as [[? ? ?]|]; cbn in E2; [|injection E2 as <- <-; discriminate].
        match type of E2 with context [if ?b then _ else _] => destruct b end; injection E2 as <- <-; discriminate.
      * intros m Em q P. rewrite replay_app. cbn [live]. rewrite (replay_ext n2 (replay n1 m) (has g)) by (apply R1; assumption). apply tells_replay; assumption.
    + injection H as <- <-. split; [|exact R1]. split; [exact W1|apply K; right; reflexivity].
Qed.
Lemma reports_has g g' t t' n : root g = Some t -> root g' = Some t' -> reports [] (lk t) (lk t') n -> reports [] (has g) (has g') n.
Proof. intros E E' R. eapply reports_ext; [| |exact R]; intros r _; unfold has, lko; [rewrite E|rewrite E']; reflexivity. Qed.

Lemma reports_replay g' ma n k : WFo (root g') -> reports [] ma (has g') n -> (forall a b, Forall plain a -> Forall plain b -> same a b = true -> ma a = ma b) ->
  Forall plain k -> replay n ma k = has g' k.
Proof.
  intros W [S A _] Hl P.
  assert (T : forall q w, In (q, w) n -> Forall plain q /\ has g' q = w).
  { intros q w H. destruct (S q w H) as (Pq & r & Pr & E & E1 & _). split; [exact Pq|]. cbn in E. rewrite <- E1. symmetry. apply has_low; auto. apply same_lows. symmetry. exact E. }
  assert (G : forall l m0, (forall x, In x l -> In x n) -> (m0 k = has g' k \/ exists k0 v, In (k0, v) l /\ same k0 k = true) -> replay l m0 k = has g' k).
  { induction l as [|[k1 v1] l IH]; intros m0 Hi H.
    - destruct H as [H|(k0 & v & [] & _)]. exact H.
    - apply (IH (note m0 (k1, v1))); [intros x Hx; apply Hi; right; exact Hx|]. unfold note. cbn [fst snd]. destruct (same k1 k) eqn:E.
      + left. destruct (T k1 v1 (Hi _ (or_introl eq_refl))) as (P1 & <-). apply has_low; assumption.
      + destruct H as [H|(k0 & v & [H|H] & E')]; [left; exact H|congruence|right; eauto]. }
  apply G; [auto|]. destruct (TempProofs.option_eq_dec (list_eq_dec ascii_dec) (ma k) (has g' k)) as [E|E]; [left; exact E|]. right. destruct (A k P E) as (q & w & H & Eq). exists q, w. split; [exact H|]. apply same_lows. exact Eq.
Qed.
Lemma refresh_load i st content g : fine_ini i -> stat_eqb st (old_st i) = false -> load content = Ok g ->
  exists n, ini_refresh i (Readable st content false) = Ok ({| live := {| root := root g; dirty := false |}; old_st := st |}, true, n) /\ reports [] (has (live i)) (has g) n.
Proof.
  intros [W N] Hs Hl. destruct (load_good _ _ Hl) as [Wg Ng]. unfold ini_refresh. rewrite Hs, Hl. cbn [bind]. destruct (root (live i)) as [o|] eqn:Eo; [|congruence]. destruct (root g) as [t|] eqn:Eg; [|congruence].
  cbn [of_opt bind]. destruct (compare_ok o t W Wg) as (n & E & R). rewrite E. cbn [bind]. exists n. split; [reflexivity|]. eapply reports_has; eauto.
Qed.
Lemma refresh_fine i a i' b n : fine_ini i -> ini_refresh i a = Ok (i', b, n) -> fine_ini i' /\
  (forall m, same_contents m (has (live i)) -> same_contents (replay n m) (has (live i'))).
Proof.
  intros F H. destruct a as [junk|st|st content failed]; cbn [ini_refresh] in H.
  1,2: injection H as <- <- <-; split; [exact F|intros m Em; exact Em].
  destruct (stat_eqb st (old_st i)) eqn:Es; [injection H as <- <- <-; split; [exact F|intros m Em; exact Em]|].
  destruct (load content) as [g| |] eqn:El; cbn [bind] in H; try discriminate. destruct failed; [injection H as <- <- <-; split; [exact F|intros m Em; exact Em]|].
  destruct (refresh_load i st content g F Es El) as (n' & E & R). unfold ini_refresh in E. rewrite Es, El in E. cbn [bind] in E. rewrite H in E. injection E as -> _ ->. destruct (load_good _ _ El) as [Wg Ng].
  split; [split; [exact Wg|exact Ng]|]. intros m Em q P. rewrite (replay_ext n' m (has (live i))) by (apply Em, P). change (has _) with (has g) at 2. apply reports_replay; auto.
  intros x y Px Py Sx. apply has_low; [apply F|exact Px|exact Py|exact Sx].
Qed.
Definition keys_ok (es : list event) : Prop := forall k v, In (Set_ k v) es -> canonical k.
Lemma history_fine i es ns i' : ini_history i es ns i' -> fine_ini i -> keys_ok es -> fine_ini i' /\
  (forall m, same_contents m (has (live i)) -> same_contents (replay ns m) (has (live i'))).
Proof.
  induction 1 as [i|i k v i1 n es ns i' Hs H IH|i a i1 b n es ns i' Hr H IH|i t t' es ns i' Et Hs H IH]; intros F K.
  - split; [exact F|]. intros m Em. exact Em.
  - destruct (set_fine i k v i1 n F) as (F1 & R1); [apply (K k v); left; reflexivity|exact Hs|]. destruct IH as (F' & R'); [exact F1|intros k0 v0 H0; apply (K k0 v0); right; exact H0|].
    split; [exact F'|]. intros m Em q P. rewrite replay_app. apply R'; [apply R1; exact Em|exact P].
  - destruct (refresh_fine i a i1 b n F Hr) as (F1 & R1). destruct IH as (F' & R'); [exact F1|intros k0 v0 H0; apply (K k0 v0); right; exact H0|].
    split; [exact F'|]. intros m Em q P. rewrite replay_app. apply R'; [apply R1; exact Em|exact P].
  - destruct F as [W N]. rewrite Et in W. destruct (shuffle_ok t t' Hs W) as (W1 & _ & _ & L). destruct IH as (F' & R'); [split; [exact W1|discriminate]|exact K|].
    split; [exact F'|]. intros m Em. apply R'. intros q P. rewrite Em by exact P. unfold has. rewrite Et. cbn. symmetry. apply L, P.
Qed.
