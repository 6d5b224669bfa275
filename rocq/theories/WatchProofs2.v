From Coq Require Import Permutation.
From Verif Require Import Base BaseFacts Ctype KeyModel KeySpec KeyProofs TempModel TempSpec TreeProofs WatchModel WatchSpec WatchProofs.
Local Open Scope nat_scope.

Lemma kcat_plain p s : Forall plain p -> plain s -> kcat p [s] = p ++ [s].
Proof.
  intros P Ps. unfold kcat. assert (Q : Forall plain (p ++ [s])) by (apply Forall_app; auto).
  assert (filter (fun s => negb (isnil s)) (p ++ [s]) = p ++ [s]) as ->.
  { clear P Ps. induction Q as [|x l Hx Hl IH]; [reflexivity|]. cbn. destruct x; [destruct Hx; congruence|]. cbn. f_equal. exact IH. }
  assert (isempty [s] || hastrailingslash [s] = false) as ->.
  { destruct Ps as (Hs & _). destruct s; [congruence|reflexivity]. }
  rewrite app_nil_r. apply plain_collapse, Q.
Qed.
Lemma klast_0 k : klast k 0 = [].
Proof.
  unfold klast, range. rewrite Z.sub_0_r. set (n := Z.of_nat (length k)). set (j := if (n <? int_max)%Z then n else int_max).
  assert (H : (j <= n)%Z) by (unfold j; destruct (n <? int_max)%Z eqn:E; [lia|apply Z.ltb_ge in E; exact E]).
  replace (n <? 0)%Z with false by (symmetry; apply Z.ltb_ge; lia). destruct (j <? n)%Z eqn:E.
  - rewrite Z.sub_diag. reflexivity.
  - apply Z.ltb_ge in E. replace (j - n)%Z with 0%Z by lia. reflexivity.
Qed.
Lemma check_here t k : Forall plain k -> check t k 0 = map (fun w => (what w, k, [])) (tval t).
Proof.
  intros P. unfold check. change (Z.of_nat 0) with 0%Z. pose proof (removelast_plain k 0 P ltac:(lia)) as H1.
  rewrite Nat.sub_0_r in H1. change (Z.of_nat 0) with 0%Z in H1. rewrite H1, klast_0, firstn_all.
  induction (tval t) as [|w l IH]; [reflexivity|]. cbn [flat_map map]. rewrite IH. rewrite andb_false_r. reflexivity.
Qed.
Lemma flat_map_ext_in {A B} (f g : A -> list B) l : (forall x, In x l -> f x = g x) -> flat_map f l = flat_map g l.
Proof. induction l as [|x l IH]; intros H; cbn; [reflexivity|]. rewrite (H x) by (left; reflexivity). f_equal. apply IH. intros y Hy. apply H. right. exact Hy. Qed.

(** The part of a registry below one child. *)
Definition heads (s : bytes) (e : entry) : bool := match e_key e with [] => false | x :: _ => teq s x end.
Definition tails (e : entry) : entry := {| e_key := tl (e_key e); e_below := e_below e; e_cookie := e_cookie e; e_what := e_what e |}.
Definition sub (r : list entry) (s : bytes) : list entry := map tails (filter (heads s) r).
Lemma sub_filter r s q : map w_of (filter (fun e => same (e_key e) (s :: q)) r) = map w_of (filter (fun e => same (e_key e) q) (sub r s)).
Proof.
  unfold sub. induction r as [|e r IH]; [reflexivity|]. cbn [filter map]. unfold heads. destruct (e_key e) as [|x l] eqn:Ek; [exact IH|].
  rewrite same_cons, (teq_sym s x). destruct (teq x s); cbn [andb]; [|exact IH]. cbn [map filter tails e_key]. rewrite Ek. cbn [tl].
  destruct (same l q); [|exact IH]. cbn [map]. rewrite IH. reflexivity.
Qed.
Lemma sub_R (t c : wtree) r s : R t r -> In c (tch t) -> s = tkey c -> R c (sub r s).
Proof.
  intros (W & P & A) Hc ->. pose proof (WF_inv _ W) as (Pc & N & Fc). rewrite Forall_forall in Pc, Fc. pose proof (Pc _ Hc) as Pk.
  split; [apply Fc, Hc|]. split.
  - unfold sub. rewrite Forall_map, Forall_forall. intros e He. apply filter_In in He. destruct He as [He _]. rewrite Forall_forall in P.
    specialize (P e He). cbn [tails e_key]. destruct (e_key e); [constructor|exact (Forall_inv_tail P)].
  - intros q Q. rewrite <- sub_filter. rewrite <- A by (constructor; assumption). rewrite at_cons.
    assert (child (tch t) (tkey c) = Some c) as ->; [|reflexivity]. apply child_in; auto using plain_nulf. rewrite Forall_forall. exact Pc.
Qed.

Definition ev (k : key) (e : entry) : event := (e_what e, lows (k ++ e_key e), []).
Lemma filter_split {A} (f : A -> bool) l : Permutation l (filter f l ++ filter (fun x => negb (f x)) l).
Proof.
  induction l as [|x l IH]; [constructor|]. cbn [filter]. destruct (f x); cbn [negb app].
  - constructor. exact IH.
  - eapply perm_trans; [constructor; exact IH|]. apply Permutation_middle.
Qed.
(** The entries that are not at the key itself, by child. *)
Lemma by_child : forall (ch : list wtree) r, NoDup (map (fun c : wtree => low (tkey c)) ch) ->
  (forall e, In e r -> exists c, In c ch /\ heads (tkey c) e = true) ->
  Permutation r (flat_map (fun c => filter (heads (tkey c)) r) ch).
Proof.
  induction ch as [|c ch IH]; intros r N H.
  - destruct r as [|e r]; [constructor|]. destruct (H e (or_introl eq_refl)) as (c & [] & _).
  - cbn [flat_map map] in *. inversion N as [|? ? N1 N2]; subst.
    eapply perm_trans; [apply (filter_split (heads (tkey c)))|]. apply Permutation_app_head.
    assert (E : flat_map (fun d => filter (heads (tkey d)) r) ch = flat_map (fun d => filter (heads (tkey d)) (filter (fun x => negb (heads (tkey c) x)) r)) ch).
    { apply flat_map_ext_in. intros d Hd. clear - Hd N1. induction r as [|e r IH]; [reflexivity|]. cbn [filter].
      destruct (heads (tkey c) e) eqn:Hc; cbn [negb filter].
      - destruct (heads (tkey d) e) eqn:He; [|exact IH]. exfalso. apply N1. unfold heads in *. destruct (e_key e); [discriminate|].
        apply teq_spec in Hc, He. rewrite Hc, <- He. apply (in_map (fun c : wtree => low (tkey c))). exact Hd.
      - destruct (heads (tkey d) e); [f_equal|]; exact IH. }
    rewrite E. apply IH; [exact N2|]. intros e He. apply filter_In in He. destruct He as [He Hn]. apply negb_true_iff in Hn.
    destruct (H e He) as (d & [->|Hd] & Hh); [congruence|]. exists d. auto.
Qed.
Definition deep (e : entry) : bool := match e_key e with [] => false | _ => true end.
Lemma split_here (r : list entry) : Permutation r (filter (fun e => same (e_key e) []) r ++ filter deep r).
Proof.
  eapply perm_trans; [apply (filter_split (fun e => same (e_key e) []))|]. apply Permutation_app_head.
  match goal with |- Permutation ?a ?b => replace a with b; [reflexivity|] end. apply filter_ext. intros e. unfold deep. destruct (e_key e); reflexivity.
Qed.
Lemma flat_map_perm {A B} (f g : A -> list B) l : Forall (fun x => Permutation (f x) (g x)) l -> Permutation (flat_map f l) (flat_map g l).
Proof. induction 1; cbn; [constructor|]. apply Permutation_app; assumption. Qed.
Lemma map_flat_map {A B C} (f : B -> C) (g : A -> list B) l : map f (flat_map g l) = flat_map (fun x => map f (g x)) l.
Proof. induction l; cbn; [reflexivity|]. rewrite map_app. congruence. Qed.

Lemma deletion_ok : forall (t : wtree) r k, R t r -> Forall plain k ->
  Permutation (map folded (deletioncheck t k)) (map (ev k) (filter deep r)).
Proof.
  induction t as [tk tv ch IH] using tree_ind2. intros r k HR P. cbn [deletioncheck].
  pose proof HR as (W & Pr & A). pose proof (WF_inv _ W) as (Pc & N & Fc). cbn [tch] in *.
  assert (Hh : forall e, In e (filter deep r) -> exists c, In c ch /\ heads (tkey c) e = true).
  { intros e He. apply filter_In in He. destruct He as [He Hd]. unfold deep, heads in *. destruct (e_key e) as [|x l] eqn:Ek; [discriminate|].
    rewrite Forall_forall in Pr. pose proof (Pr e He) as Pe. rewrite Ek in Pe. destruct (child ch x) as [c|] eqn:Ec.
    - exists c. split; [eapply child_In, Ec|]. apply child_in in Ec; auto using plain_nulf, (Forall_inv Pe). apply teq_spec. apply Ec.
    - exfalso. assert (at_key (Node tk tv ch) (x :: l) = []) by (rewrite at_cons; cbn [tch]; rewrite Ec; reflexivity).
      pose proof (at_nil_none _ _ _ HR Pe H e He) as Hs. rewrite Ek, same_refl in Hs. discriminate. }
  eapply perm_trans; [|apply Permutation_map; symmetry; apply by_child; [exact N|exact Hh]].
  rewrite !map_flat_map. apply flat_map_perm. rewrite Forall_forall in IH, Pc, Fc. rewrite Forall_forall. intros c Hc. cbv beta zeta.
  pose proof (Pc c Hc) as Pk. assert (Pkc : Forall plain (k ++ [tkey c])) by (apply Forall_app; auto).
  rewrite kcat_plain by assumption.
  rewrite check_here by assumption. rewrite map_app, map_map.
  pose proof (sub_R _ c r (tkey c) HR Hc eq_refl) as HRc.
  assert (E1 : map (fun w => folded (what w, k ++ [tkey c], [])) (tval c) = map (ev (k ++ [tkey c])) (filter (fun e => same (e_key e) []) (sub r (tkey c)))).
  { destruct HRc as (_ & _ & Ac). specialize (Ac [] (Forall_nil _)). unfold at_key in Ac. cbn [lk] in Ac. rewrite Ac. rewrite map_map. apply map_ext_in. intros e He.
    apply filter_In in He. destruct He as [_ He]. destruct (e_key e) eqn:Ek; [|discriminate]. unfold ev, folded. cbn [w_of what]. rewrite Ek, app_nil_r. reflexivity. }
  rewrite E1. eapply perm_trans.
  { apply Permutation_app_head. apply (IH c Hc (sub r (tkey c)) (k ++ [tkey c]) HRc Pkc). }
  rewrite <- map_app. eapply perm_trans; [apply Permutation_map; symmetry; apply split_here|].
  unfold sub. rewrite map_map.
  assert (E2 : filter (heads (tkey c)) (filter deep r) = filter (heads (tkey c)) r).
  { clear. induction r as [|e r IH]; [reflexivity|]. cbn [filter]. unfold deep, heads in *. destruct (e_key e) eqn:Ek; [exact IH|]. cbn [filter]. rewrite Ek, IH. reflexivity. }
  rewrite E2. match goal with |- Permutation ?a ?b => replace a with b; [reflexivity|] end. apply map_ext_in. intros e He. apply filter_In in He. destruct He as [_ He].
  unfold ev, heads in *. cbn [tails e_key e_what]. destruct (e_key e) as [|x l]; [discriminate|]. cbn [tl]. f_equal. f_equal.
  rewrite <- app_assoc. rewrite !lows_app. f_equal. cbn. f_equal. apply teq_spec in He. symmetry. exact He.
Qed.

(** Entries below a key, seen from the node at that key. *)
Fixpoint subs (r : list entry) (k : key) : list entry := match k with [] => r | s :: k => subs (sub r s) k end.
Lemma find_R : forall k (t n : wtree) r, R t r -> Forall plain k -> find t k = Some n -> R n (subs r k).
Proof.
  induction k as [|s k IH]; intros t n r HR P H; cbn [find subs] in *; [injection H as <-; exact HR|].
  unfold findchild in H. rewrite isempty_seg in H by (exact (Forall_inv P)). destruct (child (tch t) s) as [c|] eqn:Ec; [|discriminate].
  apply IH with (t := c); [|exact (Forall_inv_tail P)|exact H].
  assert (E : sub r s = sub r (tkey c)).
  { destruct HR as (W & _). destruct (WF_inv _ W) as (Pc & N & _). apply child_in in Ec; [|exact Pc|exact N|exact (plain_nulf _ (Forall_inv P))]. destruct Ec as [_ Ec].
    unfold sub. f_equal. apply filter_ext. intros e. unfold heads. destruct (e_key e); [reflexivity|]. symmetry. apply teq_trans. apply teq_spec. symmetry. exact Ec. }
  rewrite E. eapply sub_R; [exact HR|eapply child_In, Ec|reflexivity].
Qed.
Lemma subs_below : forall k r p, map (ev (p ++ k)) (filter deep (subs r k)) =
  map (fun e => folded (e_what e, p ++ e_key e, [])) (filter (fun e => under k (e_key e) && negb (under (e_key e) k)) r).
Proof.
  induction k as [|s k IH]; intros r p; cbn [subs].
  - rewrite app_nil_r. f_equal. apply filter_ext. intros e. unfold deep. destruct (e_key e); reflexivity.
  - replace (p ++ s :: k) with ((p ++ [s]) ++ k) by (rewrite <- app_assoc; reflexivity). rewrite IH. unfold sub.
    induction r as [|e r IHr]; [reflexivity|]. cbn [filter map]. unfold heads in *. destruct (e_key e) as [|x l] eqn:Ek; cbn [under].
    + exact IHr.
    + rewrite (teq_sym x s). destruct (teq s x) eqn:T; cbn [andb]; [|exact IHr]. cbn [map filter tails e_key]. rewrite Ek. cbn [tl].
      destruct (under k l && negb (under l k)); [|exact IHr]. cbn [map tails e_key e_what]. rewrite Ek. cbn [tl]. f_equal; [|exact IHr].
      unfold folded. f_equal. f_equal. change (lows ((p ++ [s]) ++ l) = lows (p ++ x :: l)). rewrite <- app_assoc. rewrite !lows_app. f_equal. cbn. f_equal. apply teq_spec, T.
Qed.
Lemma no_node_below k (t : wtree) r : R t r -> Forall plain k -> find t k = None ->
  filter (fun e => under k (e_key e) && negb (under (e_key e) k)) r = [].
Proof.
  intros HR P H. assert (Q : forall e, In e r -> under k (e_key e) = false).
  { intros e He. destruct (under k (e_key e)) eqn:U; [|reflexivity]. exfalso. pose proof HR as (_ & Pr & _). rewrite Forall_forall in Pr. pose proof (Pr e He) as Pe.
    apply under_lows in U. destruct U as (x & E).
    assert (E2 : e_key e = firstn (length k) (e_key e) ++ skipn (length k) (e_key e)) by (symmetry; apply firstn_skipn).
    assert (E3 : same k (firstn (length k) (e_key e)) = true).
    { apply same_lows. unfold lows in *. rewrite <- firstn_map. rewrite E. rewrite firstn_app. rewrite map_length, Nat.sub_diag, firstn_O, app_nil_r. rewrite <- (map_length low k), firstn_all. reflexivity. }
    assert (at_key t (k ++ skipn (length k) (e_key e)) = []) by (apply find_none_at; assumption).
    assert (Pk : Forall plain (k ++ skipn (length k) (e_key e))) by (apply Forall_app; split; [exact P|apply Forall_skipn, Pe]).
    pose proof (at_nil_none _ _ _ HR Pk H0 e He) as Hs.
    assert (same (e_key e) (k ++ skipn (length k) (e_key e)) = true); [|congruence].
    apply same_lows. rewrite E2 at 1. rewrite !lows_app. f_equal. symmetry. apply same_lows, E3. }
  induction r as [|e r IH]; [reflexivity|]. cbn [filter]. rewrite Q by (left; reflexivity). cbn [andb].
  clear IH HR. induction r as [|e' r IH]; [reflexivity|]. cbn [filter]. rewrite Q by (right; left; reflexivity). cbn [andb]. apply IH. intros e0 [->|H0]; apply Q; [left; reflexivity|right; right; exact H0].
Qed.

(** ** Leftovers *)
Lemma watchout_ok : forall t : wtree, WF t -> (watchout t = true <-> exists s k, Forall plain (s :: k) /\ at_key t (s :: k) <> []).
Proof.
  induction t as [tk tv ch IH] using tree_ind2. intros W. pose proof (WF_inv _ W) as (Pc & N & Fc). cbn [tch watchout] in *. rewrite Forall_forall in IH, Fc.
  rewrite existsb_exists. split.
  - intros (c & Hc & H). assert (Pk : plain (tkey c)) by (rewrite Forall_forall in Pc; apply Pc, Hc).
    assert (E : child ch (tkey c) = Some c) by (apply child_in; auto using plain_nulf). apply orb_true_iff in H. destruct H as [H|H].
    + apply (IH c Hc (Fc c Hc)) in H. destruct H as (s & k & P & H). exists (tkey c), (s :: k). split; [constructor; assumption|]. rewrite at_cons. cbn [tch]. rewrite E. exact H.
    + exists (tkey c), []. split; [constructor; [exact Pk|constructor]|]. rewrite at_cons. cbn [tch]. rewrite E. unfold at_key. cbn [lk]. destruct (tval c); discriminate.
  - intros (s & k & P & H). rewrite at_cons in H. cbn [tch] in H. destruct (child ch s) as [c|] eqn:E; [|congruence]. pose proof (child_In _ _ _ E) as Hc.
    exists c. split; [exact Hc|]. destruct k as [|s' k].
    + unfold at_key in H. cbn [lk] in H. destruct (tval c); [congruence|]. apply orb_true_r.
    + apply orb_true_iff. left. apply (IH c Hc (Fc c Hc)). exists s', k. split; [exact (Forall_inv_tail P)|exact H].
Qed.
Lemma pruned_used : forall t : wtree, WF t -> pruned t -> essential t = true -> exists k, Forall plain k /\ at_key t k <> [].
Proof.
  induction t as [tk tv ch IH] using tree_ind2. intros W Pr E. pose proof (WF_inv _ W) as (Pc & N & Fc). pose proof (pruned_inv _ Pr) as [A B]. cbn [tch] in *.
  destruct ch as [|c ch].
  - exists []. split; [constructor|]. unfold at_key. cbn [lk tval]. unfold essential in E. cbn in E. destruct tv; discriminate.
  - destruct (Forall_inv IH (Forall_inv Fc) (Forall_inv B) (Forall_inv A)) as (k & P & H).
    exists (tkey c :: k). split; [constructor; [exact (Forall_inv Pc)|exact P]|]. rewrite at_cons. cbn [tch].
    assert (child (c :: ch) (tkey c) = Some c) as ->; [|exact H]. apply child_in; auto using plain_nulf. apply plain_nulf. exact (Forall_inv Pc). split; [left|]; reflexivity.
Qed.

(** ** A watch misses nothing *)
Lemma told_in r e k : In e r -> (if e_below e then under (e_key e) k else same (e_key e) k) = true -> exists q rest, In (e_what e, q, rest) (told_above r k).
Proof.
  intros He H. assert (U : under (e_key e) k = true) by (destruct (e_below e); [exact H|apply andb_true_iff in H; apply H]).
  apply under_lows in U. destruct U as (x & E). set (n := length (e_key e)).
  assert (Ln : n <= length k). { apply (f_equal (@length bytes)) in E. unfold lows in E. rewrite app_length, !map_length in E. unfold n. lia. }
  assert (Sm : same (e_key e) (firstn n k) = true).
  { apply same_lows. unfold lows in *. rewrite <- firstn_map, E, firstn_app, map_length. unfold n. rewrite Nat.sub_diag, firstn_O, app_nil_r, <- (map_length low (e_key e)), firstn_all. reflexivity. }
  exists (firstn n k), (skipn n k). unfold told_above. apply in_flat_map. exists n. split; [apply in_seq; lia|].
  unfold told_at. apply in_map_iff. exists e. split; [reflexivity|]. apply filter_In. split; [exact He|]. rewrite Sm. cbn [andb]. destruct (e_below e); [reflexivity|]. cbn [orb].
  apply Nat.eqb_eq. apply same_lows in H. apply (f_equal (@length bytes)) in H. unfold lows in H. rewrite !map_length in H. exact H.
Qed.
Lemma replay_cause : forall ns m q, replay ns m q <> m q -> exists n, In n ns /\ same (fst n) q = true.
Proof.
  induction ns as [|n ns IH]; intros m q H; [elim H; reflexivity|]. destruct (same (fst n) q) eqn:E; [exists n; split; [left; reflexivity|exact E]|].
  change (replay ns (note m n) q <> m q) in H. destruct (IH (note m n) q) as (n' & H1 & H2).
  - unfold note at 2. rewrite E. exact H.
  - exists n'. split; [right; exact H1|exact H2].
Qed.
