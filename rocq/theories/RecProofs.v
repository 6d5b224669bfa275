From Verif Require Import Base BaseFacts Ctype KeyModel KeySpec KeyProofs TempModel TempSpec TreeProofs TempProofs WatchModel WatchProofs WatchProofs2 RecModel.
Local Open Scope nat_scope.

Lemma removelast_snoc1 p s : Forall plain p -> plain s -> KeyModel.removelast (p ++ [s]) 1 = p.
Proof.
  intros P Ps. change 1%Z with (Z.of_nat 1). rewrite removelast_plain; [|apply Forall_app; auto|rewrite app_length; cbn; lia]. rewrite app_length. cbn [length]. replace (length p + 1 - 1) with (length p) by lia.
  rewrite firstn_app, Nat.sub_diag, firstn_all. cbn. apply app_nil_r.
Qed.
Lemma filter_plain p : Forall plain p -> filter (fun s => negb (isnil s)) p = p.
Proof. induction 1 as [|s p [N _] H IH]; [reflexivity|]. cbn. destruct s; [congruence|]. cbn. f_equal. exact IH. Qed.
Lemma kcat_named top p : canonical top -> Forall plain p -> p <> [] -> kcat top p = named top ++ p.
Proof.
  intros C P N. unfold kcat. rewrite filter_app, (filter_plain p P).
  assert (E : filter (fun s => negb (isnil s)) top = named top).
  { destruct C as [Q|(k' & _ & Q & ->)]; [destruct (plain_slashed _ Q) as [_ ->]; apply filter_plain, Q|]. destruct (trailing_slashed k' Q) as [_ ->]. rewrite filter_app, (filter_plain k' Q). cbn. apply app_nil_r. }
  rewrite E. assert (T : isempty p || hastrailingslash p = false).
  { destruct p as [|s r]; [congruence|]. cbn [isempty orb]. unfold hastrailingslash. cbn [isempty negb andb]. destruct (last (s :: r) []) as [|c x] eqn:L; [|reflexivity].
    exfalso. assert (In (last (s :: r) []) (s :: r)) as Hi by (apply exists_last in N; destruct N as (a & b & E0); rewrite E0, last_last; apply in_app_iff; right; left; reflexivity).
    rewrite L in Hi. rewrite Forall_forall in P. destruct (P [] Hi) as [X _]. congruence. }
  rewrite T, app_nil_r. apply plain_collapse, Forall_app. split; [apply canonical_named, C|exact P].
Qed.

(** The keys below a node, parents first *)
Fixpoint below_keys (p : key) (t : tree bytes) : list key :=
  match t with Node k _ ch => (p ++ [k]) :: flat_map (below_keys (p ++ [k])) ch end.
Definition forest (p : key) (l : list (tree bytes)) : list key := flat_map (below_keys p) l.

Section Outs.
Context (iter : key -> option (list bytes)) (top : key).
Inductive Outs : rstate -> list key -> Prop :=
| O_end s s' : next iter top s = Ok (s', false) -> Outs s []
| O_step s s' k ks : next iter top s = Ok (s', true) -> rkey s' = Ok k -> Outs s' ks -> Outs s (k :: ks).
Lemma Outs_next s s' ks : next iter top s = next iter top s' -> Outs s' ks -> Outs s ks.
Proof. intros E H. inversion H; subst; [eapply O_end; rewrite E; eassumption|eapply O_step; [rewrite E; eassumption|eassumption|eassumption]]. Qed.
Lemma Outs_run s ks : Outs s ks -> forall fuel, length ks < fuel -> run iter top fuel s = Ok ks.
Proof.
  induction 1 as [s s' H|s s' k ks Hn Hk H IH]; intros [|fuel] L; cbn in L; try lia; cbn [run].
  - rewrite H. reflexivity.
  - rewrite Hn. cbn [bind]. rewrite Hk. cbn [bind]. rewrite IH by lia. reflexivity.
Qed.
(** [n] is the node at [top] *)
Context (n : tree bytes).
Hypothesis Hit : forall p nd, Forall plain p -> p <> [] -> find n p = Some nd -> iter (kcat top p) = Some (map tkey (tch nd)).
Lemma find_snoc p nd c : Forall plain p -> find n p = Some nd -> WF nd -> In c (tch nd) -> find n (p ++ [tkey c]) = Some c.
Proof.
  intros P F W Hc. assert (E : child (tch nd) (tkey c) = Some c).
  { destruct (WF_inv _ W) as (Pc & N & _). apply child_in; auto. apply plain_nulf. rewrite Forall_forall in Pc. apply Pc, Hc. }
  clear Hit. revert n F. induction P as [|s r Ps P IH]; intros t F; cbn [app find] in *.
  - injection F as ->. unfold findchild. destruct (WF_inv _ W) as (Pc & _ & _). rewrite isempty_plain by (rewrite Forall_forall in Pc; apply Pc, Hc). rewrite E. reflexivity.
  - destruct (findchild t s) as [x|]; [|discriminate]. apply IH, F.
Qed.
Lemma rest_outs : forall t p nd r o ks, plain (tkey t) -> WF t -> Forall plain p -> find n p = Some nd -> WF nd -> In t (tch nd) ->
  Outs {| itlist := (Some (tkey t), o) :: r; current := p; sub_next := false |} ks ->
  Outs {| itlist := (Some (tkey t), o) :: r; current := p; sub_next := true |} (forest (p ++ [tkey t]) (tch t) ++ ks).
Proof.
  induction t as [k v ch IH] using tree_ind2. intros p nd r o ks Pk W P F Wn Hc H. cbn [tkey tch] in *. pose proof (find_snoc p nd _ P F Wn Hc) as Fc. cbn [tkey] in Fc.
  assert (Pp : Forall plain (p ++ [k])) by (apply Forall_app; auto).
  set (s1 := {| itlist := (None, map tkey ch) :: (Some k, o) :: r; current := p ++ [k]; sub_next := false |}).
  apply (Outs_next _ s1).
  { unfold next at 1, descend. cbn [sub_next itlist current]. rewrite kcat_plain by assumption. rewrite (Hit (p ++ [k]) (Node k v ch) Pp); [reflexivity|destruct p; discriminate|exact Fc]. }
  destruct (WF_inv _ W) as (Pc & _ & Wc). cbn [tch] in Pc, Wc.
  assert (G : forall l a x, ch = a ++ l -> Outs {| itlist := (x, map tkey l) :: (Some k, o) :: r; current := p ++ [k]; sub_next := false |} (forest (p ++ [k]) l ++ ks)).
  { induction l as [|c l IHl]; intros a x E.
    - cbn [forest flat_map app map]. eapply Outs_next; [|exact H]. unfold next, descend. cbn [sub_next bind itlist current climb]. rewrite removelast_snoc1 by assumption. reflexivity.
    - assert (Hin : In c ch) by (rewrite E; apply in_app_iff; right; left; reflexivity). rewrite Forall_forall in Pc, Wc, IH. pose proof (Pc c Hin) as Pkc. pose proof (Wc c Hin) as Wkc.
      replace (forest (p ++ [k]) (c :: l)) with (((p ++ [k]) ++ [tkey c]) :: (forest ((p ++ [k]) ++ [tkey c]) (tch c) ++ forest (p ++ [k]) l)) by (destruct c; reflexivity).
      cbn [app]. eapply O_step.
      + unfold next, descend. cbn [sub_next bind itlist current climb map]. reflexivity.
      + unfold rkey. cbn [itlist current]. rewrite kcat_plain by assumption. reflexivity.
      + rewrite <- app_assoc. apply (IH c Hin (p ++ [k]) (Node k v ch)); auto.
        apply (IHl (a ++ [c])). rewrite <- app_assoc. exact E. }
  apply (G ch []). reflexivity.
Qed.
Lemma all_outs : WF n -> iter top = Some (map tkey (tch n)) -> Outs (rewind iter top) (forest [] (tch n)).
Proof.
  intros W E. unfold rewind. rewrite E. destruct (WF_inv _ W) as (Pc & _ & Wc).
  assert (G : forall l a x, tch n = a ++ l -> Outs {| itlist := [(x, map tkey l)]; current := []; sub_next := false |} (forest [] l)).
  { induction l as [|c l IHl]; intros a x El.
    - eapply O_end. unfold next, descend. cbn [sub_next bind itlist current climb map]. reflexivity.
    - assert (Hin : In c (tch n)) by (rewrite El; apply in_app_iff; right; left; reflexivity). rewrite Forall_forall in Pc, Wc. pose proof (Pc c Hin) as Pkc. pose proof (Wc c Hin) as Wkc.
      replace (forest [] (c :: l)) with ([tkey c] :: (forest ([] ++ [tkey c]) (tch c) ++ forest [] l)) by (destruct c; reflexivity). eapply O_step.
      + unfold next, descend. cbn [sub_next bind itlist current climb map]. reflexivity.
      + unfold rkey. cbn [itlist current]. rewrite kcat_plain by (auto; constructor). reflexivity.
      + apply (rest_outs c [] n); auto. apply (IHl (a ++ [c])). rewrite <- app_assoc. exact El. }
  apply (G _ []). reflexivity.
Qed.
End Outs.

(** ** What is listed *)
Lemma below_shape : forall t p k, In k (below_keys p t) -> exists r, k = p ++ tkey t :: r.
Proof.
  induction t as [k v ch IH] using tree_ind2. intros p q [<-|H]; [exists []; reflexivity|]. apply in_flat_map in H. destruct H as (c & Hc & H). rewrite Forall_forall in IH.
  destruct (IH c Hc _ _ H) as (r & ->). exists (tkey c :: r). rewrite <- app_assoc. reflexivity.
Qed.
Lemma below_iff : forall t p r, WF t -> plain (tkey t) -> Forall plain r -> lk t r <> None <-> exists r0, In (p ++ tkey t :: r0) (below_keys p t) /\ lows r0 = lows r.
Proof.
  induction t as [k v ch IH] using tree_ind2. intros p r W Pk Pr. cbn [tkey]. destruct (WF_inv _ W) as (Pc & N & Wc). cbn [tch] in *. rewrite Forall_forall in IH, Wc. split.
  - intros H. destruct r as [|s r]; [exists []; split; [left; reflexivity|reflexivity]|]. cbn [lk tch] in H. destruct (child ch s) as [c|] eqn:Ec; [|congruence].
    assert (Pcf : forall c, In c ch -> plain (tkey c)) by (rewrite Forall_forall in Pc; exact Pc).
    apply child_in in Ec; auto; [|apply plain_nulf; exact (Forall_inv Pr)]. destruct Ec as [Hc El].
    destruct (proj1 (IH c Hc (p ++ [k]) r (Wc c Hc) (Pcf c Hc) (Forall_inv_tail Pr)) H) as (r0 & Hi & E).
    exists (tkey c :: r0). split; [right; apply in_flat_map; exists c; split; [exact Hc|]; rewrite <- app_assoc in Hi; exact Hi|]. cbn. rewrite El. f_equal. exact E.
  - intros (r0 & [H|H] & E).
    + apply app_inv_head in H. injection H as <-. destruct r; [discriminate|discriminate E].
    + apply in_flat_map in H. destruct H as (c & Hc & H). pose proof (below_shape _ _ _ H) as (r1 & E1). rewrite <- app_assoc in E1. apply app_inv_head in E1. injection E1 as ->.
      destruct r as [|s r]; [discriminate E|]. cbn in E. injection E as Es Er. cbn [lk tch].
      assert (Pcc : plain (tkey c)) by (rewrite Forall_forall in Pc; apply Pc, Hc).
      assert (Ec : child ch s = Some c) by (apply child_in; auto; apply plain_nulf; exact (Forall_inv Pr)). rewrite Ec.
      apply (IH c Hc (p ++ [k]) r (Wc c Hc) Pcc (Forall_inv_tail Pr)). exists r1. split; [rewrite <- app_assoc; exact H|exact Er].
Qed.
Lemma below_plain : forall t p k, WF t -> plain (tkey t) -> Forall plain p -> In k (below_keys p t) -> Forall plain k.
Proof.
  induction t as [k v ch IH] using tree_ind2. intros p q W Pk Pp H. destruct (WF_inv _ W) as (Pc & _ & Wc). cbn [tch tkey] in *. rewrite Forall_forall in IH, Pc, Wc.
  assert (Ppk : Forall plain (p ++ [k])) by (apply Forall_app; auto). destruct H as [<-|H]; [exact Ppk|]. apply in_flat_map in H. destruct H as (c & Hc & H). apply (IH c Hc (p ++ [k])); auto.
Qed.
Lemma forest_nodup p l : (forall c, In c l -> WF c -> NoDup (map lows (below_keys p c))) -> Forall WF l -> NoDup (map (fun c : tree bytes => low (tkey c)) l) -> NoDup (map lows (forest p l)).
Proof.
  intros H. induction l as [|c l IH]; intros F N; [constructor|]. inversion N as [|? ? Nc N']; subst. cbn [forest flat_map]. rewrite map_app. apply NoDup_app_intro.
  - apply H; [left; reflexivity|exact (Forall_inv F)].
  - apply IH; [intros d Hd; apply H; right; exact Hd|exact (Forall_inv_tail F)|exact N'].
  - intros x H1 H2. apply in_map_iff in H1, H2. destruct H1 as (k1 & <- & H1), H2 as (k2 & E & H2). apply in_flat_map in H2. destruct H2 as (d & Hd & H2).
    apply below_shape in H1, H2. destruct H1 as (r1 & ->), H2 as (r2 & ->). unfold lows in E. rewrite !map_app in E. apply app_inv_head in E. cbn in E. injection E as E _. apply Nc. rewrite <- E. apply (in_map (fun c : tree bytes => low (tkey c))), Hd.
Qed.
Lemma below_nodup : forall t p, WF t -> NoDup (map lows (below_keys p t)).
Proof.
  induction t as [k v ch IH] using tree_ind2. intros p W. destruct (WF_inv _ W) as (Pc & N & Wc). cbn [tch] in *. rewrite Forall_forall in IH. cbn [below_keys map]. constructor.
  - intros H. apply in_map_iff in H. destruct H as (q & E & H). apply in_flat_map in H. destruct H as (c & _ & H). apply below_shape in H. destruct H as (r & ->).
    apply (f_equal (@length _)) in E. unfold lows in E. rewrite !map_length, !app_length in E. cbn in E. lia.
  - apply forest_nodup; [intros c Hc; apply IH, Hc|exact Wc|exact N].
Qed.
(** parents come first *)
Lemma below_order : forall t p a b q s, below_keys p t = a ++ (q ++ [s]) :: b -> length p < length q -> In q a.
Proof.
  induction t as [k v ch IH] using tree_ind2. intros p a b q s E L. cbn [below_keys] in E. rewrite Forall_forall in IH. destruct a as [|x a].
  - cbn in E. injection E as E _. apply (f_equal (@length _)) in E. rewrite !app_length in E. cbn in E. lia.
  - cbn in E. injection E as <- E. destruct (Nat.eq_dec (length q) (length (p ++ [k]))) as [El|El].
    + left. assert (H : In (q ++ [s]) (flat_map (below_keys (p ++ [k])) ch)) by (rewrite E; apply in_app_iff; right; left; reflexivity). apply in_flat_map in H. destruct H as (c & _ & H).
      apply below_shape in H. destruct H as (r & H). assert (Hr : length r = 0). { apply (f_equal (@length _)) in H. rewrite !app_length in H. cbn in H. rewrite app_length in El. cbn in El. lia. }
      destruct r; [|discriminate]. apply app_inj_tail in H. symmetry. apply H.
    + right. assert (L' : length (p ++ [k]) < length q) by (rewrite app_length in *; cbn in *; lia). clear El L.
      revert a E. induction ch as [|c ch IHc]; intros a E; [destruct a; discriminate|]. cbn [flat_map] in E.
      assert (X : (exists b1, below_keys (p ++ [k]) c = a ++ (q ++ [s]) :: b1) \/ exists a1, a = below_keys (p ++ [k]) c ++ a1 /\ flat_map (below_keys (p ++ [k])) ch = a1 ++ (q ++ [s]) :: b).
      { revert a E. generalize (below_keys (p ++ [k]) c) as l. induction l as [|y l IHl]; intros a E; cbn in E; [right; exists a; auto|].
        destruct a as [|z a]; cbn in E; injection E as -> E; [left; exists l; reflexivity|]. destruct (IHl a E) as [(b1 & ->)|(a1 & -> & E1)]; [left; exists b1; reflexivity|right; exists a1; auto]. }
      destruct X as [(b1 & X)|(a1 & -> & X)].
      * eapply IH; [left; reflexivity|exact X|exact L'].
      * apply in_app_iff. right. apply IHc; [intros x Hx; apply IH; right; exact Hx|exact X].
Qed.
(** a key is followed by everything below it *)
Lemma lows_under_head p k r k2 r2 : under (p ++ k :: r) (p ++ k2 :: r2) = true -> low k2 = low k.
Proof. intros H. apply under_lows in H. destruct H as (x & H). unfold lows in H. rewrite !map_app, <- app_assoc in H. apply app_inv_head in H. cbn in H. injection H as H _. exact H. Qed.
Lemma under_self_app a b : under a (a ++ b) = true.
Proof. apply under_lows. exists (lows b). unfold lows. apply map_app. Qed.
Lemma app_split_in {A} (x y a b : list A) q : x ++ y = a ++ q :: b -> (exists b1, x = a ++ q :: b1 /\ b = b1 ++ y) \/ exists a1, a = x ++ a1 /\ y = a1 ++ q :: b.
Proof.
  revert a. induction x as [|z x IH]; intros a E; cbn in E; [right; exists a; auto|]. destruct a as [|w a]; cbn in E; injection E as -> E; [left; exists x; auto|].
  destruct (IH a E) as [(b1 & -> & ->)|(a1 & -> & ->)]; [left; exists b1; auto|right; exists a1; auto].
Qed.
Definition follows (l : list key) : Prop := forall a q b, l = a ++ q :: b -> exists b1 b2, b = b1 ++ b2 /\ Forall (fun k => under q k = true) b1 /\ Forall (fun k => under q k = false) b2.
Lemma forest_follows p l : (forall c, In c l -> follows (below_keys p c)) -> NoDup (map (fun c : tree bytes => low (tkey c)) l) -> follows (forest p l).
Proof.
  intros H N a q b. revert a. induction l as [|c l IH]; intros a E; [destruct a; discriminate|]. cbn [forest flat_map] in E. inversion N as [|? ? Nc N']; subst.
  destruct (app_split_in _ _ _ _ _ E) as [(b1 & E1 & ->)|(a1 & -> & E1)].
  - destruct (H c (or_introl eq_refl) _ _ _ E1) as (b2 & b3 & -> & F2 & F3). exists b2, (b3 ++ flat_map (below_keys p) l). split; [rewrite app_assoc; reflexivity|]. split; [exact F2|].
    apply Forall_app. split; [exact F3|]. apply Forall_forall. intros k Hk. apply in_flat_map in Hk. destruct Hk as (d & Hd & Hk). apply below_shape in Hk. destruct Hk as (r & ->).
    assert (Hq : In q (below_keys p c)) by (rewrite E1; apply in_app_iff; right; left; reflexivity). apply below_shape in Hq. destruct Hq as (r2 & ->).
    destruct (under _ _) eqn:U; [|reflexivity]. apply lows_under_head in U. exfalso. apply Nc. rewrite <- U. apply (in_map (fun c : tree bytes => low (tkey c))), Hd.
  - apply (IH (fun d Hd => H d (or_intror Hd)) N' a1 E1).
Qed.
Lemma below_follows : forall t p, WF t -> follows (below_keys p t).
Proof.
  induction t as [k v ch IH] using tree_ind2. intros p W. destruct (WF_inv _ W) as (_ & N & Wc). cbn [tch] in *. rewrite Forall_forall in IH, Wc.
  intros [|x a] q b E; cbn [below_keys app] in E.
  - injection E as <- <-. exists (flat_map (below_keys (p ++ [k])) ch), []. split; [symmetry; apply app_nil_r|]. split; [|constructor]. apply Forall_forall. intros z Hz. apply in_flat_map in Hz. destruct Hz as (c & _ & Hz).
    apply below_shape in Hz. destruct Hz as (r & ->). apply under_self_app.
  - injection E as <- E. apply (forest_follows (p ++ [k]) ch (fun c Hc => IH c Hc _ (Wc c Hc)) N _ _ _ E).
Qed.
Lemma forest_order p l a b q s : forest p l = a ++ (q ++ [s]) :: b -> length p < length q -> In q a.
Proof.
  intros E L. revert a E. induction l as [|c l IH]; intros a E; [destruct a; discriminate|]. cbn [forest flat_map] in E. destruct (app_split_in _ _ _ _ _ E) as [(b1 & E1 & ->)|(a1 & -> & E1)].
  - eapply below_order; eassumption.
  - apply in_app_iff. right. apply IH, E1.
Qed.
Lemma find_app {V} (t : tree V) : forall a b, find t (a ++ b) = match find t a with Some n => find n b | None => None end.
Proof. intros a. revert t. induction a as [|s a IH]; intros t b; [reflexivity|]. cbn [app find]. destruct (findchild t s); [apply IH|reflexivity]. Qed.
Lemma find_named {V} (t : tree V) k : canonical k -> find t k = find t (named k).
Proof.
  intros [P|(k' & _ & P & ->)]; [destruct (plain_slashed _ P) as [_ ->]; reflexivity|]. destruct (trailing_slashed k' P) as [_ ->]. rewrite find_app. destruct (find t k'); reflexivity.
Qed.
Lemma lk_app {V} (n t : tree V) a : canonical a -> find t a = Some n -> forall r, r <> [] -> lk t (named a ++ r) = lk n r.
Proof. intros C F r N. pose proof (find_lk t a (or_introl C)) as H. rewrite F in H. destruct r as [|s r]; [congruence|]. apply H. Qed.

Lemma tnames_spec g n top : WFo (root g) -> canonical top -> (exists t, root g = Some t /\ find t top = Some n) -> forall ks, ks = forest [] (tch n) -> WF n ->
  forall fuel, length ks < fuel -> run (tnames g) top fuel (rewind (tnames g) top) = Ok ks.
Proof.
  intros W C (t & Et & F) ks -> Wn fuel L. apply Outs_run; [|exact L]. apply (all_outs _ _ n); [|exact Wn|].
  - intros p nd P N Fp. rewrite kcat_named by assumption. unfold tnames, titer. rewrite Et, find_app, <- (find_named t top C), F, Fp, map_map. reflexivity.
  - unfold tnames, titer. rewrite Et, F, map_map. reflexivity.
Qed.
Lemma forest_in p l k : In k (forest p l) -> exists c r, In c l /\ k = p ++ tkey c :: r /\ In k (below_keys p c).
Proof. intros H. apply in_flat_map in H. destruct H as (c & Hc & H). pose proof (below_shape _ _ _ H) as (r & ->). exists c, r. auto. Qed.
Lemma forest_iff n r : WF n -> Forall plain r -> r <> [] -> lk n r <> None <-> exists k, In k (forest [] (tch n)) /\ same k r = true.
Proof.
  intros W P N. destruct (WF_inv _ W) as (Pc & Nd & Wc). destruct r as [|s r]; [congruence|]. pose proof (Forall_inv P) as Ps. pose proof (Forall_inv_tail P) as Pr. cbn [lk]. rewrite Forall_forall in Wc. split.
  - destruct (child (tch n) s) as [c|] eqn:Ec; [|congruence]. intros H. apply child_in in Ec; auto; [|apply plain_nulf, Ps]. destruct Ec as (Hc & El). assert (Pk : plain (tkey c)) by (rewrite Forall_forall in Pc; apply Pc, Hc).
    apply (below_iff c [] r (Wc c Hc) Pk Pr) in H. destruct H as (r0 & Hi & E). exists (tkey c :: r0). split; [apply in_flat_map; exists c; auto|]. apply same_lows. cbn. rewrite El. f_equal. exact E.
  - intros (k & H & E). apply forest_in in H. destruct H as (c & r0 & Hc & -> & Hi). apply same_lows in E. cbn in E. injection E as El E. assert (Pk : plain (tkey c)) by (rewrite Forall_forall in Pc; apply Pc, Hc).
    assert (Ec : child (tch n) s = Some c) by (apply child_in; auto; apply plain_nulf, Ps). rewrite Ec. apply (below_iff c [] r (Wc c Hc) Pk Pr). exists r0. auto.
Qed.
