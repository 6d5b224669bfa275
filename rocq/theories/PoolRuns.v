(** The pool over its whole life. *)
From Verif Require Import Base PoolModel PoolProofs.
Local Open Scope list_scope.

Lemma inv_last e i t p r : last e i t p r -> Inv None p ->
  (forall q, In q (p_urls p) -> q_id q = i -> q_port q <> 0%nat /\ q_addr q <> None) ->
  Inv None r /\ keeps p r.
Proof.
  induction 1 as [p A|p q A1 A2 A3|p q s c A1 A2 A3 A4 A5 A6 A7|p q c A1 A2 A3 A4 A5 A6 A7|p r A L IH]; intros H U.
  - split; [exact H|apply keeps_refl].
  - split; [apply inv_crash; exact H|apply keeps_crash].
  - split; [exact H|apply keeps_refl].
  - destruct (U q A1 A2) as [U1 U2]. subst i. split; [apply inv_assign; auto|].
    apply keeps_assign. intros x X Y. rewrite (same_id H X A1 Y). exact A4.
  - destruct IH as [X Y]; [apply inv_newconn; auto|exact U|]. split; [exact X|].
    eapply keeps_trans; [apply keeps_newconn|exact Y].
Qed.

Lemma p1_inv p i a : Inv None p -> Inv None (tick (upd i (fun r => snd (resolve a r)) p)).
Proof. intros H. apply inv_tick. unfold upd. apply inv_mild; [apply mild_at, mild_resolve|exact H]. Qed.

Lemma url_ok_port q : url_ok q = true -> q_port q <> 0%nat.
Proof. unfold url_ok. intros H X. rewrite X in H. discriminate. Qed.

(** The request in the pool where it was resolved. *)
Lemma p1_req p i ip q : Inv None p -> In q (p_urls p) -> q_id q = i ->
  forall r, In r (p_urls (tick (upd i (fun r => snd (resolve (Got ip) r)) p))) -> q_id r = i ->
  r = with_dns false (Some (ip, q_port q)) q.
Proof.
  intros H A E r R F. cbn in R. apply in_map_iff in R. destruct R as (x & <- & X).
  destruct (Nat.eqb_spec (q_id x) i) as [G|G].
  - assert (x = q) by (apply (same_id H X A); congruence). subst x. reflexivity.
  - congruence.
Qed.

Lemma core_back p p' : map core (p_urls p') = map core (p_urls p) -> forall q', In q' (p_urls p') -> exists q, In q (p_urls p) /\ core q' = core q.
Proof. intros E q' A. apply (in_map core) in A. rewrite E in A. apply in_map_iff in A. destruct A as (q & X & A). eauto. Qed.

Lemma core_parts q q' : core q' = core q -> q_id q' = q_id q /\ q_proto q' = q_proto q /\ q_user q' = q_user q /\ q_host q' = q_host q /\
  q_port q' = q_port q /\ q_addr q' = q_addr q /\ q_resolving q' = q_resolving q /\ about q' = about q.
Proof. unfold core, about. intros H. injection H as -> -> -> -> -> -> ->. repeat split. Qed.

Lemma inv_moves e i p r : moves e i p r -> Inv None p -> Inv None r /\ keeps p r.
Proof.
  intros M H. destruct M as [A|q A1 A2 A3|q ip p1 t p2 p3 A1 A2 A3 A4 A5 A6 A7 A8 A9].
  - split; [exact H|apply keeps_refl].
  - split; [apply p1_inv; exact H|apply keeps_resolve].
  - assert (H1 : Inv None p1) by (subst p1; apply p1_inv; exact H).
    assert (K1 : keeps p p1) by (subst p1; apply keeps_resolve).
    assert (H2 : Inv None p2 /\ keeps p1 p2 /\ map core (p_urls p2) = map core (p_urls p1)).
    { destruct A8 as [[-> _]|(c & C1 & C2 & C3 & ->)]; [split; [exact H1|]; split; [apply keeps_refl|reflexivity]|].
      split; [apply inv_unconnect; auto|]. split; [apply keeps_unconnect; auto|apply unconnect_core]. }
    destruct H2 as (H2 & K2 & C2).
    destruct (inv_last e i t p2 p3 A9 H2) as [H3 K3].
    + intros r R F. destruct (core_back _ _ C2 r R) as (x & X & Y). destruct (core_parts _ _ Y) as (Y1 & _ & _ & _ & Y5 & Y6 & _).
      subst p1. rewrite Y1 in F. rewrite (p1_req p i ip q H A1 A2 x X F) in Y5, Y6. cbn in Y5, Y6. rewrite Y5, Y6.
      split; [apply url_ok_port; exact A4|discriminate].
    + split; [exact H3|]. eapply keeps_trans; [exact K1|]. eapply keeps_trans; eauto.
Qed.

Lemma inv_exec_one e i p : Inv None p -> Inv None (exec_one e i p) /\ keeps p (exec_one e i p).
Proof.
  intros H. destruct (p_crash p) eqn:C.
  - unfold exec_one. rewrite C. split; [exact H|apply keeps_refl].
  - apply inv_moves with (e := e) (i := i); [apply exec_moves; auto|exact H].
Qed.

Lemma inv_execute e p : Inv None p -> Inv None (execute e p).
Proof. intros H. unfold execute. apply fold_inv; [|exact H]. intros. apply inv_exec_one. assumption. Qed.

(** What the connections do. *)
Lemma find_c_some s p c : find_c s p = Some c -> In c (p_conns p) /\ c_id c = s.
Proof. intros H. apply find_some in H. rewrite Nat.eqb_eq in H. exact H. Qed.

Lemma done_drop s f i p : upd_conn s f (done_req i p) = done_req i (upd_conn s f p).
Proof.
  unfold done_req. change (find_req i (upd_conn s f p)) with (find_req i p).
  destruct (find_req i p) as [q|]; [|reflexivity]. destruct (q_out q); reflexivity.
Qed.

Lemma done_all_drop s f l p : upd_conn s f (done_all l p) = done_all l (upd_conn s f p).
Proof. induction l as [|i l IH]; [reflexivity|]. cbn. rewrite done_drop. f_equal. exact IH. Qed.

Lemma inv_deal d p : Inv None p -> Inv None (deal d p).
Proof.
  intros H. destruct d as [s i|s i|s l]; cbn; destruct (find_c s p) as [c|] eqn:E; auto;
    apply find_c_some in E; destruct E as [E1 E2].
  - destruct (c_ok c && existsb (Nat.eqb i) (c_held c)) eqn:T; [|exact H].
    apply andb_true_iff in T. destruct T as [T1 T2]. apply in_existsb in T2.
    destruct (iD None p H c i E1 T2) as (q & Q1 & Q2 & Q3 & Q4).
    assert (X : upd i (with_use true) p = upd i (fun q => if q_out q then with_use true q else q) p).
    { unfold upd. f_equal. apply map_ext_in. intros r R. destruct (Nat.eqb_spec (q_id r) i); [|reflexivity].
      assert (r = q) by (apply (same_id H R Q1); congruence). subst r. rewrite (Q4 T1). reflexivity. }
    rewrite X. unfold upd. apply inv_mild; [apply mild_at|exact H].
    intros r. destruct (q_out r) eqn:O; cbn; repeat split; auto.
  - destruct (c_ok c && existsb (Nat.eqb i) (c_held c)) eqn:T; [|exact H].
    apply andb_true_iff in T. destruct T as [T1 T2]. apply in_existsb in T2.
    rewrite done_drop. apply inv_done with (ex := Some i); [apply inv_drop; exact H| |auto].
    intros (d & D1 & D2 & D3). apply upd_conn_in in D1. destruct D1 as (x & X & ->).
    destruct (Nat.eqb_spec (c_id x) s) as [F|F].
    + cbn in D3. apply filter_In in D3. rewrite Nat.eqb_refl in D3. destruct D3. discriminate.
    + apply F. rewrite <- E2. f_equal. apply (held_one None p x c i); auto.
  - rewrite done_all_drop. apply inv_done_all; [apply inv_dead; exact H|].
    intros i X (d & D1 & D2 & D3). apply filter_In in X. destruct X as [_ X]. apply in_existsb in X.
    apply upd_conn_in in D1. destruct D1 as (x & Y & ->).
    destruct (Nat.eqb_spec (c_id x) s) as [F|F]; [discriminate|].
    apply F. rewrite <- E2. f_equal. apply (held_one None p x c i); auto.
Qed.

Lemma inv_empty : Inv None empty.
Proof.
  split; cbn; try apply NoDup_nil; try (intros; tauto).
  intros i. split; [intros []|intros [X _]; lia].
Qed.

Lemma inv_step e p a : Inv None p -> Inv None (step e p a).
Proof.
  intros H. unfold step. destruct (p_crash p); [exact H|]. destruct a.
  - apply inv_addurl. exact H.
  - apply inv_pre. exact H.
  - apply inv_post. exact H.
  - apply inv_execute. exact H.
  - apply inv_deal. exact H.
Qed.

Lemma inv_run e l : Inv None (run e l).
Proof. unfold run. apply fold_inv; [|apply inv_empty]. intros. apply inv_step. assumption. Qed.

(** Changes that take things away, or resolve names again. *)
Section Shrink.
Variable D : bytes -> found.

Record shrink (p p' : pool) : Prop := {
  s1 : forall q', In q' (p_urls p') -> exists q, In q (p_urls p) /\ about q' = about q /\
         (q_in q' = q_in q \/ q_in q' = None) /\
         (q_addr q' = q_addr q \/ exists ip, D (q_host q) = Got ip /\ q_addr q' = Some (ip, q_port q));
  s2 : forall c', In c' (p_conns p') -> exists c, In c (p_conns p) /\ c_id c' = c_id c /\ c_to c' = c_to c;
  s3 : p_next p' = p_next p;
  s4 : p_crash p' = p_crash p }.

Lemma shrink_refl p : shrink p p.
Proof. split; [| |reflexivity|reflexivity]; intros x A; exists x; auto 6. Qed.

Lemma about_parts q q' : about q' = about q -> q_id q' = q_id q /\ q_proto q' = q_proto q /\ q_user q' = q_user q /\ q_host q' = q_host q /\ q_port q' = q_port q.
Proof. unfold about. intros H. injection H as -> -> -> -> ->. repeat split. Qed.

Lemma shrink_trans p q r : shrink p q -> shrink q r -> shrink p r.
Proof.
  intros [A1 A2 A3 A4] [C1 C2 C3 C4]. split; [| |congruence|congruence].
  - intros x X. destruct (C1 x X) as (y & Y1 & Y2 & Y3 & Y4). destruct (A1 y Y1) as (z & Z1 & Z2 & Z3 & Z4).
    exists z. split; [exact Z1|]. split; [congruence|]. destruct (about_parts _ _ Z2) as (P1 & P2 & P3 & P4 & P5). split.
    + destruct Y3 as [Y3|Y3], Z3 as [Z3|Z3]; rewrite Y3; auto.
    + destruct Y4 as [Y4|(ip & Y4 & Y5)]; [rewrite Y4; exact Z4|]. right. exists ip. rewrite <- P4, <- P5. auto.
  - intros c X. destruct (C2 c X) as (d & D1 & D2 & D3). destruct (A2 d D1) as (f & F1 & F2 & F3). exists f.
    repeat split; congruence.
Qed.

Lemma shrink_map f g p p' : p_urls p' = map f (p_urls p) -> p_conns p' = map g (p_conns p) -> p_next p' = p_next p -> p_crash p' = p_crash p ->
  (forall q, In q (p_urls p) -> about (f q) = about q /\ (q_in (f q) = q_in q \/ q_in (f q) = None) /\
     (q_addr (f q) = q_addr q \/ exists ip, D (q_host q) = Got ip /\ q_addr (f q) = Some (ip, q_port q))) ->
  (forall c, c_id (g c) = c_id c /\ c_to (g c) = c_to c) -> shrink p p'.
Proof.
  intros U C N K F G. split; auto.
  - rewrite U. intros q A. apply in_map_iff in A. destruct A as (r & <- & A). exists r. split; [exact A|]. apply F. exact A.
  - rewrite C. intros c A. apply in_map_iff in A. destruct A as (d & <- & A). exists d. split; [exact A|]. apply G.
Qed.

Lemma shrink_req f p p' : p_urls p' = map f (p_urls p) -> p_conns p' = p_conns p -> p_next p' = p_next p -> p_crash p' = p_crash p ->
  (forall q, In q (p_urls p) -> about (f q) = about q /\ (q_in (f q) = q_in q \/ q_in (f q) = None) /\
     (q_addr (f q) = q_addr q \/ exists ip, D (q_host q) = Got ip /\ q_addr (f q) = Some (ip, q_port q))) -> shrink p p'.
Proof. intros. apply shrink_map with (f := f) (g := fun c => c); auto. rewrite map_id. auto. Qed.

Lemma shrink_done i p : shrink p (done_req i p).
Proof.
  unfold done_req. destruct (find_req i p) as [r|]; [|apply shrink_refl].
  destruct (q_out r); (eapply shrink_req; [reflexivity|reflexivity|reflexivity|reflexivity|]); intros q _; cbn beta; destruct (Nat.eqb (q_id q) i); cbn; repeat split; auto.
Qed.

Lemma shrink_done_all l p : shrink p (done_all l p).
Proof. induction l as [|i l IH]; [apply shrink_refl|]. cbn. eapply shrink_trans; [exact IH|apply shrink_done]. Qed.

Lemma shrink_unconnect e c p : shrink p (unconnect e c p).
Proof.
  rewrite unconnect_eq. apply shrink_trans with (q := cut (c_id c) p).
  - split; auto; cbn.
    + intros q A. apply in_map_iff in A. destruct A as (r & <- & A). exists r. split; [exact A|].
      destruct (q_in r) eqn:E; [destruct (Nat.eqb _ _)|]; cbn; rewrite ?E; repeat split; auto.
    + intros d A. apply filter_In in A. exists d. tauto.
  - eapply shrink_trans; [apply shrink_done_all|]. split; [| |reflexivity|reflexivity]; intros x A; exists x; auto 6.
Qed.

Lemma shrink_upd_conn s f p : (forall c, c_id (f c) = c_id c /\ c_to (f c) = c_to c) -> shrink p (upd_conn s f p).
Proof.
  intros F. apply shrink_map with (f := fun q => q) (g := fun c => if Nat.eqb (c_id c) s then f c else c); try reflexivity.
  - symmetry. apply map_id.
  - intros q _. auto.
  - intros c. destruct (Nat.eqb _ _); auto.
Qed.

Lemma shrink_rid i p : shrink p (rid i p).
Proof.
  split; auto.
  - cbn. intros q A. apply filter_In in A. exists q. split; [tauto|]. auto.
  - intros c A. exists c. auto.
Qed.

Lemma shrink_fold {A} (f : pool -> A -> pool) l : (forall p a, Inv None p -> shrink p (f p a) /\ Inv None (f p a)) ->
  forall p, Inv None p -> shrink p (fold_left f l p).
Proof.
  intros F. induction l as [|a l IH]; cbn; intros p H; [apply shrink_refl|]. destruct (F p a H) as [X Y].
  eapply shrink_trans; [exact X|]. apply IH. exact Y.
Qed.

Lemma shrink_deal d p : shrink p (deal d p).
Proof.
  destruct d as [s i|s i|s l]; cbn; destruct (find_c s p) as [c|]; try apply shrink_refl.
  - destruct (_ && _); [|apply shrink_refl]. eapply shrink_req; [reflexivity|reflexivity|reflexivity|reflexivity|].
    intros q _. cbn beta. destruct (Nat.eqb _ _); cbn; repeat split; auto.
  - destruct (_ && _); [|apply shrink_refl]. eapply shrink_trans; [apply shrink_done|]. apply shrink_upd_conn. auto.
  - eapply shrink_trans; [apply shrink_done_all|]. apply shrink_upd_conn. auto.
Qed.

(** With a resolver that does not change its mind. *)
Variable e : env.
Hypothesis stable : forall n h, dns e n h = D h.

Lemma shrink_resolve i q p : Inv None p -> In q (p_urls p) -> q_id q = i -> shrink p (tick (upd i (fun r => snd (resolve (D (q_host q)) r)) p)).
Proof.
  intros H A E. eapply shrink_req; [reflexivity|reflexivity|reflexivity|reflexivity|].
  intros r R. cbn beta. destruct (Nat.eqb_spec (q_id r) i) as [F|F]; [|auto].
  assert (r = q) by (apply (same_id H R A); congruence). subst r.
  destruct (D (q_host q)) as [| |ip] eqn:X; cbn; repeat split; auto. right. exists ip. auto.
Qed.

Lemma shrink_resolve_in q p : Inv None p -> In q (p_urls p) -> shrink p (snd (resolve_in e q p)).
Proof.
  intros H A. rewrite (resolve_in_eq None e q p H A). cbn [snd]. rewrite stable. apply shrink_resolve; auto.
Qed.

Lemma shrink_pre p : Inv None p -> shrink p (pre_select e p).
Proof.
  intros H. unfold pre_select. apply shrink_fold; [|exact H]. clear p H. intros p i H.
  split; [|apply inv_pre_one; exact H]. unfold pre_one. destruct (find_req i p) as [q|] eqn:E; [|apply shrink_refl].
  apply find_req_some in E. destruct (q_in q); [apply shrink_refl|]. apply shrink_resolve_in; tauto.
Qed.

Lemma shrink_post_one i p : Inv None p -> shrink p (post_one e i p).
Proof.
  intros H. unfold post_one. destruct (find_req i p) as [q|] eqn:E; [|apply shrink_refl].
  apply find_req_some in E. destruct E as [E1 E2]. destruct (_ || _).
  - cbn zeta. eapply shrink_trans; [|apply shrink_rid]. eapply shrink_trans; [|apply shrink_done].
    set (p1 := if url_ok q then p else done_req i p).
    apply shrink_trans with (q := p1); [unfold p1; destruct (url_ok q); [apply shrink_refl|apply shrink_done]|].
    destruct (find_conn (target_of q) p1) as [c|]; [|apply shrink_refl]. unfold delurl.
    eapply shrink_trans; [|apply shrink_upd_conn; auto]. destruct (existsb _ _); [apply shrink_done|apply shrink_refl].
  - destruct (q_in q); [apply shrink_refl|apply shrink_resolve_in; auto].
Qed.

Lemma shrink_post p : Inv None p -> shrink p (post_select e p).
Proof.
  intros H. unfold post_select. cbn zeta. destruct (inv_bury e p H) as [X Y].
  apply shrink_trans with (q := bury e p).
  - unfold bury. generalize (filter (fun c => negb (c_ok c)) (p_conns p)). intros l. clear.
    revert p. induction l as [|c l IH]; cbn [fold_left]; intros p; [apply shrink_refl|].
    eapply shrink_trans; [apply shrink_unconnect|apply IH].
  - assert (K : AllOk (bury e p)) by (intros c A; apply Y in A; tauto).
    generalize (ids (bury e p)). intros l. revert X K. generalize (bury e p) as r. clear - stable.
    induction l as [|i l IH]; cbn [fold_left]; intros r X K; [apply shrink_refl|].
    destruct (inv_post_one e i r X K) as [A C]. eapply shrink_trans; [apply shrink_post_one; exact X|].
    apply IH; [exact A|]. unfold AllOk. rewrite C. exact K.
Qed.

(** Every request is resolved, and its connection is the one to its server. *)
Definition Fit (p : pool) : Prop := forall q ip, In q (p_urls p) -> D (q_host q) = Got ip -> q_port q <> 0%nat ->
  q_addr q = Some (ip, q_port q) /\
  forall c, In c (p_conns p) -> q_in q = Some (c_id c) -> c_to c = ((ip, q_port q), q_user q).

Lemma fit_shrink p p' : shrink p p' -> Fit p -> Fit p'.
Proof.
  intros [A1 A2 _ _] F q ip X Y Z. destruct (A1 q X) as (r & R1 & R2 & R3 & R4).
  destruct (about_parts _ _ R2) as (P1 & P2 & P3 & P4 & P5). rewrite P4 in Y. rewrite P5 in Z.
  destruct (F r ip R1 Y Z) as [F1 F2]. rewrite P5, P3. split.
  - destruct R4 as [R4|(ip' & R4 & R5)]; [congruence|]. rewrite R5. congruence.
  - intros c C K. destruct (A2 c C) as (d & D1 & D2 & D3). rewrite D3. apply F2; [exact D1|].
    destruct R3; congruence.
Qed.

Lemma fit_last i t p r : last e i t p r -> Inv None p -> Fit p ->
  (forall q ip, In q (p_urls p) -> q_id q = i -> D (q_host q) = Got ip -> t = ((ip, q_port q), q_user q)) ->
  (forall q, In q (p_urls p) -> q_id q = i -> q_port q <> 0%nat /\ q_addr q <> None) ->
  Fit r /\ (p_crash r = true \/ forall q ip, In q (p_urls r) -> q_id q = i -> q_out q = true -> D (q_host q) = Got ip -> q_port q <> 0%nat ->
             exists c, In c (p_conns r) /\ c_ok c = true /\ q_in q = Some (c_id c)).
Proof.
  induction 1 as [p A|p q A1 A2 A3|p q s c A1 A2 A3 A4 A5 A6 A7|p q c A1 A2 A3 A4 A5 A6 A7|p r A L IH]; intros H F T U.
  - split; [exact F|]. right. intros q ip X Y Z. rewrite (A q X Y) in Z. discriminate.
  - split; [exact F|]. left. reflexivity.
  - split; [exact F|]. right. intros x ip X Y Z W V. assert (x = q) by (apply (same_id H X A1); congruence). subst x.
    destruct (iE None p H q s A1 A4) as (d & D1 & D2 & _). exists c. split; [exact A5|]. split; [exact A7|].
    destruct (F q ip A1 W V) as [_ F2]. rewrite <- D2 in A4. pose proof (F2 d D1 A4) as E.
    rewrite <- (T q ip A1 A2 W), <- A6 in E. rewrite <- (same_to H D1 A5 E). exact A4.
  - split.
    + intros x ip X Y Z. cbn in X. apply in_map_iff in X. destruct X as (y & <- & X).
      destruct (Nat.eqb_spec (q_id y) i) as [E|E].
      * cbn in Y, Z |- *. destruct (F y ip X Y Z) as [F1 F2]. split; [exact F1|]. intros d Q1 Q2.
        apply in_map_iff in Q1. destruct Q1 as (d' & <- & Q1). injection Q2 as Q2.
        assert (D0 : c_id d' = c_id c) by (destruct (Nat.eqb (c_id d') (c_id c)); auto).
        assert (d' = c) by exact (same_cid H Q1 A5 D0). subst d'. rewrite Nat.eqb_refl. cbn. rewrite A6. apply T; auto.
      * destruct (F y ip X Y Z) as [F1 F2]. split; [exact F1|]. intros d Q1 Q2. cbn in Q1.
        apply in_map_iff in Q1. destruct Q1 as (d' & <- & Q1). destruct (Nat.eqb (c_id d') (c_id c)); exact (F2 d' Q1 Q2).
    + right. intros x ip X Y Z W V. cbn in X. apply in_map_iff in X. destruct X as (y & <- & X).
      destruct (Nat.eqb_spec (q_id y) i) as [E|E]; [|contradiction]. exists (add_held i c). split; [|auto].
      cbn. apply in_map_iff. exists c. rewrite Nat.eqb_refl. auto.
  - apply IH; auto.
    + apply inv_newconn; auto.
    + intros q ip X Y Z. destruct (F q ip X Y Z) as [F1 F2]. split; [exact F1|]. intros c C K. cbn in C.
      apply in_app_iff in C. destruct C as [C|[<-|[]]]; [auto|]. cbn in K.
      destruct (iE None p H q _ X K) as (d & D1 & D2 & _). pose proof (iB' None p H d D1). lia.
Qed.

Definition served (i : nat) (p : pool) : Prop :=
  p_crash p = true \/ forall q ip, In q (p_urls p) -> q_id q = i -> q_out q = true -> D (q_host q) = Got ip -> q_port q <> 0%nat ->
    exists c, In c (p_conns p) /\ c_ok c = true /\ q_in q = Some (c_id c).

Lemma fit_moves i p r : moves e i p r -> Inv None p -> Fit p -> Fit r /\ served i r.
Proof.
  intros M H F. destruct M as [A|q A1 A2 A3|q ip p1 t p2 p3 A1 A2 A3 A4 A5 A6 A7 A8 A9].
  - split; [exact F|]. right. intros q ip X Y Z W V. destruct (F q ip X W V) as [F1 _].
    destruct (A q X Y) as [C|C]; [congruence|]. unfold url_ok in C. rewrite F1, orb_true_r, andb_true_r in C.
    apply negb_false_iff, Nat.eqb_eq in C. contradiction.
  - rewrite stable in *. split; [apply fit_shrink with (p := p); [apply shrink_resolve; auto|exact F]|].
    right. intros r ip X Y Z W V. exfalso. apply (A3 ip). cbn in X. apply in_map_iff in X. destruct X as (y & <- & X).
    destruct (Nat.eqb_spec (q_id y) i) as [E|E]; [|congruence].
    assert (y = q) by (apply (same_id H X A1); congruence). subst y.
    destruct (D (q_host q)) eqn:DD; cbn in W; congruence.
  - rewrite stable in A5.
    assert (H1 : Inv None p1) by (subst p1; apply p1_inv; exact H).
    assert (F1 : Fit p1).
    { subst p1. apply fit_shrink with (p := p); [|exact F]. rewrite <- A5. apply shrink_resolve; auto. }
    assert (X2 : Inv None p2 /\ Fit p2 /\ map core (p_urls p2) = map core (p_urls p1)).
    { destruct A8 as [[-> _]|(c & C1 & C2 & C3 & ->)]; [auto|]. split; [apply inv_unconnect; auto|].
      split; [apply fit_shrink with (p := p1); [apply shrink_unconnect|exact F1]|apply unconnect_core]. }
    destruct X2 as (H2 & F2 & C2).
    assert (Q : forall r, In r (p_urls p2) -> q_id r = i -> core r = core (with_dns false (Some (ip, q_port q)) q)).
    { intros r R G. destruct (core_back _ _ C2 r R) as (x & X & Y). rewrite Y.
      destruct (core_parts _ _ Y) as (Y1 & _). subst p1. rewrite Y1 in G.
      rewrite (p1_req p i ip q H A1 A2 x X G). reflexivity. }
    apply (fit_last i t p2 p3 A9 H2 F2).
    + intros r ip' R G W. destruct (core_parts _ _ (Q r R G)) as (Y1 & Y2 & Y3 & Y4 & Y5 & Y6 & _). cbn in *.
      rewrite Y3, Y5. rewrite Y4 in W. congruence.
    + intros r R G. destruct (core_parts _ _ (Q r R G)) as (Y1 & Y2 & Y3 & Y4 & Y5 & Y6 & _). cbn in *.
      rewrite Y5, Y6. split; [apply url_ok_port; exact A4|discriminate].
Qed.

Lemma exec_crash i p : p_crash p = true -> exec_one e i p = p.
Proof. intros H. unfold exec_one. rewrite H. reflexivity. Qed.

Lemma served_kept i p p' : Inv None p' -> keeps p p' -> p_crash p = false -> served i p -> served i p'.
Proof.
  intros H [K1 K2 K3] C [S|S]; [congruence|]. right. intros q ip X Y Z W V.
  destruct (K3 q X) as (r & R1 & R2 & R3). destruct (about_parts _ _ R2) as (P1 & P2 & P3 & P4 & P5).
  destruct (S r ip R1) as (c & C1 & C2 & C3); try congruence; [auto|].
  destruct (K1 c C1 C2) as (d & D1 & D2 & D3 & D4). exists d. split; [exact D1|]. split; [exact D4|].
  destruct (K2 r c R1 C1 C2 C3) as (x & X1 & X2 & X3). rewrite D2, <- X3. f_equal.
  apply (same_id H X X1). destruct (about_parts _ _ X2). congruence.
Qed.

Lemma fit_execute p : Inv None p -> Fit p -> Fit (execute e p) /\ (forall i, In i (ids p) -> served i (execute e p)).
Proof.
  unfold execute. generalize (ids p) as l. intros l.
  enough (G : forall l p, Inv None p -> Fit p -> Fit (fold_left (fun p i => exec_one e i p) l p) /\
    (forall i, In i l \/ served i p -> served i (fold_left (fun p i => exec_one e i p) l p))).
  { intros H F. destruct (G l p H F) as [X Y]. auto. }
  clear p l. induction l as [|j l IH]; cbn [fold_left]; intros p H F; [split; [exact F|intros i [[]|X]; exact X]|].
  destruct (p_crash p) eqn:C.
  - rewrite (exec_crash j p C). destruct (IH p H F) as [X Y]. split; [exact X|]. intros i Z. apply Y.
    destruct Z as [[Z|Z]|Z]; auto; right; left; exact C.
  - destruct (inv_exec_one e j p H) as [H1 K1].
    destruct (fit_moves j p _ (exec_moves e j p H C) H F) as [F1 S1].
    destruct (IH _ H1 F1) as [X Y]. split; [exact X|]. intros i Z. apply Y.
    destruct Z as [[<-|Z]|Z]; [right; exact S1|left; exact Z|right].
    apply served_kept with (p := p); auto.
Qed.

Lemma fit_addurl pr u h n p : Fit p -> Inv None p -> Fit (addurl e pr u h n p).
Proof.
  intros F H q ip X Y Z. cbn in X. apply in_app_iff in X. destruct X as [X|[<-|[]]]; [apply (F q ip X Y Z)|].
  destruct (Nat.eqb_spec n 0) as [E|E]; [cbn in Z; congruence|]. rewrite stable in *.
  destruct (D h) as [| |ip'] eqn:X; cbn in *; rewrite X in Y; try discriminate. injection Y as ->. split; [reflexivity|].
  intros; discriminate.
Qed.

Lemma fit_step p a : Inv None p -> Fit p -> Fit (step e p a).
Proof.
  intros H F. unfold step. destruct (p_crash p); [exact F|]. destruct a.
  - apply fit_addurl; auto.
  - apply fit_shrink with (p := p); [apply shrink_pre; exact H|exact F].
  - apply fit_shrink with (p := p); [apply shrink_post; exact H|exact F].
  - apply fit_execute; auto.
  - apply fit_shrink with (p := p); [apply shrink_deal|exact F].
Qed.

Lemma fit_run l : Fit (run e l).
Proof.
  unfold run. assert (G : Inv None (fold_left (step e) l empty) /\ Fit (fold_left (step e) l empty)).
  { apply (fold_inv (fun p => Inv None p /\ Fit p)); [|split; [apply inv_empty|intros q ip []]].
    intros p a [H F]. split; [apply inv_step; exact H|apply fit_step; auto]. }
  tauto.
Qed.
End Shrink.
