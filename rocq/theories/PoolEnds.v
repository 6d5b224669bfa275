(** Which requests leave the pool, and what is left at the end. *)
From Verif Require Import Base PoolModel PoolProofs PoolRuns.
Local Open Scope list_scope.

(** What a change cannot touch. *)
Record sub (p p' : pool) : Prop := {
  u1 : forall q', In q' (p_urls p') -> exists q, In q (p_urls p) /\ about q' = about q;
  u2 : p_next p' = p_next p;
  u3 : p_crash p' = p_crash p }.

Lemma sub_refl p : sub p p.
Proof. split; auto. intros q A. exists q. auto. Qed.

Lemma sub_trans p q r : sub p q -> sub q r -> sub p r.
Proof.
  intros [A1 A2 A3] [C1 C2 C3]. split; [|congruence|congruence].
  intros x X. destruct (C1 x X) as (y & Y1 & Y2). destruct (A1 y Y1) as (z & Z1 & Z2). exists z. split; [exact Z1|congruence].
Qed.

Lemma sub_shrink D p p' : shrink D p p' -> sub p p'.
Proof. intros [A1 A2 A3 A4]. split; auto. intros q A. destruct (A1 q A) as (r & R1 & R2 & _). eauto. Qed.

Definition none : bytes -> found := fun _ => Failed.

Lemma sub_upd i f p : (forall q, about (f q) = about q) -> sub p (tick (upd i f p)).
Proof.
  intros F. split; auto. cbn. intros q A. apply in_map_iff in A. destruct A as (r & <- & A). exists r. split; [exact A|].
  destruct (Nat.eqb _ _); auto.
Qed.

Lemma sub_resolve_in e q p : Inv None p -> In q (p_urls p) -> sub p (snd (resolve_in e q p)).
Proof.
  intros H A. rewrite (resolve_in_eq None e q p H A). cbn [snd]. apply sub_upd. intros r.
  destruct (dns e (p_tick p) (q_host q)); reflexivity.
Qed.

Lemma sub_fold {A} (P : pool -> Prop) (f : pool -> A -> pool) l : (forall p a, P p -> sub p (f p a) /\ P (f p a)) ->
  forall p, P p -> sub p (fold_left f l p).
Proof.
  intros F. induction l as [|a l IH]; cbn; intros p H; [apply sub_refl|]. destruct (F p a H) as [X Y].
  eapply sub_trans; [exact X|]. apply IH. exact Y.
Qed.

Lemma sub_pre e p : Inv None p -> sub p (pre_select e p).
Proof.
  intros H. unfold pre_select. apply (sub_fold (Inv None)); [|exact H]. clear p H. intros p i H.
  split; [|apply inv_pre_one; exact H]. unfold pre_one. destruct (find_req i p) as [q|] eqn:E; [|apply sub_refl].
  apply find_req_some in E. destruct (q_in q); [apply sub_refl|]. apply sub_resolve_in; tauto.
Qed.

Lemma sub_unconnect e c p : sub p (unconnect e c p).
Proof. apply (sub_shrink none). apply shrink_unconnect. Qed.

Lemma sub_done i p : sub p (done_req i p).
Proof. apply (sub_shrink none). apply shrink_done. Qed.

Lemma sub_done_all l p : sub p (done_all l p).
Proof. apply (sub_shrink none). apply shrink_done_all. Qed.

Lemma sub_unconnects e l : forall p, sub p (fold_left (fun p c => unconnect e c p) l p).
Proof.
  induction l as [|c l IH]; cbn [fold_left]; intros p; [apply sub_refl|]. eapply sub_trans; [apply sub_unconnect|apply IH].
Qed.

Lemma sub_post_one e i p : Inv None p -> sub p (post_one e i p).
Proof.
  intros H. unfold post_one. destruct (find_req i p) as [q|] eqn:E; [|apply sub_refl].
  apply find_req_some in E. destruct E as [E1 E2]. destruct (_ || _).
  - cbn zeta. eapply sub_trans; [|apply (sub_shrink none), shrink_rid]. eapply sub_trans; [|apply sub_done].
    set (p1 := if url_ok q then p else done_req i p).
    apply sub_trans with (q := p1); [unfold p1; destruct (url_ok q); [apply sub_refl|apply sub_done]|].
    destruct (find_conn (target_of q) p1) as [c|]; [|apply sub_refl]. unfold delurl.
    eapply sub_trans; [|apply (sub_shrink none), shrink_upd_conn; auto]. destruct (existsb _ _); [apply sub_done|apply sub_refl].
  - destruct (q_in q); [apply sub_refl|apply sub_resolve_in; auto].
Qed.

Lemma sub_post e p : Inv None p -> sub p (post_select e p).
Proof.
  intros H. unfold post_select. cbn zeta. destruct (inv_bury e p H) as [X Y].
  apply sub_trans with (q := bury e p); [apply sub_unconnects|].
  assert (K : AllOk (bury e p)) by (intros c A; apply Y in A; tauto).
  apply (sub_fold (fun p => Inv None p /\ AllOk p)); [|auto].
  intros r i [R K']. destruct (inv_post_one e i r R K') as [A C]. split; [apply sub_post_one; exact R|].
  split; [exact A|]. unfold AllOk. rewrite C. exact K'.
Qed.

Lemma sub_deal d p : sub p (deal d p).
Proof. apply (sub_shrink none), shrink_deal. Qed.

(** execute: the only way to crash. *)
Definition plain (p : pool) : Prop := forall q, In q (p_urls p) -> q_proto q = Other -> q_port q = 0%nat.

Lemma plain_sub p p' : (forall q', In q' (p_urls p') -> exists q, In q (p_urls p) /\ about q' = about q) -> plain p -> plain p'.
Proof.
  intros U N q A E. destruct (U q A) as (r & R1 & R2). destruct (about_parts _ _ R2) as (P1 & P2 & P3 & P4 & P5).
  rewrite P5. apply N; congruence.
Qed.

Lemma last_next e i t p r : last e i t p r -> p_next r = p_next p /\
  ((forall q, In q (p_urls p) -> q_id q = i -> q_proto q <> Other) -> p_crash r = p_crash p) /\ ids r = ids p.
Proof.
  induction 1 as [p A|p q A1 A2 A3|p q s c A1 A2 A3 A4 A5 A6 A7|p q c A1 A2 A3 A4 A5 A6 A7|p r A L IH]; auto.
  - split; [reflexivity|]. split; [|reflexivity]. intros X. destruct (X q A1 A2 A3).
  - split; [reflexivity|]. split; [reflexivity|]. unfold ids. cbn. rewrite map_map. apply map_ext. intros x.
    destruct (Nat.eqb _ _); reflexivity.
Qed.

Lemma core_ids p p' : map core (p_urls p') = map core (p_urls p) -> ids p' = ids p.
Proof.
  intros H. unfold ids. change q_id with (fun q => fst (fst (fst (fst (fst (fst (core q))))))).
  rewrite <- !(map_map core (fun x => fst (fst (fst (fst (fst (fst x))))))), H. reflexivity.
Qed.

Lemma upd_ids i f p : (forall q, q_id (f q) = q_id q) -> ids (upd i f p) = ids p.
Proof. intros F. unfold ids. cbn. rewrite map_map. apply map_ext. intros q. destruct (Nat.eqb _ _); auto. Qed.

Lemma resolve_id a q : q_id (snd (resolve a q)) = q_id q.
Proof. destruct a; reflexivity. Qed.

Lemma moves_next e i p r : Inv None p -> moves e i p r -> p_next r = p_next p /\ (plain p -> p_crash r = p_crash p) /\ ids r = ids p.
Proof.
  intros H M. destruct M as [A|q A1 A2 A3|q ip p1 t p2 p3 A1 A2 A3 A4 A5 A6 A7 A8 A9].
  - auto.
  - split; [reflexivity|]. split; [reflexivity|]. apply upd_ids. intros x. apply resolve_id.
  - destruct (last_next _ _ _ _ _ A9) as (N1 & N2 & N3).
    assert (S1 : sub p p1) by (subst p1; apply sub_upd; intros; reflexivity).
    assert (I1 : ids p1 = ids p) by (subst p1; apply upd_ids; intros; reflexivity).
    assert (S2 : sub p1 p2 /\ ids p2 = ids p1).
    { destruct A8 as [[-> _]|(c & C1 & C2 & C3 & ->)]; [split; [apply sub_refl|reflexivity]|].
      split; [apply sub_unconnect|apply core_ids, unconnect_core]. }
    destruct S2 as [S2 I2]. pose proof (sub_trans _ _ _ S1 S2) as S3. destruct S3 as [T1 T2 T3].
    split; [congruence|]. split; [|congruence]. intros N. rewrite N2; [exact T3|].
    intros x X Y Z. destruct (T1 x X) as (y & Y1 & Y2). destruct (about_parts _ _ Y2) as (P1 & P2 & P3 & P4 & P5).
    assert (y = q) by (apply (same_id H Y1 A1); congruence). subst y.
    apply (url_ok_port q A4). apply N; congruence.
Qed.

Lemma exec_next e p : Inv None p -> p_next (execute e p) = p_next p /\ ids (execute e p) = ids p /\
  (plain p -> p_crash (execute e p) = p_crash p /\ plain (execute e p)).
Proof.
  unfold execute. generalize (ids p) at 1 2 4 5 as l. intros l. revert p.
  induction l as [|i l IH]; cbn [fold_left]; intros p H; [auto|].
  destruct (inv_exec_one e i p H) as [H1 K1].
  assert (X : p_next (exec_one e i p) = p_next p /\ (plain p -> p_crash (exec_one e i p) = p_crash p) /\ ids (exec_one e i p) = ids p).
  { destruct (p_crash p) eqn:C; [rewrite (exec_crash e i p C); auto|]. 
    destruct (moves_next e i p _ H (exec_moves e i p H C)) as (X1 & X2 & X3). rewrite C in X2. auto. }
  destruct X as (X1 & X2 & X3). destruct (IH _ H1) as (Y1 & Y2 & Y3).
  split; [congruence|]. split; [congruence|]. intros N.
  assert (N' : plain (exec_one e i p)).
  { apply plain_sub with (p := p); [|exact N]. intros q A. destruct (k3 _ _ K1 q A) as (r & R1 & R2 & _). eauto. }
  destruct (Y3 N') as [Z1 Z2]. split; [|exact Z2]. rewrite Z1. auto.
Qed.

(** addurl calls so far. *)
Fixpoint adds (l : list act) : nat :=
  match l with Add _ _ _ _ :: l => S (adds l) | _ :: l => adds l | [] => 0 end.

Lemma next_step e p a : Inv None p -> p_crash p = false -> p_next (step e p a) = (p_next p + adds [a])%nat.
Proof.
  intros H C. unfold step. rewrite C. destruct a as [pr u h n| | | |d]; cbn [adds].
  - cbn. lia.
  - rewrite (u2 _ _ (sub_pre e p H)). lia.
  - rewrite (u2 _ _ (sub_post e p H)). lia.
  - rewrite (proj1 (exec_next e p H)). lia.
  - rewrite (u2 _ _ (sub_deal d p)). lia.
Qed.

Lemma crash_stays e p l : p_crash p = true -> fold_left (step e) l p = p.
Proof. intros C. induction l as [|a l IH]; [reflexivity|]. cbn. unfold step at 2. rewrite C. exact IH. Qed.

Lemma next_run e l : forall p, Inv None p -> p_crash (fold_left (step e) l p) = false ->
  p_next (fold_left (step e) l p) = (p_next p + adds l)%nat.
Proof.
  induction l as [|a l IH]; cbn [fold_left]; intros p H C; [cbn; lia|].
  destruct (p_crash p) eqn:P.
  - unfold step in C at 2. rewrite P in C. rewrite (crash_stays e p l P) in C. congruence.
  - rewrite (IH _ (inv_step e p a H) C), (next_step e p a H P). destruct a; cbn; lia.
Qed.

Lemma plain_step e p a : Inv None p -> plain p -> p_crash p = false ->
  match a with Add Other _ _ n => n = 0%nat | _ => True end -> plain (step e p a) /\ p_crash (step e p a) = false.
Proof.
  intros H N C A. unfold step. rewrite C. destruct a as [pr u h n| | | |d].
  - split; [|exact C]. intros q Q E. cbn in Q. apply in_app_iff in Q. destruct Q as [Q|[<-|[]]]; [apply N; auto|].
    assert (F : q_proto (if Nat.eqb n 0 then Req (p_next p) pr u h n true None None true false
                else snd (resolve (dns e (p_tick p) h) (Req (p_next p) pr u h n true None None true false))) = pr /\
                q_port (if Nat.eqb n 0 then Req (p_next p) pr u h n true None None true false
                else snd (resolve (dns e (p_tick p) h) (Req (p_next p) pr u h n true None None true false))) = n).
    { destruct (Nat.eqb n 0); [auto|]. destruct (dns e (p_tick p) h); auto. }
    destruct F as [F1 F2]. rewrite F1 in E. rewrite F2. subst pr. exact A.
  - destruct (sub_pre e p H) as [S1 S2 S3]. split; [apply plain_sub with (p := p); auto|congruence].
  - destruct (sub_post e p H) as [S1 S2 S3]. split; [apply plain_sub with (p := p); auto|congruence].
  - destruct (exec_next e p H) as (_ & _ & X). destruct (X N) as [X1 X2]. split; [exact X2|congruence].
  - destruct (sub_deal d p) as [S1 S2 S3]. split; [apply plain_sub with (p := p); auto|congruence].
Qed.

Lemma plain_run e l : Forall (fun a => match a with Add Other _ _ n => n = 0%nat | _ => True end) l ->
  forall p, Inv None p -> plain p -> p_crash p = false -> p_crash (fold_left (step e) l p) = false.
Proof.
  induction 1 as [|a l A F IH]; cbn [fold_left]; intros p H N C; [exact C|].
  destruct (plain_step e p a H N C A). apply IH; auto. apply inv_step. exact H.
Qed.

(** The end. *)
Lemma done_dead l : forall p, Inv None p -> (forall i, ~ held_ok p i) -> forall i, live (done_all l p) i -> live p i /\ ~ In i l.
Proof.
  induction l as [|j l IH]; cbn [done_all fold_right]; intros p H N i L; [tauto|]. cbn in *.
  fold (done_all l p) in L.
  assert (HD : Inv None (done_all l p)) by (apply inv_done_all; auto).
  assert (NH : ~ held_ok (done_all l p) j).
  { intros (c & X). rewrite done_all_conns in X. apply (N j). exists c. exact X. }
  destruct (Nat.eq_dec j i) as [->|Ne].
  - destruct (done_live None i (done_all l p) HD NH (or_introl eq_refl) L).
  - assert (L' : live (done_all l p) i).
    { destruct L as (q & Q1 & Q2 & Q3). destruct (k3 _ _ (keeps_done j (done_all l p)) q Q1) as (r & R1 & R2 & R3).
      exists r. split; [exact R1|]. destruct (about_parts _ _ R2) as (P1 & _). split; [congruence|auto]. }
    destruct (IH p H N i L'). split; [assumption|]. intros [?|?]; contradiction.
Qed.

Lemma destroyed e p : Inv None p -> NoDup (p_eofs (destroy e p)) /\ (forall i, In i (p_eofs (destroy e p)) <-> (i < p_next p)%nat).
Proof.
  intros H. unfold destroy. cbn zeta.
  destruct (fold_unconnect e (p_conns p) p H (iB None p H)) as [X Y]; [auto|]. cbn zeta in X, Y.
  set (p1 := fold_left (fun p c => unconnect e c p) (p_conns p) p) in *.
  assert (N1 : p_next p1 = p_next p) by (apply (u2 _ _ (sub_unconnects e (p_conns p) p))).
  assert (E : p_conns p1 = []).
  { rewrite Y. destruct (filter _ (p_conns p)) as [|c l] eqn:F; [reflexivity|].
    assert (A : In c (c :: l)) by (left; reflexivity). rewrite <- F in A. apply filter_In in A. destruct A as [A T].
    assert (T' : existsb (Nat.eqb (c_id c)) (map c_id (p_conns p)) = true) by (apply in_existsb, in_map; exact A).
    rewrite T' in T. discriminate. }
  assert (NH : forall i, ~ held_ok p1 i) by (intros i (c & A & _); rewrite E in A; destruct A).
  assert (H2 : Inv None (done_all (ids p1) p1)) by (apply inv_done_all; auto).
  cbn [set_urls p_eofs]. split; [apply (iG _ _ H2)|]. intros i. rewrite (iG' _ _ H2 i).
  rewrite (u2 _ _ (sub_done_all (ids p1) p1)), N1. split; [tauto|]. intros L. split; [exact L|].
  intros V. destruct (done_dead _ _ X NH i V) as [(q & Q1 & Q2 & Q3) V2]. apply V2. unfold ids. rewrite <- Q2. apply in_map. exact Q1.
Qed.

(** post_select, one request at a time. *)
Definition gone (q : req) : bool := (negb (q_out q) && negb (q_inuse q)) || negb (url_ok q).

Lemma done_other i p q : q_id q <> i -> In q (p_urls p) -> In q (p_urls (done_req i p)).
Proof.
  intros N A. unfold done_req. destruct (find_req i p) as [r|]; [|exact A].
  assert (X : In q (map (fun q => if Nat.eqb (q_id q) i then finished q else q) (p_urls p))).
  { apply in_map_iff. exists q. split; [|exact A]. apply Nat.eqb_neq in N. rewrite N. reflexivity. }
  destruct (q_out r); exact X.
Qed.

Lemma post_one_other e i p q : Inv None p -> q_id q <> i -> In q (p_urls p) -> In q (p_urls (post_one e i p)).
Proof.
  intros H N A. unfold post_one. destruct (find_req i p) as [r|] eqn:E; [|exact A].
  apply find_req_some in E. destruct E as [E1 E2]. destruct (_ || _).
  - cbn zeta. cbn [set_urls p_urls]. apply filter_In. split; [|apply negb_true_iff, Nat.eqb_neq; exact N].
    apply done_other; [exact N|].
    set (p1 := if url_ok r then p else done_req i p).
    assert (A1 : In q (p_urls p1)) by (unfold p1; destruct (url_ok r); [exact A|apply done_other; auto]).
    destruct (find_conn (target_of r) p1) as [c|]; [|exact A1]. unfold delurl. cbn.
    destruct (existsb _ _); [apply done_other; auto|exact A1].
  - destruct (q_in r); [exact A|]. rewrite (resolve_in_eq None e r p H E1). cbn. apply in_map_iff. exists q.
    split; [|exact A]. rewrite E2. apply Nat.eqb_neq in N. rewrite N. reflexivity.
Qed.

Lemma post_one_self e p q : Inv None p -> In q (p_urls p) ->
  if gone q then ~ In (q_id q) (ids (post_one e (q_id q) p))
  else exists q', In q' (p_urls (post_one e (q_id q) p)) /\ about q' = about q /\ q_out q' = q_out q /\ q_in q' = q_in q.
Proof.
  intros H A. unfold post_one. rewrite (find_req_in None p q H A). fold (gone q). destruct (gone q).
  - cbn zeta. unfold ids. cbn [set_urls p_urls]. intros X. apply in_map_iff in X. destruct X as (r & R1 & R2).
    apply filter_In in R2. destruct R2 as [_ R2]. rewrite R1, Nat.eqb_refl in R2. discriminate.
  - destruct (q_in q) eqn:I; [exists q; auto|]. rewrite (resolve_in_eq None e q p H A). cbn.
    exists (snd (resolve (dns e (p_tick p) (q_host q)) q)). split.
    + apply in_map_iff. exists q. rewrite Nat.eqb_refl. auto.
    + destruct (dns e (p_tick p) (q_host q)); auto.
Qed.

Lemma sub_ids p p' i : sub p p' -> In i (ids p') -> In i (ids p).
Proof.
  intros S A. apply in_map_iff in A. destruct A as (q & Q & A). destruct (u1 _ _ S q A) as (r & R1 & R2).
  destruct (about_parts _ _ R2). unfold ids. rewrite <- Q, H. apply in_map. exact R1.
Qed.

Lemma posts e l : forall p q, Inv None p -> AllOk p -> NoDup l -> In q (p_urls p) ->
  let p' := fold_left (fun p i => post_one e i p) l p in
  if gone q then In (q_id q) l -> ~ In (q_id q) (ids p')
  else exists q', In q' (p_urls p') /\ about q' = about q /\ q_out q' = q_out q /\ q_in q' = q_in q.
Proof.
  induction l as [|i l IH]; cbn [fold_left]; intros p q H K N A; cbn zeta.
  - destruct (gone q); [intros []|]. exists q. auto.
  - inversion N as [|? ? N1 N2]; subst. destruct (inv_post_one e i p H K) as [H1 C1].
    assert (K1 : AllOk (post_one e i p)) by (unfold AllOk; rewrite C1; exact K).
    destruct (Nat.eq_dec (q_id q) i) as [E|E].
    + subst i. pose proof (post_one_self e p q H A) as S. destruct (gone q).
      * intros _ X. apply S. revert X. apply sub_ids.
        apply (sub_fold (fun p => Inv None p /\ AllOk p)); [|auto].
        intros r i [R K']. destruct (inv_post_one e i r R K') as [B C]. split; [apply sub_post_one; exact R|].
        split; [exact B|]. unfold AllOk. rewrite C. exact K'.
      * destruct S as (q' & S1 & S2 & S3 & S4). destruct (about_parts _ _ S2) as (P1 & _).
        rewrite <- S3, <- S4, <- S2. rewrite <- P1 in N1.
        revert H1 K1 S1. generalize (post_one e (q_id q) p) as r. clear - N1.
        induction l as [|j l IHl]; cbn [fold_left]; intros r H1 K1 S1; [exists q'; auto|].
        destruct (inv_post_one e j r H1 K1) as [H2 C2]. apply IHl.
        -- intros X. apply N1. right. exact X.
        -- exact H2.
        -- unfold AllOk. rewrite C2. exact K1.
        -- apply post_one_other; auto. intros X. apply N1. left. auto.
    + pose proof (IH (post_one e i p) q H1 K1 N2 (post_one_other e i p q H E A)) as S. cbn zeta in S.
      destruct (gone q); [|exact S]. intros [X|X]; [congruence|auto].
Qed.

(** The burial of connections. *)
Lemma done_all_other l p q : ~ In (q_id q) l -> In q (p_urls p) -> In q (p_urls (done_all l p)).
Proof.
  induction l as [|i l IH]; cbn [done_all fold_right]; intros N A; [exact A|]. cbn.
  apply done_other; [intros X; apply N; left; auto|]. apply IH; [|exact A]. intros X. apply N. right. exact X.
Qed.

Lemma unconnect_out e c p q : In q (p_urls p) -> ~ In (q_id q) (c_held c) ->
  exists q', In q' (p_urls (unconnect e c p)) /\ core q' = core q /\ q_out q' = q_out q.
Proof.
  intros A N. rewrite unconnect_eq.
  set (g := fun q => match q_in q with Some t => if Nat.eqb t (c_id c) then with_in None q else q | None => q end).
  assert (G : core (g q) = core q /\ q_out (g q) = q_out q) by (unfold g; destruct (q_in q); [destruct (Nat.eqb _ _)|]; auto).
  exists (g q). split; [|exact G]. cbn. apply done_all_other.
  - intros X. apply filter_In in X. destruct X as [_ X]. apply in_existsb in X. apply N.
    destruct G as [G _]. destruct (core_parts _ _ G) as (G1 & _). congruence.
  - cbn. apply (in_map g). exact A.
Qed.

Lemma unconnects_out e l : forall p q, In q (p_urls p) -> (forall c, In c l -> ~ In (q_id q) (c_held c)) ->
  exists q', In q' (p_urls (fold_left (fun p c => unconnect e c p) l p)) /\ core q' = core q /\ q_out q' = q_out q.
Proof.
  induction l as [|c l IH]; cbn [fold_left]; intros p q A N; [exists q; auto|].
  destruct (unconnect_out e c p q A) as (r & R1 & R2 & R3); [apply N; left; reflexivity|].
  destruct (IH (unconnect e c p) r R1) as (x & X1 & X2 & X3).
  - intros d D1. destruct (core_parts _ _ R2) as (P1 & _). rewrite P1. apply N. right. exact D1.
  - exists x. repeat split; congruence.
Qed.

Lemma unconnects_core e l : forall p, map core (p_urls (fold_left (fun p c => unconnect e c p) l p)) = map core (p_urls p).
Proof. induction l as [|c l IH]; cbn [fold_left]; intros p; [reflexivity|]. rewrite IH. apply unconnect_core. Qed.

Lemma unconnects_keep e l : forall p q', In q' (p_urls (fold_left (fun p c => unconnect e c p) l p)) ->
  exists q, In q (p_urls p) /\ about q' = about q /\ (q_out q' = true -> q_out q = true).
Proof.
  induction l as [|c l IH]; cbn [fold_left]; intros p q A; [exists q; auto|].
  destruct (IH _ q A) as (r & R1 & R2 & R3).
  assert (X : exists x, In x (p_urls p) /\ about r = about x /\ (q_out r = true -> q_out x = true)).
  { rewrite unconnect_eq in R1. cbn in R1.
    destruct (k3 _ _ (keeps_done_all (filter (fun i => existsb (Nat.eqb i) (c_held c)) (fate e (p_tick p) (c_id c))) (cut (c_id c) p)) r R1) as (y & Y1 & Y2 & Y3).
    cbn in Y1. apply in_map_iff in Y1. destruct Y1 as (z & <- & Z). exists z. split; [exact Z|].
    destruct (q_in z); [destruct (Nat.eqb _ _)|]; auto. }
  destruct X as (x & X1 & X2 & X3). exists x. repeat split; [exact X1|congruence|auto].
Qed.

Lemma url_ok_core q q' : core q' = core q -> url_ok q' = url_ok q.
Proof. intros H. destruct (core_parts _ _ H) as (_ & _ & _ & _ & H5 & H6 & H7 & _). unfold url_ok. rewrite H5, H6, H7. reflexivity. Qed.

Lemma core_fwd p p' : map core (p_urls p') = map core (p_urls p) -> forall q, In q (p_urls p) -> exists q', In q' (p_urls p') /\ core q' = core q.
Proof. intros E q A. destruct (core_back p' p (eq_sym E) q A) as (r & R1 & R2). exists r. auto. Qed.

Lemma post_removed e p q : Inv None p -> In q (p_urls p) -> q_out q = false \/ url_ok q = false -> ~ In (q_id q) (ids (post_select e p)).
Proof.
  intros H A N. unfold post_select. cbn zeta. destruct (inv_bury e p H) as [X Y].
  assert (K : AllOk (bury e p)) by (intros c C; apply Y in C; tauto).
  destruct (core_fwd p (bury e p) (unconnects_core e _ p) q A) as (r & R1 & R2).
  destruct (core_parts _ _ R2) as (P1 & _ & _ & _ & _ & _ & _ & P8). rewrite <- P1.
  assert (G : gone r = true).
  { unfold gone. destruct N as [N|N].
    - assert (O : q_out r = false).
      { destruct (q_out r) eqn:O; [|reflexivity]. destruct (unconnects_keep e _ p r R1) as (x & X1 & X2 & X3).
        destruct (about_parts _ _ X2) as (Q1 & _). assert (x = q) by (apply (same_id H X1 A); congruence). subst x.
        rewrite (X3 O) in N. discriminate. }
      rewrite O, (iH _ _ X r R1 O). reflexivity.
    - rewrite (url_ok_core _ _ R2), N. apply orb_true_r. }
  pose proof (posts e (ids (bury e p)) (bury e p) r X K (iA _ _ X) R1) as Z. cbn zeta in Z. rewrite G in Z.
  apply Z. apply in_map. exact R1.
Qed.

Lemma post_stays e p q : Inv None p -> In q (p_urls p) -> q_out q = true -> url_ok q = true ->
  (forall c, In c (p_conns p) -> q_in q = Some (c_id c) -> c_ok c = true) ->
  exists q', In q' (p_urls (post_select e p)) /\ about q' = about q /\ q_out q' = true.
Proof.
  intros H A O U N. unfold post_select. cbn zeta. destruct (inv_bury e p H) as [X Y].
  assert (K : AllOk (bury e p)) by (intros c C; apply Y in C; tauto).
  destruct (unconnects_out e (filter (fun c => negb (c_ok c)) (p_conns p)) p q A) as (r & R1 & R2 & R3).
  { intros c C Z. apply filter_In in C. destruct C as [C1 C2]. destruct (iD _ _ H c _ C1 Z) as (x & X1 & X2 & X3 & _).
    assert (x = q) by (apply (same_id H X1 A); congruence). subst x. rewrite (N c C1 X3) in C2. discriminate. }
  fold (bury e p) in R1.
  assert (G : gone r = false) by (unfold gone; rewrite R3, O, (url_ok_core _ _ R2), U; reflexivity).
  pose proof (posts e (ids (bury e p)) (bury e p) r X K (iA _ _ X) R1) as Z. cbn zeta in Z. rewrite G in Z.
  destruct Z as (z & Z1 & Z2 & Z3 & _). exists z. split; [exact Z1|].
  destruct (core_parts _ _ R2) as (_ & _ & _ & _ & _ & _ & _ & P8). split; congruence.
Qed.

(** Nothing else takes requests away. *)
Lemma done_ids i p : ids (done_req i p) = ids p.
Proof. apply core_ids, done_core. Qed.

Lemma resolve_in_ids e q p : Inv None p -> In q (p_urls p) -> ids (snd (resolve_in e q p)) = ids p.
Proof. intros H A. rewrite (resolve_in_eq None e q p H A). cbn [snd]. apply upd_ids. intros r. apply resolve_id. Qed.

Lemma pre_ids e p : Inv None p -> ids (pre_select e p) = ids p.
Proof.
  unfold pre_select. generalize (ids p) at 1 as l. intros l. revert p.
  induction l as [|i l IH]; cbn [fold_left]; intros p H; [reflexivity|]. rewrite IH; [|apply inv_pre_one; exact H].
  unfold pre_one. destruct (find_req i p) as [q|] eqn:E; [|reflexivity]. apply find_req_some in E.
  destruct (q_in q); [reflexivity|]. apply resolve_in_ids; tauto.
Qed.

Lemma deal_ids d p : ids (deal d p) = ids p.
Proof.
  destruct d as [s i|s i|s l]; cbn; destruct (find_c s p) as [c|]; try reflexivity.
  - destruct (_ && _); [|reflexivity]. apply upd_ids. reflexivity.
  - destruct (_ && _); [|reflexivity]. apply done_ids.
  - apply core_ids. cbn. apply done_all_core.
Qed.

Lemma ids_step e p a i : Inv None p -> a <> Post -> In i (ids p) -> In i (ids (step e p a)).
Proof.
  intros H N A. unfold step. destruct (p_crash p); [exact A|]. destruct a as [pr u h n| | | |d].
  - unfold ids, addurl. cbn. rewrite map_app. apply in_app_iff. left. exact A.
  - rewrite (pre_ids e p H). exact A.
  - contradiction.
  - destruct (exec_next e p H) as (_ & X & _). rewrite X. exact A.
  - rewrite deal_ids. exact A.
Qed.
