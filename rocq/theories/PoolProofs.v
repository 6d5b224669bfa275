(** Proofs about WvHttpPool. *)
From Verif Require Import Base PoolModel.
Local Open Scope list_scope.

Definition live (p : pool) (i : nat) : Prop := exists q, In q (p_urls p) /\ q_id q = i /\ q_out q = true.

Record Inv (ex : option nat) (p : pool) : Prop := {
  iA : NoDup (ids p);
  iA' : forall q, In q (p_urls p) -> (q_id q < p_next p)%nat;
  iB : NoDup (map c_id (p_conns p));
  iB' : forall c, In c (p_conns p) -> (c_id c < p_snext p)%nat;
  iC : NoDup (map c_to (p_conns p));
  iD : forall c i, In c (p_conns p) -> In i (c_held c) ->
       exists q, In q (p_urls p) /\ q_id q = i /\ q_in q = Some (c_id c) /\ (c_ok c = true -> q_out q = true);
  iN : forall c, In c (p_conns p) -> NoDup (c_held c);
  iE : forall q s, In q (p_urls p) -> q_in q = Some s ->
       exists c, In c (p_conns p) /\ c_id c = s /\
         (c_ok c = true -> q_out q = true -> ex <> Some (q_id q) -> In (q_id q) (c_held c));
  iF : forall q s, In q (p_urls p) -> q_in q = Some s -> q_port q <> 0%nat /\ q_addr q <> None;
  iG : NoDup (p_eofs p);
  iG' : forall i, In i (p_eofs p) <-> (i < p_next p)%nat /\ ~ live p i;
  iH : forall q, In q (p_urls p) -> q_out q = false -> q_inuse q = false }.

Definition held_ok (p : pool) (i : nat) : Prop :=
  exists c, In c (p_conns p) /\ c_ok c = true /\ In i (c_held c).

Lemma same_id {p ex q q'} : Inv ex p -> In q (p_urls p) -> In q' (p_urls p) -> q_id q = q_id q' -> q = q'.
Proof.
  intros H. pose proof (iA ex p H) as N. unfold ids in N. revert N. generalize (p_urls p) as l.
  induction l as [|x l IH]; cbn; [tauto|]. intros N. inversion N as [|? ? N1 N2]; subst.
  intros [->|A] [->|C] E; auto.
  - destruct N1. rewrite E. apply in_map. exact C.
  - destruct N1. rewrite <- E. apply in_map. exact A.
Qed.

Lemma same_cid {p ex c c'} : Inv ex p -> In c (p_conns p) -> In c' (p_conns p) -> c_id c = c_id c' -> c = c'.
Proof.
  intros H. pose proof (iB ex p H) as N. revert N. generalize (p_conns p) as l.
  induction l as [|x l IH]; cbn; [tauto|]. intros N. inversion N as [|? ? N1 N2]; subst.
  intros [->|A] [->|C] E; auto.
  - destruct N1. rewrite E. apply in_map. exact C.
  - destruct N1. rewrite <- E. apply in_map. exact A.
Qed.

Lemma weaken ex p : Inv None p -> Inv ex p.
Proof.
  intros []. split; auto. intros q s A C. destruct (iE0 q s A C) as (c & X & Y & Z). exists c.
  split; [exact X|]. split; [exact Y|]. intros. apply Z; auto. discriminate.
Qed.

Lemma find_req_some i p q : find_req i p = Some q -> In q (p_urls p) /\ q_id q = i.
Proof. intros H. apply find_some in H. rewrite Nat.eqb_eq in H. exact H. Qed.

Lemma find_req_none i p : find_req i p = None -> forall q, In q (p_urls p) -> q_id q <> i.
Proof. intros H q A. apply (find_none _ _ H) in A. apply Nat.eqb_neq. exact A. Qed.

Lemma find_req_in ex p q : Inv ex p -> In q (p_urls p) -> find_req (q_id q) p = Some q.
Proof.
  intros H A. destruct (find_req (q_id q) p) as [r|] eqn:E.
  - apply find_req_some in E. destruct E as [E1 E2]. f_equal. eapply same_id; eauto.
  - destruct (find_req_none _ _ E q A). reflexivity.
Qed.

Lemma NoDup_snoc {A} (l : list A) x : NoDup l -> ~ In x l -> NoDup (l ++ [x]).
Proof.
  induction l as [|y l IH]; cbn; intros N X; [constructor; [easy|constructor]|].
  inversion N as [|? ? N1 N2]; subst. constructor; [|apply IH; tauto].
  rewrite in_app_iff. cbn. intuition congruence.
Qed.

(** Changes that the lists do not notice. *)
Definition mild (f : req -> req) : Prop := forall q,
  q_id (f q) = q_id q /\ q_in (f q) = q_in q /\ q_out (f q) = q_out q /\
  (q_inuse (f q) = q_inuse q \/ q_out q = true) /\ q_port (f q) = q_port q /\
  (q_addr q <> None -> q_addr (f q) <> None).

Lemma inv_mild ex f p : mild f -> Inv ex p -> Inv ex (set_urls (map f (p_urls p)) p).
Proof.
  intros M H.
  assert (L : forall i, live (set_urls (map f (p_urls p)) p) i <-> live p i).
  { intros i. unfold live. cbn. split.
    - intros (q & A & C & D). apply in_map_iff in A. destruct A as (r & <- & A).
      destruct (M r) as (M1 & M2 & M3 & _). exists r. rewrite M1 in C. rewrite M3 in D. auto.
    - intros (q & A & C & D). exists (f q). destruct (M q) as (M1 & M2 & M3 & _).
      split; [apply in_map; exact A|]. rewrite M1, M3. auto. }
  destruct H. split; cbn [set_urls p_urls p_conns p_next p_snext p_eofs]; auto.
  - unfold ids. cbn. rewrite map_map. erewrite map_ext; [exact iA0|]. intros q. apply M.
  - intros q A. apply in_map_iff in A. destruct A as (r & <- & A). rewrite (proj1 (M r)). auto.
  - intros c i A C. destruct (iD0 c i A C) as (q & X & Y & Z & W). exists (f q).
    destruct (M q) as (M1 & M2 & M3 & _). split; [apply in_map; exact X|]. rewrite M1, M2, M3. auto.
  - intros q s A C. apply in_map_iff in A. destruct A as (r & <- & A).
    destruct (M r) as (M1 & M2 & M3 & _). rewrite M2 in C. destruct (iE0 r s A C) as (c & X & Y & Z).
    exists c. rewrite M1, M3. auto.
  - intros q s A C. apply in_map_iff in A. destruct A as (r & <- & A).
    destruct (M r) as (M1 & M2 & M3 & M4 & M5 & M6). rewrite M2 in C. destruct (iF0 r s A C). rewrite M5. auto.
  - intros i. rewrite L. apply iG'0.
  - intros q A C. apply in_map_iff in A. destruct A as (r & <- & A).
    destruct (M r) as (M1 & M2 & M3 & M4 & _). rewrite M3 in C. destruct M4 as [M4|M4]; [rewrite M4; auto|congruence].
Qed.

Lemma inv_tick ex p : Inv ex p -> Inv ex (tick p).
Proof. intros []. split; auto. Qed.

Lemma inv_crash ex p : Inv ex p -> Inv ex (crash p).
Proof. intros []. split; auto. Qed.

(** Finishing a request that no connection works on. *)
Lemma inv_done ex p i : Inv ex p -> ~ held_ok p i -> (ex = None \/ ex = Some i) -> Inv None (done_req i p).
Proof.
  intros H NH HX. unfold done_req. destruct (find_req i p) as [q0|] eqn:E.
  2: { destruct HX as [->| ->]; [exact H|].
       pose proof (find_req_none _ _ E) as N. destruct H. split; auto.
       intros q s A C. destruct (iE0 q s A C) as (c & X & Y & Z). exists c. split; [exact X|]. split; [exact Y|].
       intros. apply Z; auto. intros W. injection W as W. destruct (N q A). congruence. }
  apply find_req_some in E. destruct E as [E1 E2].
  set (g := fun q => if Nat.eqb (q_id q) i then finished q else q).
  assert (GI : forall q, q_id (g q) = q_id q) by (intros q; unfold g; destruct (Nat.eqb _ _); reflexivity).
  assert (GN : forall q, q_in (g q) = q_in q) by (intros q; unfold g; destruct (Nat.eqb _ _); reflexivity).
  assert (GO : forall q, q_out (g q) = true <-> q_out q = true /\ q_id q <> i).
  { intros q. unfold g. destruct (Nat.eqb_spec (q_id q) i); cbn; [|tauto]. split; [discriminate|tauto]. }
  assert (L : forall j, (exists q, In q (map g (p_urls p)) /\ q_id q = j /\ q_out q = true) <-> live p j /\ j <> i).
  { intros j. split.
    - intros (q & A & C & D). apply in_map_iff in A. destruct A as (r & <- & A). rewrite GI in C. apply GO in D.
      split; [exists r; tauto|]. subst j. tauto.
    - intros [(q & A & C & D) Ne]. exists (g q). split; [apply in_map; exact A|]. rewrite GI.
      split; [exact C|]. apply GO. split; [exact D|congruence]. }
  assert (CORE : forall p', p_urls p' = map g (p_urls p) -> p_conns p' = p_conns p -> p_next p' = p_next p ->
            p_snext p' = p_snext p -> NoDup (p_eofs p') ->
            (forall j, In j (p_eofs p') <-> (j < p_next p)%nat /\ ~ (live p j /\ j <> i)) -> Inv None p').
  { intros p' P1 P2 P3 P4 P5 P6. destruct H. split; rewrite ?P1, ?P2, ?P3, ?P4; auto.
    - unfold ids. rewrite P1, map_map. erewrite map_ext; [exact iA0|]. exact GI.
    - intros q A. apply in_map_iff in A. destruct A as (r & <- & A). rewrite GI. auto.
    - intros c j A C. destruct (iD0 c j A C) as (q & X & Y & Z & W). exists (g q).
      split; [apply in_map; exact X|]. rewrite GI, GN. split; [exact Y|]. split; [exact Z|]. intros K.
      apply GO. split; [auto|]. intros Q. apply NH. exists c. split; [exact A|]. split; [exact K|]. congruence.
    - intros q s A C. apply in_map_iff in A. destruct A as (r & <- & A). rewrite GN in C.
      destruct (iE0 r s A C) as (c & X & Y & Z). exists c. split; [exact X|]. split; [exact Y|].
      intros K O _. rewrite GI. apply GO in O. apply Z; try tauto. destruct HX as [->| ->]; [discriminate|].
      intros W. injection W as W. destruct O. congruence.
    - intros q s A C. apply in_map_iff in A. destruct A as (r & <- & A). rewrite GN in C.
      destruct (iF0 r s A C). unfold g. destruct (Nat.eqb _ _); auto.
    - intros j. rewrite P6. unfold live at 2. rewrite P1, L. reflexivity.
    - intros q A C. apply in_map_iff in A. destruct A as (r & <- & A). unfold g in *.
      destruct (Nat.eqb _ _); [reflexivity|auto]. }
  pose proof (iG _ _ H) as G1. pose proof (iG' _ _ H) as G2. pose proof (iA' _ _ H q0 E1) as LT.
  destruct (q_out q0) eqn:Eo.
  - apply CORE; try reflexivity.
    + cbn. constructor; [|exact G1]. rewrite G2. intros [_ X]. apply X. exists q0. auto.
    + intros j. cbn. rewrite G2. destruct (Nat.eq_dec j i) as [->|Ne].
      * split; [intros _; split; [lia|tauto]|auto].
      * intuition congruence.
  - apply CORE; try reflexivity; [exact G1|].
    intros j. cbn. rewrite G2. destruct (Nat.eq_dec j i) as [->|Ne]; [|tauto].
    split; [intros [X Y]; split; [exact X|tauto]|]. intros [X _]. split; [exact X|].
    intros (q & A & C & D). assert (q = q0) by (eapply same_id; eauto; congruence). congruence.
Qed.

Lemma done_conns i p : p_conns (done_req i p) = p_conns p.
Proof. unfold done_req. destruct (find_req i p); [destruct (q_out r)|]; reflexivity. Qed.

Lemma done_all_conns l p : p_conns (done_all l p) = p_conns p.
Proof. induction l as [|i l IH]; [reflexivity|]. cbn. rewrite done_conns. exact IH. Qed.

Lemma inv_done_all l p : Inv None p -> (forall i, In i l -> ~ held_ok p i) -> Inv None (done_all l p).
Proof.
  intros H. induction l as [|i l IH]; intros N; [exact H|]. cbn.
  apply inv_done with (ex := None); auto.
  - apply IH. intros j A. apply N. right. exact A.
  - intros X. apply (N i); [left; reflexivity|]. destruct X as (c & X). exists c. rewrite <- (done_all_conns l p). exact X.
Qed.

(** A connection that dies may hold what it likes. *)
Lemma inv_dead ex p s : Inv ex p -> Inv ex (upd_conn s (fun c => Conn (c_id c) (c_to c) false (c_held c)) p).
Proof.
  intros H. unfold upd_conn.
  set (g := fun c => if Nat.eqb (c_id c) s then Conn (c_id c) (c_to c) false (c_held c) else c).
  assert (G1 : forall c, c_id (g c) = c_id c) by (intros c; unfold g; destruct (Nat.eqb _ _); reflexivity).
  assert (G2 : forall c, c_to (g c) = c_to c) by (intros c; unfold g; destruct (Nat.eqb _ _); reflexivity).
  assert (G3 : forall c, c_held (g c) = c_held c) by (intros c; unfold g; destruct (Nat.eqb _ _); reflexivity).
  assert (G4 : forall c, c_ok (g c) = true -> c_ok c = true) by (intros c; unfold g; destruct (Nat.eqb _ _); auto; discriminate).
  destruct H. split; cbn [set_conns p_urls p_conns p_next p_snext p_eofs]; auto.
  - rewrite map_map. erewrite map_ext; [exact iB0|exact G1].
  - intros c A. apply in_map_iff in A. destruct A as (d & <- & A). rewrite G1. auto.
  - rewrite map_map. erewrite map_ext; [exact iC0|exact G2].
  - intros c i A C. apply in_map_iff in A. destruct A as (d & <- & A). rewrite G3 in C. rewrite G1.
    destruct (iD0 d i A C) as (q & X & Y & Z & W). exists q. auto 6.
  - intros c A. apply in_map_iff in A. destruct A as (d & <- & A). rewrite G3. auto.
  - intros q t A C. destruct (iE0 q t A C) as (c & X & Y & Z). exists (g c). rewrite G1, G3.
    split; [apply in_map; exact X|]. split; [exact Y|]. auto.
Qed.

(** Letting a request go. *)
Lemma inv_drop p s i : Inv None p -> Inv (Some i) (upd_conn s (drop_held i) p).
Proof.
  intros H. unfold upd_conn.
  set (g := fun c => if Nat.eqb (c_id c) s then drop_held i c else c).
  assert (G1 : forall c, c_id (g c) = c_id c) by (intros c; unfold g; destruct (Nat.eqb _ _); reflexivity).
  assert (G2 : forall c, c_to (g c) = c_to c) by (intros c; unfold g; destruct (Nat.eqb _ _); reflexivity).
  assert (G4 : forall c, c_ok (g c) = c_ok c) by (intros c; unfold g; destruct (Nat.eqb _ _); reflexivity).
  assert (G3 : forall c j, In j (c_held (g c)) -> In j (c_held c)).
  { intros c j. unfold g. destruct (Nat.eqb _ _); [|auto]. cbn. rewrite filter_In. tauto. }
  assert (G5 : forall c j, j <> i -> In j (c_held c) -> In j (c_held (g c))).
  { intros c j Ne. unfold g. destruct (Nat.eqb _ _); [|auto]. cbn. rewrite filter_In. intros X. split; [exact X|].
    apply negb_true_iff, Nat.eqb_neq. congruence. }
  destruct H. split; cbn [set_conns p_urls p_conns p_next p_snext p_eofs]; auto.
  - rewrite map_map. erewrite map_ext; [exact iB0|exact G1].
  - intros c A. apply in_map_iff in A. destruct A as (d & <- & A). rewrite G1. auto.
  - rewrite map_map. erewrite map_ext; [exact iC0|exact G2].
  - intros c j A C. apply in_map_iff in A. destruct A as (d & <- & A). rewrite G1, G4.
    apply iD0; auto.
  - intros c A. apply in_map_iff in A. destruct A as (d & <- & A). unfold g. destruct (Nat.eqb _ _); [|auto].
    cbn. apply NoDup_filter. auto.
  - intros q t A C. destruct (iE0 q t A C) as (c & X & Y & Z). exists (g c). rewrite G1, G4.
    split; [apply in_map; exact X|]. split; [exact Y|]. intros K O Ne. apply G5; [congruence|]. apply Z; auto. discriminate.
Qed.

(** A connection taken away. *)
Definition cut (s : nat) (p : pool) : pool :=
  let p := set_urls (map (fun q => match q_in q with
                                   | Some t => if Nat.eqb t s then with_in None q else q
                                   | None => q
                                   end) (p_urls p)) p in
  set_conns (filter (fun d => negb (Nat.eqb (c_id d) s)) (p_conns p)) p.

Lemma NoDup_map_filter {A C} (f : A -> C) (h : A -> bool) l : NoDup (map f l) -> NoDup (map f (filter h l)).
Proof.
  induction l as [|x l IH]; cbn; [auto|]. intros N. inversion N as [|? ? N1 N2]; subst.
  destruct (h x); cbn; [|auto]. constructor; [|auto]. intros X. apply N1. apply in_map_iff in X.
  destruct X as (y & E & X). apply filter_In in X. rewrite <- E. apply in_map. tauto.
Qed.

Lemma inv_cut p s : Inv None p -> Inv None (cut s p).
Proof.
  intros H. unfold cut.
  set (g := fun q => match q_in q with Some t => if Nat.eqb t s then with_in None q else q | None => q end).
  assert (G : forall q, q_id (g q) = q_id q /\ q_out (g q) = q_out q /\ q_inuse (g q) = q_inuse q /\
                        q_port (g q) = q_port q /\ q_addr (g q) = q_addr q).
  { intros q. unfold g. destruct (q_in q); [destruct (Nat.eqb _ _)|]; repeat split. }
  assert (GN : forall q t, q_in (g q) = Some t <-> q_in q = Some t /\ t <> s).
  { intros q t. unfold g. destruct (q_in q) as [u|] eqn:E; [|split; [rewrite E; discriminate|intros [X _]; discriminate]].
    destruct (Nat.eqb_spec u s); cbn; [|rewrite E]; intuition congruence. }
  assert (L : forall i, (exists q, In q (map g (p_urls p)) /\ q_id q = i /\ q_out q = true) <-> live p i).
  { intros i. split.
    - intros (q & A & C & D). apply in_map_iff in A. destruct A as (r & <- & A).
      destruct (G r) as (M1 & M3 & _). exists r. rewrite M1 in C. rewrite M3 in D. auto.
    - intros (q & A & C & D). exists (g q). destruct (G q) as (M1 & M3 & _).
      split; [apply in_map; exact A|]. rewrite M1, M3. auto. }
  destruct H. split; cbn [set_conns set_urls p_urls p_conns p_next p_snext p_eofs]; auto.
  - unfold ids. cbn. rewrite map_map. erewrite map_ext; [exact iA0|]. intros q. apply G.
  - intros q A. apply in_map_iff in A. destruct A as (r & <- & A). rewrite (proj1 (G r)). auto.
  - apply NoDup_map_filter. exact iB0.
  - intros c A. apply filter_In in A. apply iB'0. tauto.
  - apply NoDup_map_filter. exact iC0.
  - intros c i A C. apply filter_In in A. destruct A as [A Ne]. apply negb_true_iff, Nat.eqb_neq in Ne.
    destruct (iD0 c i A C) as (q & X & Y & Z & W). exists (g q). destruct (G q) as (M1 & M3 & _).
    split; [apply in_map; exact X|]. rewrite M1, M3. split; [exact Y|]. split; [apply GN; auto|exact W].
  - intros c A. apply filter_In in A. apply iN0. tauto.
  - intros q t A C. apply in_map_iff in A. destruct A as (r & <- & A). apply GN in C. destruct C as [C Ne].
    destruct (iE0 r t A C) as (c & X & Y & Z). exists c. destruct (G r) as (M1 & M3 & _). rewrite M1, M3.
    split; [apply filter_In; split; [exact X|]; apply negb_true_iff, Nat.eqb_neq; congruence|]. auto.
  - intros q t A C. apply in_map_iff in A. destruct A as (r & <- & A). apply GN in C. destruct C as [C Ne].
    destruct (G r) as (_ & _ & _ & M4 & M5). rewrite M4, M5. eapply iF0; eauto.
  - intros i. unfold live. cbn. rewrite L. apply iG'0.
  - intros q A C. apply in_map_iff in A. destruct A as (r & <- & A). destruct (G r) as (M1 & M3 & M4 & _).
    rewrite M3 in C. rewrite M4. auto.
Qed.

Lemma unconnect_eq e c p : unconnect e c p =
  tick (done_all (filter (fun i => existsb (Nat.eqb i) (c_held c)) (fate e (p_tick p) (c_id c))) (cut (c_id c) p)).
Proof. reflexivity. Qed.

Lemma in_existsb i l : existsb (Nat.eqb i) l = true <-> In i l.
Proof.
  rewrite existsb_exists. split; [intros (x & A & E); apply Nat.eqb_eq in E; congruence|].
  intros A. exists i. split; [exact A|apply Nat.eqb_refl].
Qed.

Lemma held_one ex p c d i : Inv ex p -> In c (p_conns p) -> In d (p_conns p) -> In i (c_held c) -> In i (c_held d) -> c = d.
Proof.
  intros H A C X Y. destruct (iD ex p H c i A X) as (q & Q1 & Q2 & Q3 & _).
  destruct (iD ex p H d i C Y) as (r & R1 & R2 & R3 & _).
  assert (q = r) by (eapply same_id; eauto; congruence). subst r.
  apply (same_cid H A C). congruence.
Qed.

Lemma inv_unconnect e c p : Inv None p -> In c (p_conns p) -> Inv None (unconnect e c p).
Proof.
  intros H A. rewrite unconnect_eq. apply inv_tick, inv_done_all; [apply inv_cut; exact H|].
  intros i X. apply filter_In in X. destruct X as [_ X]. apply in_existsb in X.
  intros (d & D1 & D2 & D3). cbn in D1. apply filter_In in D1. destruct D1 as [D1 D4].
  apply negb_true_iff, Nat.eqb_neq in D4. apply D4. f_equal. symmetry. eapply held_one; eauto.
Qed.

Lemma unconnect_conns e c p : p_conns (unconnect e c p) = filter (fun d => negb (Nat.eqb (c_id d) (c_id c))) (p_conns p).
Proof. rewrite unconnect_eq. cbn. rewrite done_all_conns. reflexivity. Qed.

Lemma fold_unconnect e l : forall p, Inv None p -> NoDup (map c_id l) -> (forall c, In c l -> In c (p_conns p)) ->
  let p' := fold_left (fun p c => unconnect e c p) l p in
  Inv None p' /\ p_conns p' = filter (fun d => negb (existsb (Nat.eqb (c_id d)) (map c_id l))) (p_conns p).
Proof.
  induction l as [|c l IH]; cbn [fold_left map existsb].
  - intros p H _ _. split; [exact H|]. clear. induction (p_conns p) as [|x r IHr]; cbn; [reflexivity|f_equal; exact IHr].
  - intros p H N I. inversion N as [|? ? N1 N2]; subst.
    destruct (IH (unconnect e c p)) as [X Y].
    + apply inv_unconnect; auto. apply I. left. reflexivity.
    + exact N2.
    + intros d D. rewrite unconnect_conns. apply filter_In. split; [apply I; right; exact D|].
      apply negb_true_iff, Nat.eqb_neq. intros E. apply N1. rewrite <- E. apply in_map. exact D.
    + split; [exact X|]. cbn zeta in Y. rewrite Y, unconnect_conns. clear.
      induction (p_conns p) as [|x r IHr]; cbn [filter]; [reflexivity|].
      destruct (Nat.eqb (c_id x) (c_id c)) eqn:E; cbn [negb orb filter]; [exact IHr|].
      destruct (existsb (Nat.eqb (c_id x)) (map c_id l)); cbn [negb]; rewrite IHr; reflexivity.
Qed.

Lemma inv_bury e p : Inv None p -> Inv None (bury e p) /\ (forall c, In c (p_conns (bury e p)) <-> In c (p_conns p) /\ c_ok c = true).
Proof.
  intros H. unfold bury.
  destruct (fold_unconnect e (filter (fun c => negb (c_ok c)) (p_conns p)) p H) as [X Y].
  - apply NoDup_map_filter. apply (iB None p H).
  - intros c A. apply filter_In in A. tauto.
  - split; [exact X|]. intros c. cbn in Y. rewrite Y. rewrite filter_In. split.
    + intros [A N]. split; [exact A|]. destruct (c_ok c) eqn:E; [reflexivity|].
      apply negb_true_iff in N. assert (T : existsb (Nat.eqb (c_id c)) (map c_id (filter (fun c => negb (c_ok c)) (p_conns p))) = true).
      { apply in_existsb, in_map. apply filter_In. split; [exact A|]. rewrite E. reflexivity. }
      rewrite T in N. discriminate N.
    + intros [A E]. split; [exact A|]. apply negb_true_iff.
      destruct (existsb _ _) eqn:T; [|reflexivity]. apply in_existsb, in_map_iff in T.
      destruct T as (d & D & T). apply filter_In in T. destruct T as [T T'].
      assert (d = c) by exact (same_cid H T A D). subst d. rewrite E in T'. discriminate.
Qed.

(** Taking a finished request off the list. *)
Definition rid (i : nat) (p : pool) : pool := set_urls (filter (fun r => negb (Nat.eqb (q_id r) i)) (p_urls p)) p.

Lemma inv_rid p i : Inv None p -> ~ live p i -> (forall c, In c (p_conns p) -> ~ In i (c_held c)) -> Inv None (rid i p).
Proof.
  intros H NL NH. unfold rid.
  assert (L : forall j, (exists q, In q (filter (fun r => negb (Nat.eqb (q_id r) i)) (p_urls p)) /\ q_id q = j /\ q_out q = true) <-> live p j).
  { intros j. split.
    - intros (q & A & C). apply filter_In in A. exists q. tauto.
    - intros (q & A & C & D). exists q. split; [|auto]. apply filter_In. split; [exact A|].
      apply negb_true_iff, Nat.eqb_neq. intros E. apply NL. exists q. auto. }
  destruct H. split; cbn [set_urls p_urls p_conns p_next p_snext p_eofs]; auto.
  - unfold ids. cbn. apply NoDup_map_filter. exact iA0.
  - intros q A. apply filter_In in A. apply iA'0. tauto.
  - intros c j A C. destruct (iD0 c j A C) as (q & X & Y & Z). exists q. split; [|auto]. apply filter_In.
    split; [exact X|]. apply negb_true_iff, Nat.eqb_neq. intros E. apply (NH c A). congruence.
  - intros q s A. apply filter_In in A. apply iE0. tauto.
  - intros q s A. apply filter_In in A. apply iF0. tauto.
  - intros j. unfold live. cbn. rewrite L. apply iG'0.
  - intros q A. apply filter_In in A. apply iH0. tauto.
Qed.

Lemma mild_resolve a : mild (fun q => snd (resolve a q)).
Proof. intros q. destruct a; cbn; repeat split; auto. intros _. discriminate. Qed.

Lemma mild_at i f : mild f -> mild (fun q => if Nat.eqb (q_id q) i then f q else q).
Proof. intros M q. destruct (Nat.eqb (q_id q) i); [apply M|]. repeat split; auto. Qed.

Lemma upd_const ex p q f : Inv ex p -> In q (p_urls p) -> upd (q_id q) (fun _ => f q) p = upd (q_id q) f p.
Proof.
  intros H A. unfold upd. f_equal. apply map_ext_in. intros r R. destruct (Nat.eqb_spec (q_id r) (q_id q)); [|reflexivity].
  f_equal. eapply same_id; eauto.
Qed.

Lemma resolve_in_eq ex e q p : Inv ex p -> In q (p_urls p) ->
  let a := dns e (p_tick p) (q_host q) in
  resolve_in e q p = (fst (resolve a q), snd (resolve a q), tick (upd (q_id q) (fun q => snd (resolve a q)) p)).
Proof.
  intros H A a. unfold resolve_in. fold a. destruct (resolve a q) as [b q'] eqn:E. cbn [fst snd].
  rewrite <- (upd_const ex p q (fun q => snd (resolve a q)) H A). rewrite E. reflexivity.
Qed.

Lemma inv_resolve_in ex e q p : Inv ex p -> In q (p_urls p) -> Inv ex (snd (resolve_in e q p)).
Proof.
  intros H A. rewrite (resolve_in_eq ex e q p H A). cbn [snd]. apply inv_tick. unfold upd.
  apply inv_mild; [apply mild_at, mild_resolve|exact H].
Qed.

Lemma resolve_in_conns e q p : p_conns (snd (resolve_in e q p)) = p_conns p.
Proof. unfold resolve_in. destruct (resolve _ q). reflexivity. Qed.

Lemma inv_pre_one e i p : Inv None p -> Inv None (pre_one e i p).
Proof.
  intros H. unfold pre_one. destruct (find_req i p) as [q|] eqn:E; [|exact H]. apply find_req_some in E.
  destruct (q_in q); [exact H|]. apply inv_resolve_in; tauto.
Qed.

Lemma fold_inv {A} (P : pool -> Prop) (f : pool -> A -> pool) l : (forall p a, P p -> P (f p a)) -> forall p, P p -> P (fold_left f l p).
Proof. intros F. induction l as [|a l IH]; cbn; auto. Qed.

Lemma inv_pre e p : Inv None p -> Inv None (pre_select e p).
Proof. intros H. unfold pre_select. apply fold_inv; [|exact H]. intros. apply inv_pre_one. assumption. Qed.

Lemma not_held p i : (forall c, In c (p_conns p) -> ~ In i (c_held c)) -> ~ held_ok p i.
Proof. intros N (c & A & _ & C). exact (N c A C). Qed.

Lemma done_live ex i p : Inv ex p -> ~ held_ok p i -> (ex = None \/ ex = Some i) -> ~ live (done_req i p) i.
Proof.
  intros H NH HX (q & A & C & D). unfold done_req in A. destruct (find_req i p) as [r|] eqn:E.
  - assert (A' : In q (map (fun q => if Nat.eqb (q_id q) i then finished q else q) (p_urls p))) by (destruct (q_out r); exact A).
    apply in_map_iff in A'. destruct A' as (x & <- & X). destruct (Nat.eqb_spec (q_id x) i); cbn in *; congruence.
  - exact (find_req_none _ _ E q A C).
Qed.

Lemma upd_conn_in s f p c : In c (p_conns (upd_conn s f p)) -> exists d, In d (p_conns p) /\ c = (if Nat.eqb (c_id d) s then f d else d).
Proof. cbn. intros A. apply in_map_iff in A. destruct A as (d & <- & A). exists d. auto. Qed.

(** What post_select does with a request of the first sort. *)
Lemma inv_remove p i t : Inv None p -> (forall c, In c (p_conns p) -> ~ In i (c_held c)) ->
  let p2 := match find_conn t p with Some c => delurl i c p | None => p end in
  Inv None (rid i (done_req i p2)) /\ p_conns p2 = p_conns p.
Proof.
  intros H NH.
  assert (P2 : (match find_conn t p with Some c => delurl i c p | None => p end) = p).
  { destruct (find_conn t p) as [c|] eqn:E; [|reflexivity]. apply find_some in E. destruct E as [E _].
    unfold delurl. destruct (existsb (Nat.eqb i) (c_held c)) eqn:X; [apply in_existsb in X; destruct (NH c E X)|].
    unfold upd_conn.
    assert (MM : map (fun d => if Nat.eqb (c_id d) (c_id c) then drop_held i d else d) (p_conns p) = p_conns p);
      [|rewrite MM; destruct p; reflexivity].
    etransitivity; [|apply map_id]. apply map_ext_in. intros d D.
    destruct (Nat.eqb (c_id d) (c_id c)); [|reflexivity]. destruct d as [a b o h]. unfold drop_held. cbn. f_equal.
    specialize (NH _ D). cbn in NH. clear - NH. induction h as [|x h IH]; [reflexivity|]. cbn in *.
    destruct (Nat.eqb_spec i x); cbn; [subst; tauto|]. rewrite IH; tauto. }
  cbn zeta. rewrite P2. split; [|reflexivity]. apply inv_rid.
  - apply inv_done with (ex := None); auto. apply not_held. exact NH.
  - apply done_live with (ex := None); auto. apply not_held. exact NH.
  - intros c A. rewrite done_conns in A. auto.
Qed.

Lemma url_bad_free p q ex : Inv ex p -> In q (p_urls p) -> url_ok q = false -> q_in q = None.
Proof.
  intros H A C. destruct (q_in q) as [s|] eqn:E; [|reflexivity]. destruct (iF ex p H q s A E) as [X Y].
  unfold url_ok in C. apply Nat.eqb_neq in X. rewrite X in C. destruct (q_addr q); [|congruence].
  rewrite orb_true_r in C. discriminate.
Qed.

Lemma free_not_held p q ex : Inv ex p -> In q (p_urls p) -> q_in q = None -> forall c, In c (p_conns p) -> ~ In (q_id q) (c_held c).
Proof.
  intros H A C c D X. destruct (iD ex p H c _ D X) as (r & R1 & R2 & R3 & _).
  assert (r = q) by (eapply same_id; eauto). congruence.
Qed.

Definition AllOk (p : pool) : Prop := forall c, In c (p_conns p) -> c_ok c = true.

Lemma done_not_held p q : Inv None p -> AllOk p -> In q (p_urls p) -> q_out q = false -> forall c, In c (p_conns p) -> ~ In (q_id q) (c_held c).
Proof.
  intros H K A C c D X. destruct (iD None p H c _ D X) as (r & R1 & R2 & R3 & R4).
  assert (r = q) by (eapply same_id; eauto). subst r. rewrite (R4 (K c D)) in C. discriminate.
Qed.

Lemma inv_post_one e i p : Inv None p -> AllOk p -> Inv None (post_one e i p) /\ p_conns (post_one e i p) = p_conns p.
Proof.
  intros H K. unfold post_one. destruct (find_req i p) as [q|] eqn:E; [|auto].
  apply find_req_some in E. destruct E as [E1 E2]. subst i.
  destruct (negb (q_out q) && negb (q_inuse q) || negb (url_ok q)) eqn:T.
  - cbn zeta.
    assert (NH : forall c, In c (p_conns p) -> ~ In (q_id q) (c_held c)).
    { destruct (url_ok q) eqn:U.
      - rewrite orb_false_r in T. apply andb_true_iff in T. destruct T as [T _]. apply negb_true_iff in T.
        apply done_not_held; auto.
      - apply (free_not_held p q None); auto. apply (url_bad_free p q None); auto. }
    set (p1 := if url_ok q then p else done_req (q_id q) p).
    assert (C1 : p_conns p1 = p_conns p) by (unfold p1; destruct (url_ok q); [reflexivity|apply done_conns]).
    assert (H1 : Inv None p1).
    { unfold p1. destruct (url_ok q); [exact H|]. apply inv_done with (ex := None); auto. apply not_held. exact NH. }
    destruct (inv_remove p1 (q_id q) (target_of q) H1) as [X Y]; [rewrite C1; exact NH|].
    split; [exact X|]. cbn in *. rewrite done_conns, Y, C1. reflexivity.
  - destruct (q_in q); [auto|]. split; [apply inv_resolve_in; auto|apply resolve_in_conns].
Qed.

Lemma inv_post e p : Inv None p -> Inv None (post_select e p) /\ p_conns (post_select e p) = p_conns (bury e p).
Proof.
  intros H. unfold post_select. destruct (inv_bury e p H) as [X Y]. cbn zeta.
  assert (K : AllOk (bury e p)) by (intros c A; apply Y in A; tauto).
  set (l := ids (bury e p)). clearbody l. revert X K. generalize (bury e p) as r. clear.
  induction l as [|i l IH]; cbn; [auto|]. intros r X K. destruct (inv_post_one e i r X K) as [A C].
  destruct (IH (post_one e i r) A) as [D E]; [unfold AllOk; rewrite C; exact K|]. split; [exact D|congruence].
Qed.

Lemma inv_addurl e pr u h n p : Inv None p -> Inv None (addurl e pr u h n p).
Proof.
  intros H. unfold addurl.
  set (q0 := Req (p_next p) pr u h n true None None true false).
  set (q := if Nat.eqb n 0 then q0 else snd (resolve (dns e (p_tick p) h) q0)).
  assert (Q : q_id q = p_next p /\ q_in q = None /\ q_out q = true).
  { unfold q. destruct (Nat.eqb n 0); [auto|]. destruct (dns e (p_tick p) h); auto. }
  destruct Q as (Q1 & Q2 & Q3). clearbody q. clear q0.
  destruct H. split; cbn [p_urls p_conns p_next p_snext p_eofs]; auto.
  - unfold ids. cbn. rewrite map_app. cbn. apply NoDup_snoc; [exact iA0|]. intros X. apply in_map_iff in X. destruct X as (r & R & X). apply iA'0 in X. lia.
  - intros r A. apply in_app_iff in A. destruct A as [A|[<-|[]]]; [apply iA'0 in A|]; lia.
  - intros c i A C. destruct (iD0 c i A C) as (r & X & Y). exists r. split; [apply in_app_iff; auto|exact Y].
  - intros r s A C. apply in_app_iff in A. destruct A as [A|[<-|[]]]; [eauto|congruence].
  - intros r s A C. apply in_app_iff in A. destruct A as [A|[<-|[]]]; [eauto|congruence].
  - intros i. rewrite iG'0. split.
    + intros [A N]. split; [lia|]. intros (r & R1 & R2 & R3). apply in_app_iff in R1.
      destruct R1 as [R1|[<-|[]]]; [apply N; exists r; auto|lia].
    + intros [A N]. assert (i <> p_next p).
      { intros ->. apply N. exists q. split; [apply in_app_iff; right; left; reflexivity|auto]. }
      split; [lia|]. intros (r & R1 & R2). apply N. exists r. split; [apply in_app_iff; auto|exact R2].
  - intros r A C. apply in_app_iff in A. destruct A as [A|[<-|[]]]; [auto|congruence].
Qed.

(** A new connection. *)
Lemma inv_newconn p t : Inv None p -> (forall c, In c (p_conns p) -> c_to c <> t) ->
  Inv None (Pool (p_urls p) (p_conns p ++ [Conn (p_snext p) t true []]) (p_next p) (S (p_snext p)) (p_tick p) (p_eofs p) (p_crash p)).
Proof.
  intros H F. destruct H. split; cbn [p_urls p_conns p_next p_snext p_eofs]; auto.
  - rewrite map_app. cbn. apply NoDup_snoc; [exact iB0|]. intros X. apply in_map_iff in X. destruct X as (r & R & X). apply iB'0 in X. lia.
  - intros c A. apply in_app_iff in A. destruct A as [A|[<-|[]]]; [apply iB'0 in A; lia|cbn; lia].
  - rewrite map_app. cbn. apply NoDup_snoc; [exact iC0|]. intros X. apply in_map_iff in X. destruct X as (r & R & X). apply (F r X). congruence.
  - intros c i A C. apply in_app_iff in A. destruct A as [A|[<-|[]]]; [eauto|destruct C].
  - intros c A. apply in_app_iff in A. destruct A as [A|[<-|[]]]; [eauto|constructor].
  - intros q s A C. destruct (iE0 q s A C) as (c & X & Y). exists c. split; [apply in_app_iff; auto|exact Y].
Qed.

(** A request given to a connection. *)
Lemma inv_assign p q c : Inv None p -> In q (p_urls p) -> q_in q = None -> q_out q = true -> q_port q <> 0%nat ->
  q_addr q <> None -> In c (p_conns p) -> c_ok c = true ->
  Inv None (upd_conn (c_id c) (add_held (q_id q)) (upd (q_id q) (with_in (Some (c_id c))) p)).
Proof.
  intros H A Q1 Q2 Q3 Q4 C K.
  pose proof (free_not_held p q None H A Q1) as NH.
  set (i := q_id q) in *. set (s := c_id c) in *. unfold upd_conn, upd.
  set (g := fun d => if Nat.eqb (c_id d) s then add_held i d else d).
  set (f := fun r => if Nat.eqb (q_id r) i then with_in (Some s) r else r).
  assert (G1 : forall d, c_id (g d) = c_id d /\ c_to (g d) = c_to d /\ c_ok (g d) = c_ok d).
  { intros d. unfold g. destruct (Nat.eqb _ _); repeat split. }
  assert (F1 : forall r, q_id (f r) = q_id r /\ q_out (f r) = q_out r /\ q_inuse (f r) = q_inuse r /\ q_port (f r) = q_port r /\ q_addr (f r) = q_addr r).
  { intros r. unfold f. destruct (Nat.eqb _ _); repeat split. }
  assert (FQ : forall r, In r (p_urls p) -> q_id r = i -> r = q) by (intros r R E; eapply same_id; eauto).
  assert (GC : forall d, In d (p_conns p) -> c_id d = s -> d = c) by (intros d D E; eapply same_cid; eauto).
  assert (L : forall j, (exists r, In r (map f (p_urls p)) /\ q_id r = j /\ q_out r = true) <-> live p j).
  { intros j. split.
    - intros (r & X & Y & Z). apply in_map_iff in X. destruct X as (x & <- & X).
      destruct (F1 x) as (M1 & M3 & _). exists x. rewrite M1 in Y. rewrite M3 in Z. auto.
    - intros (r & X & Y & Z). exists (f r). destruct (F1 r) as (M1 & M3 & _).
      split; [apply in_map; exact X|]. rewrite M1, M3. auto. }
  destruct H. split; cbn [set_conns set_urls p_urls p_conns p_next p_snext p_eofs]; auto.
  - unfold ids. cbn. rewrite map_map. erewrite map_ext; [exact iA0|]. intros r. apply F1.
  - intros r X. apply in_map_iff in X. destruct X as (x & <- & X). rewrite (proj1 (F1 x)). auto.
  - rewrite map_map. erewrite map_ext; [exact iB0|]. intros r. apply G1.
  - intros r X. apply in_map_iff in X. destruct X as (x & <- & X). rewrite (proj1 (G1 x)). auto.
  - rewrite map_map. erewrite map_ext; [exact iC0|]. intros r. apply G1.
  - intros d j X Y. apply in_map_iff in X. destruct X as (x & <- & X). destruct (G1 x) as (M1 & M2 & M3). rewrite M1, M3.
    assert (Z : In j (c_held x) \/ (j = i /\ x = c)).
    { unfold g in Y. destruct (Nat.eqb_spec (c_id x) s) as [E|E]; [|auto]. cbn in Y. apply in_app_iff in Y.
      destruct Y as [Y|[Y|[]]]; [auto|]. right. auto. }
    destruct Z as [Z|[-> ->]].
    + destruct (iD0 x j X Z) as (r & R1 & R2 & R3 & R4). exists (f r). destruct (F1 r) as (N1 & N2 & _).
      rewrite N1, N2. split; [apply in_map; exact R1|]. split; [exact R2|]. split; [|exact R4].
      unfold f. destruct (Nat.eqb_spec (q_id r) i) as [E|E]; [|exact R3].
      exfalso. apply (NH x X). congruence.
    + exists (f q). destruct (F1 q) as (N1 & N2 & _). rewrite N1, N2. split; [apply in_map; exact A|].
      split; [reflexivity|]. split; [|auto]. unfold f. fold i. rewrite Nat.eqb_refl. reflexivity.
  - intros d X. apply in_map_iff in X. destruct X as (x & <- & X). unfold g.
    destruct (Nat.eqb_spec (c_id x) s); [|auto]. cbn. apply NoDup_snoc; [auto|]. exact (NH x X).
  - intros r t X Y. apply in_map_iff in X. destruct X as (x & <- & X). destruct (F1 x) as (N1 & N2 & _). rewrite N1, N2.
    unfold f in Y. destruct (Nat.eqb_spec (q_id x) i) as [E|E].
    + cbn in Y. injection Y as <-. exists (g c). destruct (G1 c) as (M1 & M2 & M3). rewrite M1.
      split; [apply in_map; exact C|]. split; [reflexivity|]. intros _ _ _. unfold g. fold s. rewrite Nat.eqb_refl.
      cbn. apply in_app_iff. right. left. congruence.
    + destruct (iE0 x t X Y) as (d & D1 & D2 & D3). exists (g d). destruct (G1 d) as (M1 & M2 & M3). rewrite M1, M3.
      split; [apply in_map; exact D1|]. split; [exact D2|]. intros O1 O2 O3. specialize (D3 O1 O2 O3).
      unfold g. destruct (Nat.eqb _ _); [|exact D3]. cbn. apply in_app_iff. left. exact D3.
  - intros r t X Y. apply in_map_iff in X. destruct X as (x & <- & X). destruct (F1 x) as (N1 & N2 & N3 & N4 & N5).
    rewrite N4, N5. unfold f in Y. destruct (Nat.eqb_spec (q_id x) i) as [E|E]; [|eauto].
    rewrite (FQ x X E). auto.
  - intros j. unfold live. cbn. rewrite L. apply iG'0.
  - intros r X Y. apply in_map_iff in X. destruct X as (x & <- & X). destruct (F1 x) as (N1 & N2 & N3 & _).
    rewrite N2 in Y. rewrite N3. auto.
Qed.

(** What stays of a request when connections are taken away. *)
Definition core (q : req) := (q_id q, q_proto q, q_user q, q_host q, q_port q, q_addr q, q_resolving q).

Lemma done_core i p : map core (p_urls (done_req i p)) = map core (p_urls p).
Proof.
  unfold done_req. destruct (find_req i p) as [r|]; [|reflexivity].
  assert (X : map core (map (fun q => if Nat.eqb (q_id q) i then finished q else q) (p_urls p)) = map core (p_urls p)).
  { rewrite map_map. apply map_ext. intros q. destruct (Nat.eqb _ _); reflexivity. }
  destruct (q_out r); exact X.
Qed.

Lemma done_all_core l p : map core (p_urls (done_all l p)) = map core (p_urls p).
Proof. induction l as [|i l IH]; [reflexivity|]. cbn. rewrite done_core. exact IH. Qed.

Lemma unconnect_core e c p : map core (p_urls (unconnect e c p)) = map core (p_urls p).
Proof.
  rewrite unconnect_eq. cbn. rewrite done_all_core. cbn. rewrite map_map. apply map_ext. intros q.
  destruct (q_in q); [destruct (Nat.eqb _ _)|]; reflexivity.
Qed.

Lemma core_find p p' q ex : Inv ex p -> map core (p_urls p') = map core (p_urls p) -> In q (p_urls p) ->
  forall q', find_req (q_id q) p' = Some q' -> core q' = core q.
Proof.
  intros H E A q' F. apply find_req_some in F. destruct F as [F1 F2].
  apply (in_map core) in F1. rewrite E in F1. apply in_map_iff in F1. destruct F1 as (r & R & F1).
  assert (r = q) by (eapply same_id; eauto; unfold core in R; congruence). congruence.
Qed.

Lemma find_conn_none t p : find_conn t p = None -> forall c, In c (p_conns p) -> c_to c <> t.
Proof. intros H c A. apply (find_none _ _ H) in A. destruct (target_dec (c_to c) t); [discriminate|assumption]. Qed.

Lemma find_conn_some t p c : find_conn t p = Some c -> In c (p_conns p) /\ c_to c = t.
Proof. intros H. apply find_some in H. destruct (target_dec (c_to c) t); [tauto|destruct H; discriminate]. Qed.

Lemma same_to {p ex c c'} : Inv ex p -> In c (p_conns p) -> In c' (p_conns p) -> c_to c = c_to c' -> c = c'.
Proof.
  intros H. pose proof (iC ex p H) as N. revert N. generalize (p_conns p) as l.
  induction l as [|x l IH]; cbn; [tauto|]. intros N. inversion N as [|? ? N1 N2]; subst.
  intros [->|A] [->|C] E; auto.
  - destruct N1. rewrite E. apply in_map. exact C.
  - destruct N1. rewrite <- E. apply in_map. exact A.
Qed.

(** What a change leaves in place. *)
Definition about (q : req) := (q_id q, q_proto q, q_user q, q_host q, q_port q).

Record keeps (p p' : pool) : Prop := {
  k1 : forall c, In c (p_conns p) -> c_ok c = true ->
       exists c', In c' (p_conns p') /\ c_id c' = c_id c /\ c_to c' = c_to c /\ c_ok c' = true;
  k2 : forall q c, In q (p_urls p) -> In c (p_conns p) -> c_ok c = true -> q_in q = Some (c_id c) ->
       exists q', In q' (p_urls p') /\ about q' = about q /\ q_in q' = Some (c_id c);
  k3 : forall q', In q' (p_urls p') -> exists q, In q (p_urls p) /\ about q' = about q /\ (q_out q' = true -> q_out q = true) }.

Lemma keeps_refl p : keeps p p.
Proof. split; [eauto|eauto|]. intros q A. exists q. auto. Qed.

Lemma keeps_trans p q r : keeps p q -> keeps q r -> keeps p r.
Proof.
  intros [A1 A2 A3] [C1 C2 C3]. split.
  - intros c X Y. destruct (A1 c X Y) as (d & D1 & D2 & D3 & D4). destruct (C1 d D1 D4) as (f & F1 & F2 & F3 & F4).
    exists f. repeat split; congruence.
  - intros x c X Y Z W. destruct (A1 c Y Z) as (d & D1 & D2 & D3 & D4). destruct (A2 x c X Y Z W) as (y & Y1 & Y2 & Y3).
    rewrite <- D2 in Y3. destruct (C2 y d Y1 D1 D4 Y3) as (z & Z1 & Z2 & Z3). exists z. repeat split; congruence.
  - intros x X. destruct (C3 x X) as (y & Y1 & Y2 & Y3). destruct (A3 y Y1) as (z & Z1 & Z2 & Z3). exists z.
    repeat split; [exact Z1|congruence|auto].
Qed.

Lemma keeps_map f p p' : p_urls p' = map f (p_urls p) -> p_conns p' = p_conns p ->
  (forall q, about (f q) = about q /\ (q_in (f q) = q_in q \/ q_in q = None) /\ (q_out (f q) = true -> q_out q = true)) -> keeps p p'.
Proof.
  intros U C F. split; rewrite ?U, ?C.
  - eauto.
  - intros q c A X Y Z. exists (f q). destruct (F q) as (F1 & F2 & F3). split; [apply in_map; exact A|]. split; [exact F1|].
    destruct F2; congruence.
  - intros q A. apply in_map_iff in A. destruct A as (r & <- & A). destruct (F r) as (F1 & F2 & F3). exists r. auto.
Qed.

Lemma keeps_resolve p i a : keeps p (tick (upd i (fun q => snd (resolve a q)) p)).
Proof.
  eapply keeps_map; [reflexivity|reflexivity|]. intros q. cbn beta. destruct (Nat.eqb (q_id q) i); [destruct a|]; cbn; repeat split; auto.
Qed.

Lemma keeps_done i p : keeps p (done_req i p).
Proof.
  unfold done_req. destruct (find_req i p) as [r|]; [|apply keeps_refl].
  destruct (q_out r); (eapply keeps_map; [reflexivity|reflexivity|]); intros q; cbn beta; destruct (Nat.eqb (q_id q) i); cbn; repeat split; auto; discriminate.
Qed.

Lemma keeps_done_all l p : keeps p (done_all l p).
Proof. induction l as [|i l IH]; [apply keeps_refl|]. cbn. eapply keeps_trans; [exact IH|apply keeps_done]. Qed.

Lemma keeps_cut p c : Inv None p -> In c (p_conns p) -> c_ok c = false -> keeps p (cut (c_id c) p).
Proof.
  intros H A N. split; cbn.
  - intros d X Y. exists d. split; [|auto]. apply filter_In. split; [exact X|]. apply negb_true_iff, Nat.eqb_neq.
    intros E. rewrite (same_cid H X A E) in Y. congruence.
  - intros q d X Y Z W. exists q. split; [|auto]. apply in_map_iff. exists q. split; [|exact X]. rewrite W.
    destruct (Nat.eqb_spec (c_id d) (c_id c)) as [E|E]; [|reflexivity]. rewrite (same_cid H Y A E) in Z. congruence.
  - intros q X. apply in_map_iff in X. destruct X as (r & <- & X). exists r. split; [exact X|].
    destruct (q_in r); [destruct (Nat.eqb _ _)|]; auto.
Qed.

Lemma keeps_unconnect e p c : Inv None p -> In c (p_conns p) -> c_ok c = false -> keeps p (unconnect e c p).
Proof.
  intros H A N. rewrite unconnect_eq. eapply keeps_trans; [apply (keeps_cut p c H A N)|].
  eapply keeps_trans; [apply keeps_done_all|]. eapply keeps_map with (f := fun q => q); [symmetry; apply map_id|reflexivity|auto].
Qed.

Lemma keeps_newconn p t : keeps p (Pool (p_urls p) (p_conns p ++ [Conn (p_snext p) t true []]) (p_next p) (S (p_snext p)) (p_tick p) (p_eofs p) (p_crash p)).
Proof.
  split; cbn.
  - intros c A K. exists c. split; [apply in_app_iff; auto|auto].
  - intros q c A X Y Z. exists q. auto.
  - intros q A. exists q. auto.
Qed.

Lemma keeps_assign p i s : (forall q, In q (p_urls p) -> q_id q = i -> q_in q = None) ->
  keeps p (upd_conn s (add_held i) (upd i (with_in (Some s)) p)).
Proof.
  intros F. split; cbn.
  - intros c A K. exists (if Nat.eqb (c_id c) s then add_held i c else c).
    split; [exact (in_map (fun c => if Nat.eqb (c_id c) s then add_held i c else c) _ c A)|].
    destruct (Nat.eqb (c_id c) s); auto.
  - intros q c A X Y Z. exists q. split; [|auto]. apply in_map_iff. exists q. split; [|exact A].
    destruct (Nat.eqb_spec (q_id q) i) as [E|E]; [|reflexivity]. rewrite (F q A E) in Z. discriminate.
  - intros q A. apply in_map_iff in A. destruct A as (r & <- & A). exists r. split; [exact A|].
    destruct (Nat.eqb _ _); auto.
Qed.

Lemma keeps_crash p : keeps p (crash p).
Proof. eapply keeps_map with (f := fun q => q); [symmetry; apply map_id|reflexivity|auto]. Qed.

(** The moves of execute for one request. *)
Inductive last (e : env) (i : nat) (t : target) : pool -> pool -> Prop :=
| L_done p : (forall q, In q (p_urls p) -> q_id q = i -> q_out q = false) -> last e i t p p
| L_crash p q : In q (p_urls p) -> q_id q = i -> q_proto q = Other -> last e i t p (crash p)
| L_busy p q s c : In q (p_urls p) -> q_id q = i -> q_out q = true -> q_in q = Some s ->
    In c (p_conns p) -> c_to c = t -> c_ok c = true -> last e i t p p
| L_give p q c : In q (p_urls p) -> q_id q = i -> q_out q = true -> q_in q = None ->
    In c (p_conns p) -> c_to c = t -> c_ok c = true ->
    last e i t p (upd_conn (c_id c) (add_held i) (upd i (with_in (Some (c_id c))) p))
| L_new p r : (forall c, In c (p_conns p) -> c_to c <> t) ->
    last e i t (Pool (p_urls p) (p_conns p ++ [Conn (p_snext p) t true []]) (p_next p) (S (p_snext p)) (p_tick p) (p_eofs p) (p_crash p)) r ->
    last e i t p r.

Inductive moves (e : env) (i : nat) (p : pool) : pool -> Prop :=
| M_none : (forall q, In q (p_urls p) -> q_id q = i -> q_out q = false \/ url_ok q = false) -> moves e i p p
| M_wait q : In q (p_urls p) -> q_id q = i -> (forall ip, dns e (p_tick p) (q_host q) <> Got ip) ->
    moves e i p (tick (upd i (fun r => snd (resolve (dns e (p_tick p) (q_host q)) r)) p))
| M_go q ip p1 t p2 p3 : In q (p_urls p) -> q_id q = i -> q_out q = true -> url_ok q = true ->
    dns e (p_tick p) (q_host q) = Got ip ->
    p1 = tick (upd i (fun r => snd (resolve (Got ip) r)) p) -> t = ((ip, q_port q), q_user q) ->
    (p2 = p1 /\ (forall c, In c (p_conns p1) -> c_to c = t -> c_ok c = true) \/
     exists c, In c (p_conns p1) /\ c_to c = t /\ c_ok c = false /\ p2 = unconnect e c p1) ->
    last e i t p2 p3 -> moves e i p p3.

Lemma in_snoc {A} (l : list A) x : In x (l ++ [x]).
Proof. apply in_app_iff. right. left. reflexivity. Qed.

Lemma exec_moves e i p : Inv None p -> p_crash p = false -> moves e i p (exec_one e i p).
Proof.
  intros H NC. unfold exec_one. rewrite NC.
  destruct (find_req i p) as [q|] eqn:E.
  2: { apply M_none. intros q A X. destruct (find_req_none _ _ E q A X). }
  apply find_req_some in E. destruct E as [E1 E2].
  destruct (negb (q_out q) || negb (url_ok q)) eqn:T.
  { apply M_none. intros r A X. assert (r = q) by (apply (same_id H A E1); congruence). subst r.
    apply orb_true_iff in T. rewrite !negb_true_iff in T. exact T. }
  apply orb_false_iff in T. rewrite !negb_false_iff in T. destruct T as [T1 T2].
  rewrite (resolve_in_eq None e q p H E1). cbn zeta. rewrite E2.
  destruct (dns e (p_tick p) (q_host q)) as [| |ip] eqn:D; cbn [resolve fst snd negb].
  1,2: (assert (W : forall ip, dns e (p_tick p) (q_host q) <> Got ip) by (intros ip; rewrite D; discriminate));
       generalize (M_wait e i p q E1 E2 W); rewrite D; auto.
  set (p1 := tick (upd i (fun r => snd (resolve (Got ip) r)) p)).
  assert (H1 : Inv None p1).
  { apply inv_tick. unfold upd. apply inv_mild; [apply mild_at, mild_resolve|exact H]. }
  change (tick (upd i (fun q0 : req => with_dns false (Some (ip, q_port q0)) q0) p)) with p1.
  set (t := target_of (with_dns false (Some (ip, q_port q)) q)).
  assert (Tt : t = ((ip, q_port q), q_user q)) by reflexivity.
  set (sp := match find_conn t p1 with Some c => if c_ok c then (Some c, p1) else (None, unconnect e c p1) | None => (None, p1) end).
  assert (SP : match fst sp with
               | Some c => snd sp = p1 /\ In c (p_conns p1) /\ c_to c = t /\ c_ok c = true
               | None => (snd sp = p1 \/ exists c, In c (p_conns p1) /\ c_to c = t /\ c_ok c = false /\ snd sp = unconnect e c p1) /\
                         (forall c, In c (p_conns (snd sp)) -> c_to c <> t) /\ Inv None (snd sp)
               end).
  { unfold sp. destruct (find_conn t p1) as [c|] eqn:F; cbn.
    - apply find_conn_some in F. destruct F as [F1 F2]. destruct (c_ok c) eqn:K; cbn [fst snd]; [auto|].
      split; [right; exists c; auto|]. split; [|apply inv_unconnect; auto].
      intros d A X. rewrite unconnect_conns in A. apply filter_In in A. destruct A as [A N].
      apply negb_true_iff, Nat.eqb_neq in N. apply N. f_equal. apply (same_to H1 A F1). congruence.
    - split; [auto|]. split; [apply find_conn_none; exact F|exact H1]. }
  destruct sp as [s p2]. cbn [fst snd] in SP.
  assert (GO : forall p3, last e i t p2 p3 -> moves e i p p3).
  { intros p3 L3. eapply M_go; try eassumption; try reflexivity. destruct s as [c|].
    - left. destruct SP as (-> & S2 & S3 & S4). split; [reflexivity|]. intros d D1 D2.
      assert (d = c) by (apply (same_to H1 D1 S2); congruence). congruence.
    - destruct SP as ([->|X] & Y & _); [|right; exact X]. left. split; [reflexivity|]. intros c C1 C2. destruct (Y c C1 C2). }
  apply GO.
  assert (H2 : Inv None p2) by (destruct s; [destruct SP as (-> & _); exact H1|tauto]).
  destruct (find_req i p2) as [q2|] eqn:F.
  2: { apply L_done. intros r A X. destruct (find_req_none _ _ F r A X). }
  apply find_req_some in F. destruct F as [F1 F2].
  destruct (q_out q2) eqn:O; cbn [negb].
  2: { apply L_done. intros r A X. assert (r = q2) by (apply (same_id H2 A F1); congruence). congruence. }
  destruct s as [c|].
  - destruct SP as (-> & S2 & S3 & S4). destruct (q_in q2) as [s|] eqn:I; [eapply L_busy; eauto|eapply L_give; eauto].
  - destruct SP as (S1 & S2 & S3). destruct (q_proto q2) eqn:PP.
    3: { eapply L_crash; eauto. }
    1,2: apply L_new; [exact S2|]; destruct (q_in q2) as [s|] eqn:I;
      [eapply L_busy; cbn; eauto using in_snoc; reflexivity|].
    1,2: refine (L_give e i t _ q2 (Conn (p_snext p2) t true []) _ _ _ _ _ _ _); cbn; auto using in_snoc.
Qed.
