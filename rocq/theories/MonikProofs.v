(** Proofs about monikers. *)
From Verif Require Import Base UrlModel ConfModel IniSpec IniProofs ConfSpec ConfProofs2 MonikSpec MonikModel.
Local Open Scope Z_scope.

Lemma same_iff a b : same a b = true <-> a = b.
Proof. unfold same. destruct (list_eq_dec Ascii.ascii_dec a b); split; congruence. Qed.
Lemma same_not a b : same a b = false <-> a <> b.
Proof. unfold same. destruct (list_eq_dec Ascii.ascii_dec a b); split; congruence. Qed.

(** ** Names *)
Lemma drop_white a x : Forall white a -> drop_space (a ++ x) = drop_space x.
Proof. induction 1 as [|c a W F IH]; [reflexivity|]. cbn [app drop_space]. apply white_isspace in W. rewrite W. exact IH. Qed.
Lemma trim_unique a t b : Forall white a -> Forall white b -> trimmed t -> trim_string (a ++ t ++ b) = t.
Proof.
  intros A C T. unfold trim_string. rewrite !rev_app_distr, <- app_assoc. rewrite drop_white by (apply Forall_rev, C).
  destruct t as [|c t]; [cbn [rev app]; rewrite <- (app_nil_r (rev a)), drop_white by (apply Forall_rev, A); reflexivity|].
  destruct (exists_last (l := c :: t)) as (u & d & E); [discriminate|]. pose proof T as T'. rewrite E in T'. apply trimmed_last in T'.
  rewrite E, rev_app_distr. cbn [rev app drop_space]. rewrite T'.
  replace (d :: rev u ++ rev a) with (rev (a ++ u ++ [d])) by (rewrite !rev_app_distr; cbn [rev app]; reflexivity).
  rewrite rev_involutive, drop_white by exact A. rewrite <- E. cbn [drop_space]. apply trimmed_head in T. rewrite T. reflexivity.
Qed.
Lemma split_names s id rest : names s id rest -> split s = (id, rest).
Proof.
  intros (a & t & b & -> & A & C & T & N & O). unfold split. rewrite trim_unique by assumption. destruct O as [E|[E R]].
  - assert (X : cut t ":" = Some (id, rest)) by (apply cut_iff; auto). rewrite X. reflexivity.
  - subst. assert (X : cut id ":" = None) by (apply cut_none; exact N). rewrite X. reflexivity.
Qed.

(** ** Lists *)
Fixpoint countb {A} (p : A -> bool) (l : list A) : Z := match l with [] => 0 | x :: l => (if p x then 1 else 0) + countb p l end.
Lemma countb_app {A} (p : A -> bool) l l' : countb p (l ++ l') = countb p l + countb p l'.
Proof. induction l as [|x l IH]; cbn [app countb]; lia. Qed.
Lemma countb_pos {A} (p : A -> bool) l : 0 <= countb p l.
Proof. induction l as [|x l IH]; cbn [countb]; [lia|]. destruct (p x); lia. Qed.
Lemma countb_in {A} (p : A -> bool) l x : In x l -> p x = true -> 0 < countb p l.
Proof. induction l as [|y l IH]; [intros []|]. intros [->|I] E; cbn [countb]; [rewrite E; pose proof (countb_pos p l); lia|]. specialize (IH I E). destruct (p y); lia. Qed.

Definition of_m (i : nat) (m : moniker) : bool := Nat.eqb (iface m) i.
Definition of_c (i : nat) (c : call) : bool := Nat.eqb (call_iface c) i.
Definition uses (i : nat) (ms : list moniker) (cs : list call) : Z := countb (of_m i) ms + countb (of_c i) cs.
Definition table (i : nat) (ms : list moniker) : list (bytes * nat) := map (fun m => (name m, factory m)) (filter (of_m i) ms).

Record inv (ms : list moniker) (cs : list call) (w : world) : Prop := Inv {
  i_some : forall i a, regs w i = Some a -> heap w a = Some (Registry i (1 + uses i ms cs) (table i ms)) /\ 0 < uses i ms cs;
  i_none : forall i, regs w i = None -> uses i ms cs = 0;
  i_heap : forall a r, heap w a = Some r -> regs w (reg_iid r) = Some a;
  i_fresh : forall a, (fresh w <= a)%nat -> heap w a = None;
  i_m : forall m, In m ms -> exists a, regs w (iface m) = Some a /\ objects w (handle m) = Some (a, name m);
  i_c : forall c, In c cs -> exists a, regs w (call_iface c) = Some a /\ calls w (number c) = Some a;
  i_nm : NoDup (map handle ms);
  i_nc : NoDup (map number cs) }.

Lemma inv_empty : inv [] [] empty_world.
Proof. constructor; cbn; try discriminate; try reflexivity; try tauto; constructor. Qed.

Lemma upd_eq {A} (f : nat -> A) k v : upd f k v k = v.
Proof. unfold upd. rewrite Nat.eqb_refl. reflexivity. Qed.
Lemma upd_neq {A} (f : nat -> A) k v x : x <> k -> upd f k v x = f x.
Proof. intros. unfold upd. destruct (Nat.eqb_spec x k); congruence. Qed.

Lemma table_none i ms : countb (of_m i) ms = 0 -> table i ms = [].
Proof.
  unfold table. induction ms as [|m ms IH]; cbn [countb filter]; [reflexivity|]. pose proof (countb_pos (of_m i) ms).
  destruct (of_m i m); intros; [lia|]. apply IH. lia.
Qed.
Lemma uses_none i ms cs : uses i ms cs = 0 -> countb (of_m i) ms = 0 /\ countb (of_c i) cs = 0.
Proof. unfold uses. pose proof (countb_pos (of_m i) ms). pose proof (countb_pos (of_c i) cs). lia. Qed.

(** Between a find_reg() for interface [i] and what is done with it. *)
Record mid (i a : nat) (ms : list moniker) (cs : list call) (w : world) : Prop := Mid {
  m_at : regs w i = Some a /\ heap w a = Some (Registry i (2 + uses i ms cs) (table i ms));
  m_some : forall j b, j <> i -> regs w j = Some b -> b <> a /\ heap w b = Some (Registry j (1 + uses j ms cs) (table j ms)) /\ 0 < uses j ms cs;
  m_none : forall j, regs w j = None -> uses j ms cs = 0;
  m_heap : forall b r, heap w b = Some r -> regs w (reg_iid r) = Some b;
  m_fresh : forall b, (fresh w <= b)%nat -> heap w b = None;
  m_m : forall m, In m ms -> exists b, regs w (iface m) = Some b /\ objects w (handle m) = Some (b, name m);
  m_c : forall c, In c cs -> exists b, regs w (call_iface c) = Some b /\ calls w (number c) = Some b }.

Lemma find_ok i ms cs w : inv ms cs w -> exists w' a, find_reg w i = Ok (w', a) /\ mid i a ms cs w'.
Proof.
  intros [IS IN IH IF IM IC _ _]. unfold find_reg. destruct (regs w i) as [a|] eqn:R.
  - destruct (IS _ _ R) as (H & P). unfold deref. rewrite H. cbn [bind reg_iid refcount registrations].
    eexists _, _. split; [reflexivity|]. constructor; cbn [store heap fresh regs objects calls].
    + split; [exact R|]. rewrite upd_eq. do 2 f_equal. lia.
    + intros j b N J. assert (b <> a). { intros ->. apply IS in J. destruct J as (J & _). rewrite H in J. congruence. }
      split; [assumption|]. rewrite upd_neq by assumption. apply IS, J.
    + exact IN.
    + intros b r. unfold upd. destruct (Nat.eqb_spec b a) as [->|]; [|apply IH]. intros E. injection E as <-. exact R.
    + intros b L. unfold upd. destruct (Nat.eqb_spec b a) as [->|]; [|auto]. rewrite IF in H by exact L. discriminate.
    + exact IM.
    + exact IC.
  - unfold deref. cbn [heap]. rewrite upd_eq. cbn [bind reg_iid refcount registrations]. pose proof (IN _ R) as U. destruct (uses_none _ _ _ U) as [U1 U2].
    eexists _, _. split; [reflexivity|]. constructor; cbn [store heap fresh regs objects calls].
    + rewrite !upd_eq. split; [reflexivity|]. rewrite U, (table_none _ _ U1). reflexivity.
    + intros j b N J. rewrite upd_neq in J by exact N. destruct (IS _ _ J) as (H & P).
      assert (b <> fresh w). { intros ->. rewrite IF in H by lia. discriminate. }
      split; [assumption|]. rewrite !upd_neq by assumption. auto.
    + intros j. unfold upd. destruct (Nat.eqb_spec j i); [discriminate|]. apply IN.
    + intros b r. unfold upd at 1 2. destruct (Nat.eqb_spec b (fresh w)) as [->|].
      * intros E. injection E as <-. cbn [reg_iid]. rewrite upd_eq. reflexivity.
      * intros E. apply IH in E. unfold upd. destruct (Nat.eqb_spec (reg_iid r) i); congruence.
    + intros b L. rewrite !upd_neq by lia. apply IF. lia.
    + intros m M. destruct (IM _ M) as (b & B1 & B2). exists b. split; [|exact B2]. unfold upd. destruct (Nat.eqb_spec (iface m) i); congruence.
    + intros c M. destruct (IC _ M) as (b & B1 & B2). exists b. split; [|exact B2]. unfold upd. destruct (Nat.eqb_spec (call_iface c) i); congruence.
Qed.

Lemma existsb_table i id ms : existsb (fun x => same (fst x) id) (table i ms) = true -> exists m, In m ms /\ iface m = i /\ name m = id.
Proof.
  intros H. apply existsb_exists in H. destruct H as (x & I & E). unfold table in I. apply in_map_iff in I. destruct I as (m & <- & I).
  apply filter_In in I. destruct I as (I & O). apply same_iff in E. exists m. split; [exact I|]. split; [apply Nat.eqb_eq, O|exact E].
Qed.

Lemma find_table i id ms m : newest i id ms m -> find (fun x => same (fst x) id) (table i ms) = Some (id, factory m).
Proof.
  unfold table. induction 1 as [m ms E1 E2|m ms m' N H IH]; cbn [filter]; unfold of_m at 1.
  - rewrite (proj2 (Nat.eqb_eq _ _) E1). cbn [map find fst]. rewrite (proj2 (same_iff _ _) E2). congruence.
  - destruct (Nat.eqb_spec (iface m) i) as [E|E]; [|exact IH]. cbn [map find fst]. destruct N as [N|N]; [congruence|].
    rewrite (proj2 (same_not _ _) N). exact IH.
Qed.
Lemma find_none i id ms : (forall m, In m ms -> iface m <> i \/ name m <> id) -> find (fun x => same (fst x) id) (table i ms) = None.
Proof.
  unfold table. induction ms as [|m ms IH]; intros H; cbn [filter]; [reflexivity|]. unfold of_m at 1.
  assert (IH' := IH (fun x I => H x (or_intror I))). destruct (Nat.eqb_spec (iface m) i) as [E|E]; [|exact IH'].
  cbn [map find fst]. destruct (H m (or_introl eq_refl)) as [N|N]; [congruence|]. rewrite (proj2 (same_not _ _) N). exact IH'.
Qed.
Lemma newest_first i id ms1 m ms2 : NoDup (map handle (ms1 ++ m :: ms2)) -> newest i id (ms1 ++ m :: ms2) m ->
  iface m = i /\ name m = id /\ Forall (fun x => iface x <> i \/ name x <> id) ms1.
Proof.
  induction ms1 as [|x ms1 IH]; cbn [app map]; intros ND H; inversion H as [? ? E1 E2|? ? ? N H']; subst.
  - auto.
  - exfalso. inversion ND; subst. assert (G : forall l, newest i id l m -> In m l) by (induction 1; cbn; auto). apply G in H'.
    apply (in_map handle) in H'. contradiction.
  - exfalso. inversion ND as [|? ? X]; subst. apply X. rewrite map_app. apply in_or_app. right. left. reflexivity.
  - inversion ND; subst. destruct (IH H3 H') as (A & C & D). auto.
Qed.
Lemma unlink_table i ms1 m ms2 : iface m = i -> Forall (fun x => iface x <> i \/ name x <> name m) ms1 ->
  unlink (name m) (table i (ms1 ++ m :: ms2)) = Some (table i (ms1 ++ ms2)).
Proof.
  intros E F. unfold table. induction F as [|x ms1 N F IH]; cbn [app filter].
  - replace (of_m i m) with true by (symmetry; apply Nat.eqb_eq, E). cbn [map unlink fst]. rewrite (proj2 (same_iff _ _) eq_refl). reflexivity.
  - destruct (of_m i x) eqn:E'; [|exact IH]. apply Nat.eqb_eq in E'. cbn [map unlink fst]. destruct N as [N|N]; [congruence|].
    rewrite (proj2 (same_not _ _) N). rewrite IH. reflexivity.
Qed.

(** Letting go of a registry. *)
Lemma release_ok i a ms cs w : mid i a ms cs w ->
  exists w', release w a = Ok w' /\ objects w' = objects w /\ calls w' = calls w /\
    (NoDup (map handle ms) -> NoDup (map number cs) -> inv ms cs w').
Proof.
  intros [[R H] MS MN MH MF MM MC]. unfold release, deref. rewrite H. cbn [bind reg_iid refcount registrations].
  assert (U : 0 <= uses i ms cs) by (unfold uses; pose proof (countb_pos (of_m i) ms); pose proof (countb_pos (of_c i) cs); lia).
  destruct (Z.ltb_spec 1 (2 + uses i ms cs - 1)) as [Q|Q].
  - eexists. split; [reflexivity|]. split; [reflexivity|]. split; [reflexivity|]. intros N1 N2. constructor; cbn [store heap fresh regs objects calls]; auto.
    + intros j b J. destruct (Nat.eq_dec j i) as [->|N].
      * assert (b = a) by congruence. subst. rewrite upd_eq. split; [do 2 f_equal; lia|lia].
      * destruct (MS j b N J) as (A & C & D). rewrite upd_neq by exact A. auto.
    + intros b r. unfold upd. destruct (Nat.eqb_spec b a) as [->|]; [|apply MH]. intros E. injection E as <-. exact R.
    + intros b L. unfold upd. destruct (Nat.eqb_spec b a) as [->|]; [|auto]. rewrite MF in H by exact L. discriminate.
  - assert (Z0 : uses i ms cs = 0) by lia. destruct (uses_none _ _ _ Z0) as [U1 U2]. rewrite Z0. change (2 + 0 - 1 =? 1) with true. cbv iota.
    eexists. split; [reflexivity|]. split; [reflexivity|]. split; [reflexivity|]. intros N1 N2. constructor; cbn [heap fresh regs objects calls]; auto.
    + intros j b. unfold upd at 1. destruct (Nat.eqb_spec j i) as [->|N]; [discriminate|]. intros J.
      destruct (MS j b N J) as (A & C & D). rewrite upd_neq by exact A. auto.
    + intros j. unfold upd. destruct (Nat.eqb_spec j i) as [->|N]; [auto|apply MN].
    + intros b r. unfold upd at 1. destruct (Nat.eqb_spec b a) as [->|N]; [discriminate|]. intros E. pose proof (MH _ _ E) as E'.
      unfold upd. destruct (Nat.eqb_spec (reg_iid r) i); congruence.
    + intros b L. unfold upd. destruct (Nat.eqb_spec b a); auto.
    + intros m M. destruct (MM _ M) as (b & B1 & B2). exists b. split; [|exact B2]. unfold upd. destruct (Nat.eqb_spec (iface m) i) as [E|]; [|exact B1].
      exfalso. pose proof (countb_in (of_m i) ms m M (proj2 (Nat.eqb_eq _ _) E)). lia.
    + intros c M. destruct (MC _ M) as (b & B1 & B2). exists b. split; [|exact B2]. unfold upd. destruct (Nat.eqb_spec (call_iface c) i) as [E|]; [|exact B1].
      exfalso. pose proof (countb_in (of_c i) cs c M (proj2 (Nat.eqb_eq _ _) E)). lia.
Qed.

Lemma nodup_drop {A} (l1 : list A) x l2 : NoDup (l1 ++ x :: l2) -> NoDup (l1 ++ l2) /\ ~ In x (l1 ++ l2).
Proof. intros H. apply NoDup_remove in H. exact H. Qed.

Lemma uses_m i m ms1 ms2 cs : uses i (ms1 ++ m :: ms2) cs = (if of_m i m then 1 else 0) + uses i (ms1 ++ ms2) cs.
Proof. unfold uses. rewrite !countb_app. cbn [countb]. lia. Qed.
Lemma uses_c i c ms cs1 cs2 : uses i ms (cs1 ++ c :: cs2) = (if of_c i c then 1 else 0) + uses i ms (cs1 ++ cs2).
Proof. unfold uses. rewrite !countb_app. cbn [countb]. lia. Qed.
Lemma table_m i m ms1 ms2 : of_m i m = false -> table i (ms1 ++ m :: ms2) = table i (ms1 ++ ms2).
Proof. intros E. unfold table. rewrite !filter_app. cbn [filter]. rewrite E. reflexivity. Qed.

Lemma step_ok x o y r w : step x o y r -> inv (fst x) (snd x) w -> exists w', run1 o w = Ok (w', r) /\ inv (fst y) (snd y) w'.
Proof.
  intros S I. destruct S as [ms cs h i id f ov NH NO|ms1 m ms2 cs NW|ms cs c i s id rest m NC NA NW|ms cs c i s id rest NC NA NU|ms cs1 c cs2]; cbn [fst snd] in *.
  - destruct (find_ok i ms cs w I) as (w1 & a & F & [[R H] MS MN MH MF MM MC]). cbn [run1]. rewrite F. cbn [bind].
    unfold add, deref. rewrite H. cbn [bind reg_iid refcount registrations].
    assert (X : negb ov && existsb (fun x => same (fst x) id) (table i ms) = false).
    { destruct ov; [reflexivity|]. cbn [negb andb]. destruct (existsb _ _) eqn:E; [|reflexivity]. apply existsb_table in E.
      destruct E as (m & M & E1 & E2). destruct (NO eq_refl m M); congruence. }
    rewrite X. cbn [bind]. eexists. split; [reflexivity|].
    assert (U : forall j, uses j (Moniker h i id f :: ms) cs = (if Nat.eqb i j then 1 else 0) + uses j ms cs).
    { intros j. apply (uses_m j (Moniker h i id f) [] ms cs). }
    destruct I as [_ _ _ _ _ _ I1 I2]. constructor; cbn [store heap fresh regs objects calls]; auto.
    + intros j b J. rewrite U. destruct (Nat.eqb_spec i j) as [<-|N].
      * assert (b = a) by congruence. subst. rewrite upd_eq. unfold table at 2. cbn [filter]. unfold of_m at 1. cbn [iface]. rewrite Nat.eqb_refl.
        cbn [map name factory]. fold (table i ms). split; [do 2 f_equal; lia|]. unfold uses. pose proof (countb_pos (of_m i) ms). pose proof (countb_pos (of_c i) cs). lia.
      * destruct (MS j b) as (A & C & D); [congruence|exact J|]. rewrite upd_neq by exact A. assert (T := table_m j (Moniker h i id f) [] ms). cbn [app] in T. rewrite T; [|unfold of_m; cbn; apply Nat.eqb_neq; exact N].
        split; [exact C|lia].
    + intros j J. rewrite U. destruct (Nat.eqb_spec i j) as [<-|N]; [congruence|]. rewrite (MN _ J). reflexivity.
    + intros b r. unfold upd. destruct (Nat.eqb_spec b a) as [->|]; [|apply MH]. intros E. injection E as <-. exact R.
    + intros b L. unfold upd. destruct (Nat.eqb_spec b a) as [->|]; [|auto]. rewrite MF in H by exact L. discriminate.
    + intros m [<-|M]; cbn [iface handle name].
      * exists a. rewrite upd_eq. auto.
      * destruct (MM _ M) as (b & B1 & B2). exists b. split; [exact B1|]. rewrite upd_neq; [exact B2|]. intros E. apply NH. rewrite <- E. apply in_map, M.
    + cbn [map handle]. constructor; assumption.
  - destruct I as [IS IN IH IF IM IC I1 I2]. pose proof (newest_first _ _ _ _ _ I1 NW) as (_ & _ & F).
    destruct (IM m) as (a & A1 & A2); [apply in_elt|]. destruct (IS _ _ A1) as (H & P). cbn [run1]. rewrite A2.
    unfold del, deref. rewrite H. cbn [bind reg_iid refcount registrations]. rewrite (unlink_table _ ms1 m ms2 eq_refl F). cbn [bind].
    rewrite map_app in I1. cbn [map] in I1. destruct (nodup_drop _ _ _ I1) as [I1' NI]. rewrite <- map_app in I1', NI.
    set (w1 := store w a _). assert (M : mid (iface m) a (ms1 ++ ms2) cs w1).
    { unfold w1. constructor; cbn [store heap fresh regs objects calls].
      - split; [exact A1|]. rewrite upd_eq. rewrite uses_m. unfold of_m. rewrite Nat.eqb_refl. do 2 f_equal. lia.
      - intros j b N J. destruct (IS _ _ J) as (H' & P'). assert (b <> a) by (intros ->; congruence). split; [assumption|]. rewrite upd_neq by assumption.
        assert (O : of_m j m = false) by (unfold of_m; apply Nat.eqb_neq; congruence). rewrite uses_m, O in H', P'. rewrite table_m in H' by exact O. auto.
      - intros j J. pose proof (IN _ J) as X. rewrite uses_m in X. destruct (of_m j m) eqn:O; [|exact X]. apply Nat.eqb_eq in O. congruence.
      - intros b r. unfold upd. destruct (Nat.eqb_spec b a) as [->|]; [|apply IH]. intros E. injection E as <-. exact A1.
      - intros b L. unfold upd. destruct (Nat.eqb_spec b a) as [->|]; [|auto]. rewrite IF in H by exact L. discriminate.
      - intros x X. apply IM. apply in_app_iff in X. apply in_or_app. destruct X; [left|right; right]; assumption.
      - exact IC. }
    destruct (release_ok _ _ _ _ _ M) as (w2 & R & O & C & K). rewrite R. cbn [bind]. eexists. split; [reflexivity|].
    destruct (K I1' I2) as [KS KN KH KF KM KC _ _]. constructor; cbn [heap fresh regs objects calls]; auto.
    intros x X. destruct (KM _ X) as (b & B1 & B2). exists b. split; [exact B1|]. rewrite upd_neq; [exact B2|]. intros E. apply NI. rewrite <- E. apply in_map, X.
  - destruct (find_ok i ms cs w I) as (w1 & a & F & [[R H] MS MN MH MF MM MC]). cbn [run1]. rewrite F. cbn [bind].
    unfold deref. rewrite H. cbn [bind]. unfold lookup. cbn [registrations]. rewrite (split_names _ _ _ NA), (find_table _ _ _ _ NW).
    eexists. split; [reflexivity|]. destruct I as [_ _ _ _ _ _ I1 I2].
    assert (U : forall j, uses j ms (Call c i :: cs) = (if Nat.eqb i j then 1 else 0) + uses j ms cs) by (intros j; apply (uses_c j (Call c i) ms [] cs)).
    constructor; cbn [heap fresh regs objects calls]; auto.
    + intros j b J. rewrite U. destruct (Nat.eqb_spec i j) as [<-|N].
      * assert (b = a) by congruence. subst. split; [rewrite H; do 2 f_equal; lia|]. unfold uses. pose proof (countb_pos (of_m i) ms). pose proof (countb_pos (of_c i) cs). lia.
      * destruct (MS j b) as (A & C & D); [congruence|exact J|]. split; [exact C|lia].
    + intros j J. rewrite U. destruct (Nat.eqb_spec i j) as [<-|N]; [congruence|]. rewrite (MN _ J). reflexivity.
    + intros x [<-|X]; cbn [call_iface number]; [exists a; rewrite upd_eq; auto|]. destruct (MC _ X) as (b & B1 & B2). exists b. split; [exact B1|].
      rewrite upd_neq; [exact B2|]. intros E. apply NC. rewrite <- E. apply in_map, X.
    + cbn [map number]. constructor; assumption.
  - destruct (find_ok i ms cs w I) as (w1 & a & F & [[R H] MS MN MH MF MM MC]). cbn [run1]. rewrite F. cbn [bind].
    unfold deref. rewrite H. cbn [bind]. unfold lookup. cbn [registrations]. rewrite (split_names _ _ _ NA), (find_none _ _ _ NU).
    eexists. split; [reflexivity|]. destruct I as [_ _ _ _ _ _ I1 I2].
    assert (U : forall j, uses j ms (Call c i :: cs) = (if Nat.eqb i j then 1 else 0) + uses j ms cs) by (intros j; apply (uses_c j (Call c i) ms [] cs)).
    constructor; cbn [heap fresh regs objects calls]; auto.
    + intros j b J. rewrite U. destruct (Nat.eqb_spec i j) as [<-|N].
      * assert (b = a) by congruence. subst. split; [rewrite H; do 2 f_equal; lia|]. unfold uses. pose proof (countb_pos (of_m i) ms). pose proof (countb_pos (of_c i) cs). lia.
      * destruct (MS j b) as (A & C & D); [congruence|exact J|]. split; [exact C|lia].
    + intros j J. rewrite U. destruct (Nat.eqb_spec i j) as [<-|N]; [congruence|]. rewrite (MN _ J). reflexivity.
    + intros x [<-|X]; cbn [call_iface number]; [exists a; rewrite upd_eq; auto|]. destruct (MC _ X) as (b & B1 & B2). exists b. split; [exact B1|].
      rewrite upd_neq; [exact B2|]. intros E. apply NC. rewrite <- E. apply in_map, X.
    + cbn [map number]. constructor; assumption.
  - destruct I as [IS IN IH IF IM IC I1 I2].
    destruct (IC c) as (a & A1 & A2); [apply in_elt|]. destruct (IS _ _ A1) as (H & P). cbn [run1]. rewrite A2.
    rewrite map_app in I2. cbn [map] in I2. destruct (nodup_drop _ _ _ I2) as [I2' NI]. rewrite <- map_app in I2', NI.
    assert (M : mid (call_iface c) a ms (cs1 ++ cs2) w).
    { constructor; auto.
      - split; [exact A1|]. rewrite H, uses_c. unfold of_c. rewrite Nat.eqb_refl. do 2 f_equal. lia.
      - intros j b N J. destruct (IS _ _ J) as (H' & P'). assert (b <> a) by (intros ->; congruence). split; [assumption|].
        assert (O : of_c j c = false) by (unfold of_c; apply Nat.eqb_neq; congruence). rewrite uses_c, O in H', P'. auto.
      - intros j J. pose proof (IN _ J) as X. rewrite uses_c in X. destruct (of_c j c) eqn:O; [|exact X]. apply Nat.eqb_eq in O. congruence.
      - intros x X. apply IC. apply in_app_iff in X. apply in_or_app. destruct X; [left|right; right]; assumption. }
    destruct (release_ok _ _ _ _ _ M) as (w2 & R & O & C & K). rewrite R. cbn [bind]. eexists. split; [reflexivity|].
    destruct (K I1 I2') as [KS KN KH KF KM KC _ _]. constructor; cbn [heap fresh regs objects calls]; auto.
    intros x X. destruct (KC _ X) as (b & B1 & B2). exists b. split; [exact B1|]. rewrite upd_neq; [exact B2|]. intros E. apply NI. rewrite <- E. apply in_map, X.
Qed.

Lemma steps_ok x ops y rs : steps x ops y rs -> forall w, inv (fst x) (snd x) w -> exists w', run ops w = Ok (w', rs) /\ inv (fst y) (snd y) w'.
Proof.
  induction 1 as [x|x o y ops z r rs S H IH]; intros w I; cbn [run]; [eauto|].
  destruct (step_ok _ _ _ _ _ S I) as (w1 & R & I1). rewrite R. cbn [bind]. destruct (IH _ I1) as (w2 & R2 & I2). rewrite R2. cbn [bind]. eauto.
Qed.
