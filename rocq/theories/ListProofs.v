(** Proofs about the linked list. *)
From Verif Require Import Base BaseFacts ListModel ListSpec.

Definition nxt (m : nat -> option link) (a : nat) : option (option nat) := option_map k_next (m a).
Definition el (m : nat -> option link) (a : nat) : option elem :=
  option_map (fun k => (k_data k, k_auto k)) (m a).

Fixpoint path (m : nat -> option link) (p : nat) (xs : list nat) : Prop :=
  match xs with [] => True | b :: r => nxt m p = Some (Some b) /\ path m b r end.
Definition linked (m : nat -> option link) (p : nat) (xs : list nat) : Prop :=
  path m p xs /\ nxt m (last xs p) = Some None.

Lemma last_cons {A} (b : A) r p : last (b :: r) p = last r b.
Proof.
  revert b p; induction r as [|c r IH]; intros b p; [reflexivity|].
  change (last (b :: c :: r) p) with (last (c :: r) p). rewrite (IH c p), (IH c b). reflexivity.
Qed.

Lemma last_app_cons {A} (xs : list A) b ys p : last (xs ++ b :: ys) p = last ys b.
Proof.
  revert p; induction xs as [|x xs IH]; intros p; cbn [app].
  - apply last_cons.
  - rewrite last_cons. apply IH.
Qed.

Lemma path_app m p xs ys : path m p (xs ++ ys) <-> path m p xs /\ path m (last xs p) ys.
Proof.
  revert p; induction xs as [|x xs IH]; intros p; cbn [app path].
  - cbn. tauto.
  - rewrite IH, last_cons. tauto.
Qed.

Lemma path_frame m m' p xs : (forall x, In x (removelast (p :: xs)) -> nxt m' x = nxt m x) ->
  path m p xs -> path m' p xs.
Proof.
  revert p; induction xs as [|x xs IH]; intros p H; cbn [path]; [auto|].
  intros [H1 H2]. split.
  - rewrite H by (cbn; auto). assumption.
  - apply IH; [|assumption]. intros y Hy. apply H. cbn [removelast] in *. right. assumption.
Qed.

Lemma in_removelast {A} (x : A) l : In x (removelast l) -> In x l.
Proof. destruct l as [|y l]; [cbn; tauto|]. rewrite (app_removelast_last y (l := y :: l)) at 2 by discriminate. intros. apply in_or_app. auto. Qed.

Lemma path_frame' m m' p xs : (forall x, In x (p :: xs) -> nxt m' x = nxt m x) ->
  path m p xs -> path m' p xs.
Proof. intros H. apply path_frame. intros x Hx. apply H. apply in_removelast. assumption. Qed.

Lemma last_in {A} (xs : list A) p : In (last xs p) (p :: xs).
Proof.
  revert p; induction xs as [|x xs IH]; intros p; [cbn; auto|]. rewrite last_cons. right. apply IH.
Qed.

Lemma removelast_last_nodup {A} (p : A) xs : NoDup (p :: xs) -> ~ In (last xs p) (removelast (p :: xs)).
Proof.
  intros H. pose proof (app_removelast_last p (l := p :: xs) ltac:(discriminate)) as E.
  rewrite last_cons in E. rewrite E in H. apply NoDup_remove_2 in H. rewrite app_nil_r in H. assumption.
Qed.

Lemma linked_frame m m' p xs : (forall x, In x (p :: xs) -> nxt m' x = nxt m x) ->
  linked m p xs -> linked m' p xs.
Proof.
  intros H [H1 H2]. split; [eapply path_frame'; eassumption|]. rewrite H; [assumption|]. apply last_in.
Qed.

Lemma linked_app m p xs ys : linked m p (xs ++ ys) <-> path m p xs /\ linked m (last xs p) ys.
Proof.
  unfold linked. rewrite path_app.
  assert (E : last (xs ++ ys) p = last ys (last xs p)).
  { revert p; induction xs as [|x xs IH]; intros p; [reflexivity|]. cbn [app]. rewrite !last_cons. apply IH. }
  rewrite E. tauto.
Qed.

(** The representation invariant; [xs] are the addresses. *)
Record rep (w : wlist) (xs : list nat) (l : list elem) (freed : list nat) : Prop := Rep
  { r_link : linked (l_mem w) 0 xs;
    r_dup : NoDup (0 :: xs);
    r_lt : forall x, In x (0 :: xs) -> x < l_fresh w;
    r_tail : l_tail w = last xs 0;
    r_el : map (el (l_mem w)) xs = map Some l;
    r_free : l_freed w = freed }.

Lemma rep_len w xs l f : rep w xs l f -> length xs = length l.
Proof. intros R. pose proof (f_equal (@length _) (r_el _ _ _ _ R)) as E. rewrite !map_length in E. assumption. Qed.

Lemma rep_bound w xs l f : rep w xs l f -> S (length l) <= l_fresh w.
Proof.
  intros R. rewrite <- (rep_len _ _ _ _ R).
  assert (H : incl (0 :: xs) (seq 0 (l_fresh w))).
  { intros x Hx. apply in_seq. pose proof (r_lt _ _ _ _ R x Hx). lia. }
  pose proof (NoDup_incl_length (r_dup _ _ _ _ R) H) as L. rewrite seq_length in L. cbn in L. lia.
Qed.

Lemma nxt_inv m a n : nxt m a = Some n -> exists k, m a = Some k /\ k_next k = n.
Proof. unfold nxt. destruct (m a) as [k|]; [|discriminate]. cbn. intros E. injection E as <-. eauto. Qed.

Lemma upd_same {A} (m : nat -> A) a v : upd m a v a = v.
Proof. unfold upd. rewrite Nat.eqb_refl. reflexivity. Qed.
Lemma upd_other {A} (m : nat -> A) a v x : x <> a -> upd m a v x = m x.
Proof. intros H. unfold upd. apply Nat.eqb_neq in H. rewrite H. reflexivity. Qed.

Lemma map_eq_on {A C} (f g : A -> C) xs : (forall x, In x xs -> f x = g x) -> map f xs = map g xs.
Proof. apply map_ext_in. Qed.

Lemma app_eq_len_inv {A} (a b c d : list A) : length a = length c -> a ++ b = c ++ d -> a = c /\ b = d.
Proof.
  revert c; induction a as [|x a IH]; intros [|y c] H E; try discriminate; [auto|].
  cbn in *. injection E as -> E. destruct (IH c ltac:(lia) E) as [-> ->]. auto.
Qed.

Lemma add_after_ok w xs ys l1 l2 f d auto : rep w (xs ++ ys) (l1 ++ l2) f -> length xs = length l1 ->
  exists w', add_after w (last xs 0) d auto = Ok w' /\ rep w' (xs ++ l_fresh w :: ys) (l1 ++ (d, auto) :: l2) f.
Proof.
  intros [L D B T E F] Hlen.
  pose proof (proj1 (linked_app _ _ _ _) L) as [P L2].
  set (a := last xs 0) in *. set (n := l_fresh w) in *.
  assert (Ha : In a (0 :: xs)) by apply last_in.
  assert (Han : a <> n) by (intros E'; specialize (B a); rewrite E' in B; fold n in B; enough (n < n) by lia; apply B; rewrite <- E'; destruct Ha; [left; assumption|right; apply in_or_app; auto]).
  assert (Hn : ~ In n (0 :: xs ++ ys)) by (intros H; specialize (B n H); fold n in B; lia).
  assert (Hnx : exists k, l_mem w a = Some k).
  { destruct L2 as [L2 L2']. destruct ys as [|y ys].
    - cbn in L2'. destruct (nxt_inv _ _ _ L2') as (k & ? & _). eauto.
    - cbn [path] in L2. destruct L2 as [L2 _]. destruct (nxt_inv _ _ _ L2) as (k & ? & _). eauto. }
  destruct Hnx as [k Hk]. unfold add_after, set_next, lread. rewrite Hk. cbn [of_opt bind l_mem].
  fold n. rewrite upd_other by assumption. rewrite Hk. cbn [of_opt bind].
  eexists. split; [reflexivity|]. cbn [l_fresh l_tail l_freed].
  set (m1 := upd (l_mem w) n (Some (Link d (k_next k) auto))).
  set (m2 := upd m1 a (Some (Link (k_data k) (Some n) (k_auto k)))).
  assert (Nn : nxt m2 n = Some (k_next k)).
  { unfold nxt, m2, m1. rewrite upd_other by auto. rewrite upd_same. reflexivity. }
  assert (Na : nxt m2 a = Some (Some n)) by (unfold nxt, m2; rewrite upd_same; reflexivity).
  assert (No : forall x, x <> a -> x <> n -> nxt m2 x = nxt (l_mem w) x).
  { intros x H1 H2. unfold nxt, m2, m1. rewrite !upd_other by assumption. reflexivity. }
  assert (Eo : forall x, x <> n -> el m2 x = el (l_mem w) x).
  { intros x H1. unfold el, m2, m1. destruct (Nat.eq_dec x a) as [->|H2].
    - rewrite upd_same, Hk. reflexivity.
    - rewrite !upd_other by assumption. reflexivity. }
  assert (En : el m2 n = Some (d, auto)).
  { unfold el, m2, m1. rewrite upd_other by auto. rewrite upd_same. reflexivity. }
  assert (D' : NoDup (0 :: xs)).
  { change (0 :: xs ++ ys) with ((0 :: xs) ++ ys) in D. clear -D. 
    induction (0 :: xs) as [|z zs IH]; [constructor|]. cbn in D. inversion D; subst. constructor.
    - intros H. apply H1. apply in_or_app. auto.
    - apply IH. assumption. }
  assert (Hays : ~ In a ys).
  { intros H. change (0 :: xs ++ ys) with ((0 :: xs) ++ ys) in D. clear -D Ha H.
    induction (0 :: xs) as [|z zs IH]; [contradiction|]. cbn in D. inversion D; subst.
    destruct Ha as [->|Ha]; [apply H2; apply in_or_app; auto|]. auto. }
  constructor; cbn [l_mem l_fresh l_tail l_freed]; auto.
  - apply linked_app. fold a. split.
    + eapply path_frame; [|exact P]. intros x Hx.
      apply No.
      * intros ->. exact (removelast_last_nodup 0 xs D' Hx).
      * intros ->. apply Hn. apply in_removelast in Hx. destruct Hx as [Hx|Hx]; [left; assumption|right; apply in_or_app; auto].
    + assert (Hl : linked m2 n ys).
      { destruct L2 as [L2 L2']. unfold linked. destruct ys as [|y ys].
        - cbn in *. split; [exact I|]. rewrite Nn. unfold nxt in L2'. rewrite Hk in L2'. exact L2'.
        - cbn [path] in *. destruct L2 as [L2 L3]. split.
          + split; [rewrite Nn; unfold nxt in L2; rewrite Hk in L2; exact L2|].
            eapply path_frame'; [|exact L3]. intros x Hx. apply No.
            * intros ->. auto.
            * intros ->. apply Hn. right. apply in_or_app. auto.
          + rewrite last_cons in *. rewrite No; [exact L2'| |].
            * intros E'. apply Hays. rewrite <- E'. apply last_in.
            * intros E'. apply Hn. rewrite <- E'. right. apply in_or_app. right. apply last_in. }
      destruct Hl as [Hl1 Hl2]. split; [split; [exact Na|exact Hl1]|]. rewrite last_cons. exact Hl2.
  - change (0 :: xs ++ n :: ys) with ((0 :: xs) ++ n :: ys). apply NoDup_Add with (a := n) (l := 0 :: xs ++ ys).
    + change (0 :: xs ++ ys) with ((0 :: xs) ++ ys). apply Add_app.
    + split; assumption.
  - intros x Hx. change (0 :: xs ++ n :: ys) with ((0 :: xs) ++ n :: ys) in Hx. apply in_app_or in Hx.
    destruct Hx as [Hx|[E'|Hx]].
    + assert (x < n) by (apply B; destruct Hx; [left; assumption|right; apply in_or_app; auto]). lia.
    + lia.
    + assert (x < n) by (apply B; right; apply in_or_app; auto). lia.
  - rewrite last_app_cons. destruct L2 as [L2 L2']. destruct ys as [|y ys].
    + cbn in *. unfold nxt in L2'. rewrite Hk in L2'. cbn in L2'. injection L2' as ->. reflexivity.
    + cbn [path] in L2. destruct L2 as [L2 _]. unfold nxt in L2. rewrite Hk in L2. cbn in L2. injection L2 as ->.
      rewrite T, last_app_cons, last_cons. reflexivity.
  - rewrite !map_app in *. cbn [map].
    assert (E1 : map (el (l_mem w)) xs = map Some l1 /\ map (el (l_mem w)) ys = map Some l2).
    { apply app_eq_len_inv; [rewrite !map_length; assumption|exact E]. }
    destruct E1 as [E1 E2]. rewrite <- E1, <- E2, En. f_equal; [|f_equal].
    + apply map_eq_on. intros x Hx. apply Eo. intros ->. apply Hn. right. apply in_or_app. auto.
    + apply map_eq_on. intros x Hx. apply Eo. intros ->. apply Hn. right. apply in_or_app. auto.
Qed.

Lemma NoDup_app_l {A} (a b : list A) : NoDup (a ++ b) -> NoDup a.
Proof.
  induction a as [|z zs IH]; cbn; intros D; [constructor|]. inversion D; subst. constructor.
  - intros H. apply H1. apply in_or_app. auto.
  - apply IH. assumption.
Qed.
Lemma NoDup_app_disj {A} (a b : list A) x : NoDup (a ++ b) -> In x a -> ~ In x b.
Proof.
  induction a as [|z zs IH]; cbn; intros D Ha Hb; [contradiction|]. inversion D; subst.
  destruct Ha as [->|Ha]; [apply H1; apply in_or_app; auto|]. exact (IH H2 Ha Hb).
Qed.

(** Reading the link an iterator stands on. *)
Lemma read_last w xs ys l f : rep w (xs ++ ys) l f ->
  exists k, lread w (last xs 0) = Ok k /\ k_next k = match ys with [] => None | b :: _ => Some b end.
Proof.
  intros R. pose proof (proj1 (linked_app _ _ _ _) (r_link _ _ _ _ R)) as [_ [L2 L2']].
  unfold lread. destruct ys as [|y ys].
  - cbn in L2'. destruct (nxt_inv _ _ _ L2') as (k & E & N). rewrite E. exists k. auto.
  - cbn [path] in L2. destruct (nxt_inv _ _ _ (proj1 L2)) as (k & E & N). rewrite E. exists k. auto.
Qed.

Lemma read_elem w xs b ys l1 e l2 f : rep w (xs ++ b :: ys) (l1 ++ e :: l2) f -> length xs = length l1 ->
  exists k, lread w b = Ok k /\ k_data k = fst e /\ k_auto k = snd e /\
    k_next k = match ys with [] => None | c :: _ => Some c end.
Proof.
  intros R Hl.
  destruct (read_last w (xs ++ [b]) ys (l1 ++ e :: l2) f) as (k & E & N); [rewrite <- app_assoc; exact R|].
  rewrite last_app_cons in E. cbn in E. exists k. split; [assumption|].
  pose proof (r_el _ _ _ _ R) as M. rewrite !map_app in M.
  apply app_eq_len_inv in M; [|rewrite !map_length; assumption]. destruct M as [_ M]. cbn [map] in M.
  injection M as M _. unfold lread in E. unfold el in M. destruct (l_mem w b) as [k'|]; [|discriminate].
  cbn in E, M. injection E as ->. injection M as <-. auto.
Qed.

Lemma unlink_after_ok w xs b ys l1 e l2 f destroy :
  rep w (xs ++ b :: ys) (l1 ++ e :: l2) f -> length xs = length l1 ->
  exists w', unlink_after w (last xs 0) destroy = Ok w' /\ l_fresh w' = l_fresh w /\
    rep w' (xs ++ ys) (l1 ++ l2) (f ++ (if destroy && snd e then [fst e] else [])).
Proof.
  intros R Hlen.
  destruct (read_last _ _ _ _ _ R) as (k & Hk & Nk). destruct (read_elem _ _ _ _ _ _ _ _ R Hlen) as (kb & Hb & Db & Ab & Nb).
  destruct R as [L D B T E F].
  pose proof (proj1 (linked_app _ _ _ _) L) as [P [L2 L2']]. cbn [path] in L2. destruct L2 as [L2 L3].
  rewrite last_cons in L2'. set (a := last xs 0) in *.
  assert (Ha : In a (0 :: xs)) by apply last_in.
  change (0 :: xs ++ b :: ys) with ((0 :: xs) ++ b :: ys) in D.
  assert (D1 : NoDup (0 :: xs)) by (eapply NoDup_app_l; exact D).
  assert (Hab : ~ In a (b :: ys)) by (eapply NoDup_app_disj; eassumption).
  assert (Hbx : ~ In b ((0 :: xs) ++ ys)) by (apply NoDup_remove_2; assumption).
  assert (D2 : NoDup ((0 :: xs) ++ ys)) by (eapply NoDup_remove_1; eassumption).
  assert (Hne : a <> b) by (intros ->; apply Hab; left; reflexivity).
  unfold unlink_after. rewrite Hk. cbn [bind]. rewrite Nk, Hb. cbn [bind]. unfold set_next, lread. cbn [l_mem].
  unfold lread in Hk. destruct (l_mem w a) as [k'|] eqn:Em; [|discriminate]. cbn [of_opt] in Hk. injection Hk as ->.
  cbn [of_opt bind l_mem l_fresh l_tail l_freed]. eexists. split; [reflexivity|]. split; [reflexivity|].
  set (m1 := upd (l_mem w) a (Some (Link (k_data k) (k_next kb) (k_auto k)))).
  set (m2 := upd m1 b None).
  assert (Na : nxt m2 a = Some (k_next kb)) by (unfold nxt, m2, m1; rewrite upd_other by auto; rewrite upd_same; reflexivity).
  assert (No : forall x, x <> a -> x <> b -> nxt m2 x = nxt (l_mem w) x).
  { intros x H1 H2. unfold nxt, m2, m1. rewrite !upd_other by assumption. reflexivity. }
  assert (Eo : forall x, x <> b -> el m2 x = el (l_mem w) x).
  { intros x H1. unfold el, m2, m1. rewrite upd_other by assumption. destruct (Nat.eq_dec x a) as [->|H2].
    - rewrite upd_same, Em. reflexivity.
    - rewrite !upd_other by assumption. reflexivity. }
  constructor; cbn [l_mem l_fresh l_tail l_freed]; auto.
  - apply linked_app. fold a. split.
    + eapply path_frame; [|exact P]. intros x Hx. apply No.
      * intros ->. exact (removelast_last_nodup 0 xs D1 Hx).
      * intros ->. apply Hbx. apply in_or_app. left. apply in_removelast. assumption.
    + unfold linked. destruct ys as [|y ys].
      * cbn in *. split; [exact I|]. rewrite Na, Nb. reflexivity.
      * cbn [path] in *. destruct L3 as [L3 L4]. split.
        -- split; [rewrite Na, Nb; reflexivity|].
           eapply path_frame'; [|exact L4]. intros x Hx. apply No.
           ++ intros ->. apply Hab. right. assumption.
           ++ intros ->. apply Hbx. apply in_or_app. right. assumption.
        -- rewrite last_cons in *. rewrite No; [exact L2'| |].
           ++ intros E'. apply Hab. right. rewrite <- E'. apply last_in.
           ++ intros E'. apply Hbx. rewrite <- E'. apply in_or_app. right. apply last_in.
  - intros x Hx. apply B. change (0 :: xs ++ ys) with ((0 :: xs) ++ ys) in Hx. apply in_app_or in Hx.
    destruct Hx as [[?|?]|?]; [left; assumption|right; apply in_or_app; auto|right; apply in_or_app; right; right; assumption].
  - rewrite T, last_app_cons. destruct ys as [|y ys].
    + cbn. rewrite Nat.eqb_refl, app_nil_r. reflexivity.
    + rewrite last_cons, last_app_cons.
      destruct (Nat.eqb_spec b (last ys y)) as [E'|E']; [|reflexivity].
      exfalso. apply Hbx. apply in_or_app. right. rewrite E'. apply last_in.
  - rewrite !map_app in *.
    apply app_eq_len_inv in E; [|rewrite !map_length; assumption]. destruct E as [E1 E2]. cbn [map] in E2.
    injection E2 as _ E2. rewrite <- E1, <- E2. f_equal.
    + apply map_eq_on. intros x Hx. apply Eo. intros ->. apply Hbx. right. apply in_or_app. auto.
    + apply map_eq_on. intros x Hx. apply Eo. intros ->. apply Hbx. apply in_or_app. auto.
  - rewrite F, Ab, Db. reflexivity.
Qed.

(** An iterator that has passed [xs]. *)
Definition at_pos (i : iter) (xs : list nat) : Prop := it_link i = Some (last xs 0).

Lemma next_ok w xs ys l f i : rep w (xs ++ ys) l f -> at_pos i xs ->
  i_next w i = Ok (Iter (match ys with [] => None | b :: _ => Some b end) (Some (last xs 0))).
Proof.
  intros R A. unfold i_next. rewrite A. cbn [of_opt bind].
  destruct (read_last _ _ _ _ _ R) as (k & E & N). rewrite E. cbn [bind]. rewrite N. reflexivity.
Qed.

Lemma at_snoc xs b p : at_pos (Iter (Some b) p) (xs ++ [b]).
Proof. unfold at_pos. cbn [it_link]. rewrite last_app_cons. reflexivity. Qed.

Lemma walk_ok w f : forall ys xs l1 l2 i fuel, rep w (xs ++ ys) (l1 ++ l2) f -> length xs = length l1 ->
  at_pos i xs -> length ys < fuel -> walk_loop fuel w i = Ok (map fst l2).
Proof.
  induction ys as [|b ys IH]; intros xs l1 l2 i fuel R Hl A Hf; (destruct fuel as [|fuel]; [cbn in Hf; lia|]);
    cbn [walk_loop]; rewrite (next_ok _ _ _ _ _ _ R A); cbn [bind it_link].
  - pose proof (rep_len _ _ _ _ R) as E. rewrite !app_length in E. cbn in E. destruct l2; [reflexivity|cbn in E; lia].
  - pose proof (rep_len _ _ _ _ R) as E. rewrite !app_length in E. cbn in E. destruct l2 as [|e l2]; [cbn in E; lia|].
    destruct (read_elem _ _ _ _ _ _ _ _ R Hl) as (k & Hk & Dk & _). rewrite Hk. cbn [bind].
    rewrite (IH (xs ++ [b]) (l1 ++ [e]) l2).
    + cbn [bind map]. rewrite Dk. reflexivity.
    + rewrite <- !app_assoc. exact R.
    + rewrite !app_length. cbn. lia.
    + apply at_snoc.
    + cbn in Hf. lia.
Qed.

(** Where find stops. *)
Lemma find_ok w f d : forall ys xs l1 l2 i fuel, rep w (xs ++ ys) (l1 ++ l2) f -> length xs = length l1 ->
  at_pos i xs -> length ys < fuel ->
  (exists ys1 b ys2 m1 e m2, ys = ys1 ++ b :: ys2 /\ l2 = m1 ++ e :: m2 /\ length ys1 = length m1 /\
     fst e = d /\ ~ In d (map fst m1) /\
     find_loop fuel w i d = Ok (Iter (Some b) (Some (last (xs ++ ys1) 0)))) \/
  (~ In d (map fst l2) /\ exists p, find_loop fuel w i d = Ok (Iter None p)).
Proof.
  induction ys as [|b ys IH]; intros xs l1 l2 i fuel R Hl A Hf; (destruct fuel as [|fuel]; [cbn in Hf; lia|]);
    cbn [find_loop]; rewrite (next_ok _ _ _ _ _ _ R A); cbn [bind it_link];
    pose proof (rep_len _ _ _ _ R) as E; rewrite !app_length in E; cbn in E.
  - right. destruct l2; [|cbn in E; lia]. split; [cbn; tauto|eauto].
  - destruct l2 as [|e l2]; [cbn in E; lia|].
    destruct (read_elem _ _ _ _ _ _ _ _ R Hl) as (k & Hk & Dk & _). rewrite Hk. cbn [bind]. rewrite Dk.
    destruct (Nat.eqb_spec (fst e) d) as [Ed|Ed].
    + left. exists [], b, ys, [], e, l2. rewrite app_nil_r. repeat split; auto.
    + destruct (IH (xs ++ [b]) (l1 ++ [e]) l2 (Iter (Some b) (Some (last xs 0))) fuel) as [H|H].
      * rewrite <- !app_assoc. exact R.
      * rewrite !app_length. cbn. lia.
      * apply at_snoc.
      * cbn in Hf. lia.
      * left. destruct H as (ys1 & c & ys2 & m1 & e' & m2 & -> & -> & Hlen & He & Hn & Hfd).
        exists (b :: ys1), c, ys2, (e :: m1), e', m2. rewrite <- app_assoc in Hfd. cbn in *.
        repeat split; auto; solve [lia | tauto].
      * right. destruct H as (Hn & Hp). split; [|exact Hp]. cbn. tauto.
Qed.

Lemma released_app b l1 l2 : released b (l1 ++ l2) = released b l1 ++ released b l2.
Proof. unfold released. destruct b; [|reflexivity]. rewrite filter_app, map_app. reflexivity. Qed.
Lemma released_one b e : released b [e] = if b && snd e then [fst e] else [].
Proof. unfold released. destruct b, e as [d a]; [|reflexivity]. cbn. destruct a; reflexivity. Qed.

Lemma filter_none {A} (p : A -> bool) l : (forall x, In x l -> p x = false) -> filter p l = [].
Proof.
  induction l as [|x l IH]; intros H; [reflexivity|]. cbn. rewrite (H x) by (left; reflexivity).
  apply IH. intros; apply H; right; assumption.
Qed.
Lemma filter_all {A} (p : A -> bool) l : (forall x, In x l -> p x = true) -> filter p l = l.
Proof.
  induction l as [|x l IH]; intros H; [reflexivity|]. cbn. rewrite (H x) by (left; reflexivity).
  f_equal. apply IH. intros; apply H; right; assumption.
Qed.

Lemma unlink_iter w xs b ys l1 e l2 f destroy p :
  rep w (xs ++ b :: ys) (l1 ++ e :: l2) f -> length xs = length l1 -> p = last xs 0 ->
  exists w', i_unlink w (Iter (Some b) (Some p)) destroy =
      Ok (w', Iter (match ys with [] => None | c :: _ => Some c end) (Some p)) /\
    i_xunlink w (Iter (Some b) (Some p)) destroy = Ok (w', Iter (Some p) (Some p)) /\
    l_fresh w' = l_fresh w /\
    rep w' (xs ++ ys) (l1 ++ l2) (f ++ released destroy [e]).
Proof.
  intros R Hl ->. destruct (unlink_after_ok _ _ _ _ _ _ _ _ destroy R Hl) as (w' & E & Fr & R').
  exists w'. unfold i_unlink, i_xunlink. cbn [it_prev it_link]. rewrite E. cbn [bind of_opt].
  destruct (read_last _ _ _ _ _ R') as (k & Hk & Nk). rewrite Hk. cbn [bind]. rewrite Nk.
  rewrite released_one. auto.
Qed.

Lemma unlink_ok d : forall n fuel w xs l f, rep w xs l f -> length l <= n -> n < fuel ->
  exists w' xs', unlink_loop fuel w d = Ok w' /\
    rep w' xs' (filter (fun e => negb (fst e =? d)) l) (f ++ released true (filter (fun e => fst e =? d) l)).
Proof.
  induction n as [|n IH]; intros fuel w xs l f R Hn Hf; (destruct fuel as [|fuel]; [lia|]); cbn [unlink_loop]; unfold i_find.
  all: pose proof (rep_bound _ _ _ _ R) as Hb; pose proof (rep_len _ _ _ _ R) as Hlen;
    destruct (find_ok w f d xs [] [] l i_rewind (l_fresh w) R eq_refl eq_refl ltac:(lia))
      as [(ys1 & b & ys2 & m1 & e & m2 & -> & -> & Hl & He & Hni & Hfd)|(Hni & p & Hfd)];
    rewrite Hfd; cbn [bind it_link].
  1: rewrite app_length in Hn; cbn in Hn; lia.
  2: { cbn [app] in *. destruct (unlink_iter _ _ _ _ _ _ _ _ true _ R Hl eq_refl) as (w' & E & _ & Fr & R').
       rewrite E. cbn [bind].
       rewrite !app_length in Hn. cbn [length] in Hn.
       destruct (IH fuel w' _ _ _ R' ltac:(rewrite app_length; lia) ltac:(lia)) as (w2 & xs2 & E2 & R2).
       exists w2, xs2. split; [exact E2|].
       rewrite !filter_app in *. cbn [filter]. rewrite He, Nat.eqb_refl. cbn [negb].
       assert (Fm : filter (fun e0 => fst e0 =? d) m1 = []).
       { apply filter_none. intros x Hx. apply Nat.eqb_neq. intros E'. apply Hni. rewrite <- E'. apply in_map. assumption. }
       rewrite Fm in *. cbn [app] in *.
       change (e :: filter (fun e0 => fst e0 =? d) m2) with ([e] ++ filter (fun e0 => fst e0 =? d) m2).
       rewrite released_app, app_assoc. exact R2. }
  all: exists w, xs; split; [reflexivity|];
    rewrite filter_all, filter_none; [cbn; rewrite app_nil_r; exact R| |];
    intros x Hx; [apply Nat.eqb_neq|apply negb_true_iff, Nat.eqb_neq]; intros E'; apply Hni; rewrite <- E'; apply in_map; assumption.
Qed.

Lemma zap_ok b : forall n fuel w xs l f, rep w xs l f -> length l <= n -> n < fuel ->
  exists w', zap_loop fuel w b = Ok w' /\ rep w' [] [] (f ++ released b l).
Proof.
  induction n as [|n IH]; intros fuel w xs l f R Hn Hf; (destruct fuel as [|fuel]; [lia|]); cbn [zap_loop];
    pose proof (rep_len _ _ _ _ R) as Hlen;
    destruct (read_last w [] xs l f R) as (k & Hk & Nk); cbn [last] in Hk; rewrite Hk; cbn [bind]; rewrite Nk.
  - destruct l; [|cbn in Hn; lia]. destruct xs; [|discriminate]. exists w. split; [reflexivity|].
    replace (released b []) with (@nil nat) by (destruct b; reflexivity). rewrite app_nil_r. exact R.
  - destruct xs as [|x xs].
    + destruct l; [|discriminate]. exists w. split; [reflexivity|].
      replace (released b []) with (@nil nat) by (destruct b; reflexivity). rewrite app_nil_r. exact R.
    + destruct l as [|e l]; [discriminate|].
      destruct (unlink_after_ok w [] x xs [] e l f b R eq_refl) as (w' & E & Fr & R'). cbn [last] in E. rewrite E. cbn [bind].
      cbn [app] in R'. cbn [length] in Hn. destruct (IH fuel w' xs l _ R' ltac:(lia) ltac:(lia)) as (w2 & E2 & R2).
      exists w2. split; [exact E2|]. change (e :: l) with ([e] ++ l). rewrite released_app, released_one, app_assoc. exact R2.
Qed.

Lemma count_ok w f : forall ys xs l n fuel, rep w (xs ++ ys) l f -> length ys <= fuel ->
  count_loop fuel w (match ys with [] => None | b :: _ => Some b end) n = Ok (n + length ys).
Proof.
  induction ys as [|b ys IH]; intros xs l n fuel R Hf.
  - destruct fuel; cbn; f_equal; lia.
  - destruct fuel as [|fuel]; [cbn in Hf; lia|]. cbn [count_loop].
    destruct (read_last w (xs ++ [b]) ys l f) as (k & Hk & Nk); [rewrite <- app_assoc; exact R|].
    rewrite last_app_cons in Hk. cbn in Hk. rewrite Hk. cbn [bind]. rewrite Nk.
    rewrite (IH (xs ++ [b]) l); [cbn [length]; f_equal; lia|rewrite <- app_assoc; exact R|cbn in Hf; lia].
Qed.

Lemma sweep_ok p b : forall ys w xs l1 l2 f i fuel, rep w (xs ++ ys) (l1 ++ l2) f -> length xs = length l1 ->
  at_pos i xs -> length ys < fuel ->
  exists w' xs', sweep_loop fuel w i p b = Ok w' /\
    rep w' xs' (l1 ++ filter (fun e => negb (p (fst e))) l2) (f ++ released b (filter (fun e => p (fst e)) l2)).
Proof.
  induction ys as [|y ys IH]; intros w xs l1 l2 f i fuel R Hl A Hf; (destruct fuel as [|fuel]; [cbn in Hf; lia|]);
    cbn [sweep_loop]; rewrite (next_ok _ _ _ _ _ _ R A); cbn [bind it_link];
    pose proof (rep_len _ _ _ _ R) as E; rewrite !app_length in E; cbn in E.
  - destruct l2; [|cbn in E; lia]. exists w, (xs ++ []). split; [reflexivity|]. cbn [filter].
    replace (released b []) with (@nil nat) by (destruct b; reflexivity). rewrite (app_nil_r f). exact R.
  - destruct l2 as [|e l2]; [cbn in E; lia|].
    destruct (read_elem _ _ _ _ _ _ _ _ R Hl) as (k & Hk & Dk & _). rewrite Hk. cbn [bind filter]. rewrite Dk.
    destruct (p (fst e)); cbn [negb].
    + destruct (unlink_iter _ _ _ _ _ _ _ _ b _ R Hl eq_refl) as (w' & _ & E2 & Fr & R'). rewrite E2. cbn [bind].
      destruct (IH w' xs l1 l2 _ (Iter (Some (last xs 0)) (Some (last xs 0))) fuel R' Hl eq_refl) as (w2 & xs2 & E3 & R3).
      { cbn in Hf. lia. }
      exists w2, xs2. split; [exact E3|].
      change (e :: filter (fun e0 => p (fst e0)) l2) with ([e] ++ filter (fun e0 => p (fst e0)) l2).
      rewrite released_app, app_assoc. exact R3.
    + destruct (IH w (xs ++ [y]) (l1 ++ [e]) l2 f (Iter (Some y) (Some (last xs 0))) fuel) as (w2 & xs2 & E3 & R3).
      * rewrite <- !app_assoc. exact R.
      * rewrite !app_length. cbn. lia.
      * apply at_snoc.
      * cbn in Hf. lia.
      * exists w2, xs2. split; [exact E3|]. rewrite <- app_assoc in R3. exact R3.
Qed.

Lemma purge_ok p b : forall ys w xs l1 l2 f fuel, rep w (xs ++ ys) (l1 ++ l2) f -> length xs = length l1 ->
  length ys < fuel ->
  exists w' xs', purge_loop fuel w (Iter (match ys with [] => None | c :: _ => Some c end) (Some (last xs 0))) p b = Ok w' /\
    rep w' xs' (l1 ++ filter (fun e => negb (p (fst e))) l2) (f ++ released b (filter (fun e => p (fst e)) l2)).
Proof.
  induction ys as [|y ys IH]; intros w xs l1 l2 f fuel R Hl Hf; (destruct fuel as [|fuel]; [cbn in Hf; lia|]);
    cbn [purge_loop it_link];
    pose proof (rep_len _ _ _ _ R) as E; rewrite !app_length in E; cbn in E.
  - destruct l2; [|cbn in E; lia]. exists w, (xs ++ []). split; [reflexivity|]. cbn [filter].
    replace (released b []) with (@nil nat) by (destruct b; reflexivity). rewrite (app_nil_r f). exact R.
  - destruct l2 as [|e l2]; [cbn in E; lia|].
    destruct (read_elem _ _ _ _ _ _ _ _ R Hl) as (k & Hk & Dk & _). rewrite Hk. cbn [bind filter]. rewrite Dk.
    destruct (p (fst e)); cbn [negb].
    + destruct (unlink_iter _ _ _ _ _ _ _ _ b _ R Hl eq_refl) as (w' & E2 & _ & Fr & R'). rewrite E2. cbn [bind].
      destruct (IH w' xs l1 l2 _ fuel R' Hl) as (w2 & xs2 & E3 & R3).
      { cbn in Hf. lia. }
      exists w2, xs2. split; [exact E3|].
      change (e :: filter (fun e0 => p (fst e0)) l2) with ([e] ++ filter (fun e0 => p (fst e0)) l2).
      rewrite released_app, app_assoc. exact R3.
    + rewrite (next_ok w (xs ++ [y]) ys (l1 ++ e :: l2) f); [|rewrite <- app_assoc; exact R|apply at_snoc].
      cbn [bind].
      destruct (IH w (xs ++ [y]) (l1 ++ [e]) l2 f fuel) as (w2 & xs2 & E3 & R3).
      * rewrite <- !app_assoc. exact R.
      * rewrite !app_length. cbn. lia.
      * cbn in Hf. lia.
      * exists w2, xs2. split; [exact E3|]. rewrite <- app_assoc in R3. exact R3.
Qed.

Lemma nexts_ok w l f : forall k xs ys i, rep w (xs ++ ys) l f -> at_pos i xs -> k <= length ys ->
  exists i', nexts w i k = Ok i' /\ at_pos i' (xs ++ firstn k ys).
Proof.
  induction k as [|k IH]; intros xs ys i R A Hk; cbn [nexts].
  - exists i. split; [reflexivity|]. cbn [firstn]. rewrite app_nil_r. exact A.
  - destruct ys as [|y ys]; [cbn in Hk; lia|]. rewrite (next_ok _ _ _ _ _ _ R A). cbn [bind].
    destruct (IH (xs ++ [y]) ys (Iter (Some y) (Some (last xs 0)))) as (i' & E & A').
    + rewrite <- app_assoc. exact R.
    + apply at_snoc.
    + cbn in Hk. lia.
    + exists i'. split; [exact E|]. cbn [firstn]. rewrite <- app_assoc in A'. exact A'.
Qed.

(** ** reverse *)
Lemma set_next_ok w a n k : lread w a = Ok k ->
  set_next w a n = Ok (WList (upd (l_mem w) a (Some (Link (k_data k) n (k_auto k)))) (l_fresh w) (l_tail w) (l_freed w)).
Proof. intros H. unfold set_next. rewrite H. reflexivity. Qed.

Lemma nxt_upd m a k n : m a = Some k ->
  forall x, nxt (upd m a (Some (Link (k_data k) n (k_auto k)))) x = if x =? a then Some n else nxt m x.
Proof. intros H x. unfold nxt, upd. destruct (x =? a); reflexivity. Qed.
Lemma el_upd m a k n : m a = Some k ->
  forall x, el (upd m a (Some (Link (k_data k) n (k_auto k)))) x = el m x.
Proof. intros H x. unfold el, upd. destruct (Nat.eqb_spec x a) as [->|]; [rewrite H; reflexivity|reflexivity]. Qed.

Lemma reverse_loop_ok : forall ys fuel w prev R curr,
  path (l_mem w) prev R -> linked (l_mem w) curr ys -> NoDup (curr :: ys ++ prev :: R) -> length ys < fuel ->
  exists w' prev', reverse_loop fuel w prev curr = Ok (w', prev') /\
    l_fresh w' = l_fresh w /\ l_tail w' = l_tail w /\ l_freed w' = l_freed w /\
    prev' :: tl (rev (curr :: ys) ++ prev :: R) = rev (curr :: ys) ++ prev :: R /\
    path (l_mem w') prev' (tl (rev (curr :: ys) ++ prev :: R)) /\
    (forall x, ~ In x (curr :: ys) -> l_mem w' x = l_mem w x) /\
    (forall x, el (l_mem w') x = el (l_mem w) x).
Proof.
  induction ys as [|y ys IH]; intros fuel w prev R curr P [L L'] D Hf; (destruct fuel as [|fuel]; [cbn in Hf; lia|]);
    cbn [reverse_loop].
  - cbn in L'. destruct (nxt_inv _ _ _ L') as (k & Ek & Nk).
    assert (Hr : lread w curr = Ok k) by (unfold lread; rewrite Ek; reflexivity).
    rewrite Hr. cbn [bind]. rewrite (set_next_ok _ _ _ _ Hr). cbn [bind]. rewrite Nk.
    eexists _, curr. split; [reflexivity|]. cbn [l_fresh l_tail l_freed l_mem rev app tl].
    repeat split; auto.
    + rewrite nxt_upd by assumption. rewrite Nat.eqb_refl. reflexivity.
    + eapply path_frame'; [|exact P]. intros x Hx. rewrite nxt_upd by assumption.
      destruct (Nat.eqb_spec x curr) as [->|]; [|reflexivity]. exfalso. cbn in D. inversion D; auto.
    + intros x Hx. apply upd_other. intros ->. apply Hx. left. reflexivity.
    + apply el_upd. assumption.
  - cbn [path] in L. destruct L as [L1 L2]. rewrite last_cons in L'.
    destruct (nxt_inv _ _ _ L1) as (k & Ek & Nk).
    assert (Hr : lread w curr = Ok k) by (unfold lread; rewrite Ek; reflexivity).
    rewrite Hr. cbn [bind]. rewrite (set_next_ok _ _ _ _ Hr). cbn [bind]. rewrite Nk.
    set (w1 := WList _ _ _ _).
    assert (Hc : ~ In curr ((y :: ys) ++ prev :: R)) by (inversion D; assumption).
    assert (D1 : NoDup ((y :: ys) ++ prev :: R)) by (inversion D; assumption).
    assert (N1 : forall x, x <> curr -> nxt (l_mem w1) x = nxt (l_mem w) x).
    { intros x Hx. unfold w1. cbn [l_mem]. rewrite nxt_upd by assumption. apply Nat.eqb_neq in Hx. rewrite Hx. reflexivity. }
    destruct (IH fuel w1 curr (prev :: R) y) as (w' & prev' & E & F1 & F2 & F3 & Hd & P' & M' & El').
    + cbn [path]. split.
      * unfold w1. cbn [l_mem]. rewrite nxt_upd by assumption. rewrite Nat.eqb_refl. reflexivity.
      * eapply path_frame'; [|exact P]. intros x Hx. apply N1. intros ->. apply Hc. apply in_or_app. auto.
    + eapply linked_frame; [|split; eassumption]. intros x Hx. apply N1. intros ->. apply Hc. apply in_or_app. auto.
    + change (y :: ys ++ curr :: prev :: R) with ((y :: ys) ++ curr :: prev :: R).
      eapply NoDup_Add; [apply (Add_app curr (y :: ys) (prev :: R))|]. split; assumption.
    + cbn in Hf. lia.
    + assert (Er : rev (curr :: y :: ys) ++ prev :: R = rev (y :: ys) ++ curr :: prev :: R).
      { change (rev (curr :: y :: ys)) with (rev (y :: ys) ++ [curr]). rewrite <- app_assoc. reflexivity. }
      exists w', prev'. split; [exact E|]. rewrite Er. repeat split; auto.
      * intros x Hx. rewrite M' by (intros H; apply Hx; right; assumption).
        unfold w1. cbn [l_mem]. apply upd_other. intros ->. apply Hx. left. reflexivity.
      * intros x. rewrite El'. unfold w1. cbn [l_mem]. apply el_upd. assumption.
Qed.

Lemma reverse_ok w xs l f : rep w xs l f -> exists w', l_reverse w = Ok w' /\ rep w' (rev xs) (rev l) f.
Proof.
  intros R. pose proof (rep_len _ _ _ _ R) as Hlen. pose proof (rep_bound _ _ _ _ R) as Hb.
  destruct (read_last w [] xs l f R) as (k & Hk & Nk). cbn [last] in Hk. unfold l_reverse. rewrite Hk. cbn [bind]. rewrite Nk.
  destruct xs as [|x xs].
  { exists w. split; [reflexivity|]. destruct l; [exact R|discriminate]. }
  destruct (read_last w [x] xs l f R) as (k1 & Hk1 & Nk1). cbn [last] in Hk1. rewrite Hk1. cbn [bind]. rewrite Nk1.
  destruct xs as [|y ys].
  { exists w. split; [reflexivity|]. destruct l as [|e [|e' l]]; try discriminate. exact R. }
  destruct R as [[P L] D B T E F]. cbn [path] in P. destruct P as (P0 & P1 & P2).
  rewrite !last_cons in L.
  assert (H0 : ~ In 0 (x :: y :: ys)) by (inversion D; assumption).
  assert (D1 : NoDup (x :: y :: ys)) by (inversion D; assumption).
  destruct (reverse_loop_ok ys (l_fresh w) w x [] y) as (w1 & prev' & E1 & F1 & F2 & F3 & Hd & P' & M' & El').
  - exact I.
  - split; assumption.
  - change (y :: ys ++ [x]) with ((y :: ys) ++ [x]). eapply NoDup_Add; [apply (Add_app x (y :: ys) [])|].
    rewrite app_nil_r. inversion D1; auto.
  - cbn in Hlen. lia.
  - rewrite E1. cbn [bind].
    assert (Erev : rev (y :: ys) ++ [x] = rev (x :: y :: ys)) by reflexivity.
    rewrite Erev in *. set (t := tl (rev (x :: y :: ys))) in *.
    assert (Hk0 : lread w1 0 = Ok k).
    { unfold lread. rewrite M'; [exact Hk|]. intros H. apply H0. right. assumption. }
    rewrite Hk0. cbn [bind]. rewrite Nk. cbn [of_opt bind].
    assert (Hk1' : lread w1 x = Ok k1).
    { unfold lread. rewrite M'; [exact Hk1|]. inversion D1; assumption. }
    rewrite (set_next_ok _ x _ k1) by exact Hk1'. cbn [bind l_mem l_fresh l_tail l_freed].
    assert (Hx0 : 0 <> x) by (intros E'; apply H0; left; auto).
    erewrite (set_next_ok _ 0 _ k); [|unfold lread; cbn [l_mem]; rewrite upd_other by assumption; exact Hk0].
    cbn [l_mem l_fresh l_tail l_freed]. eexists. split; [reflexivity|].
    unfold lread in Hk0, Hk1'.
    destruct (l_mem w1 0) as [k0'|] eqn:Em0; [|discriminate]. cbn in Hk0. injection Hk0 as ->.
    destruct (l_mem w1 x) as [k1''|] eqn:Em1; [|discriminate]. cbn in Hk1'. injection Hk1' as ->.
    set (m1 := upd (l_mem w1) x _). set (m2 := upd m1 0 _).
    assert (Dr : NoDup (rev (x :: y :: ys))) by (apply NoDup_rev; assumption).
    assert (Hlast : last t prev' = x).
    { rewrite <- (last_cons prev' t 0), Hd. change (rev (x :: y :: ys)) with (rev (y :: ys) ++ [x]). apply last_app_cons. }
    assert (N2 : forall z, z <> 0 -> z <> x -> nxt m2 z = nxt (l_mem w1) z).
    { intros z H1 H2. unfold nxt, m2, m1. rewrite !upd_other by assumption. reflexivity. }
    assert (Hin0 : ~ In 0 (rev (x :: y :: ys))) by (intros H; apply H0; apply in_rev; assumption).
    constructor; cbn [l_mem l_fresh l_tail l_freed].
    + rewrite <- Hd. split.
      * cbn [path]. split; [unfold nxt, m2; rewrite upd_same; reflexivity|].
        eapply path_frame; [|exact P']. intros z Hz. apply N2.
        -- intros ->. apply Hin0. rewrite <- Hd. apply in_removelast. assumption.
        -- intros ->. rewrite <- Hlast in Hz. rewrite <- Hd in Dr. exact (removelast_last_nodup _ _ Dr Hz).
      * rewrite last_cons, Hlast. unfold nxt, m2, m1. rewrite upd_other by auto. rewrite upd_same. reflexivity.
    + constructor; assumption.
    + rewrite F1. intros z [<-|Hz]; apply B; [left; reflexivity|right; apply in_rev; assumption].
    + rewrite <- Hd, last_cons. symmetry. assumption.
    + rewrite map_rev, (map_rev Some), <- E. f_equal. apply map_eq_on. intros z Hz.
      assert (z <> 0) by (intros ->; contradiction).
      rewrite <- El'. unfold el, m2, m1. rewrite upd_other by assumption.
      destruct (Nat.eq_dec z x) as [->|Hzx]; [rewrite upd_same, Em1; reflexivity|rewrite upd_other by assumption; reflexivity].
    + rewrite F3. exact F.
Qed.

(** ** All operations *)
Lemma exec_ok w xs l f o : rep w xs l f -> list_ok l o ->
  exists w' xs', list_exec w o = Ok w' /\ rep w' xs' (fst (list_spec (l, f) o)) (snd (list_spec (l, f) o)).
Proof.
  intros R H. pose proof (rep_len _ _ _ _ R) as Hlen. pose proof (rep_bound _ _ _ _ R) as Hb.
  destruct o as [d a|d a|k d a|d| | |b|p b|p b]; cbn [list_exec list_spec fst snd list_ok] in *.
  - unfold l_append. rewrite (r_tail _ _ _ _ R).
    destruct (add_after_ok w xs [] l [] f d a) as (w' & E & R'); [rewrite !app_nil_r; exact R|assumption|].
    rewrite E. eauto.
  - destruct (add_after_ok w [] xs [] l f d a) as (w' & E & R'); [exact R|reflexivity|].
    exists w'. eexists. split; [exact E|]. exact R'.
  - unfold l_insert.
    destruct (nexts_ok w l f k [] xs i_rewind R eq_refl) as (i' & E & A); [lia|]. rewrite E. cbn [bind].
    cbn [app] in A. unfold at_pos in A. rewrite A. cbn [of_opt bind].
    destruct (add_after_ok w (firstn k xs) (skipn k xs) (firstn k l) (skipn k l) f d a) as (w' & E' & R').
    + rewrite !firstn_skipn. exact R.
    + rewrite !firstn_length. lia.
    + rewrite E'. eauto.
  - apply (unlink_ok d (length l) (l_fresh w) w xs l f R); lia.
  - unfold l_unlink_first. destruct (read_last w [] xs l f R) as (k & Hk & Nk). cbn [last] in Hk. rewrite Hk. cbn [bind].
    rewrite Nk. destruct xs as [|x xs]; (destruct l as [|e l]; try discriminate).
    + exists w, []. split; [reflexivity|]. cbn. rewrite app_nil_r. exact R.
    + rewrite (next_ok w [] (x :: xs) (e :: l) f i_rewind R eq_refl). cbn [bind last].
      destruct (unlink_iter w [] x xs [] e l f true 0 R eq_refl eq_refl) as (w' & E & _ & _ & R').
      rewrite E. cbn [bind]. exists w', xs. split; [reflexivity|]. exact R'.
  - destruct (reverse_ok _ _ _ _ R) as (w' & E & R'). eauto.
  - destruct (zap_ok b (length l) (l_fresh w) w xs l f R) as (w' & E & R'); [lia|lia|]. exists w', []. auto.
  - destruct (sweep_ok p b xs w [] [] l f i_rewind (l_fresh w) R eq_refl eq_refl) as (w' & xs' & E & R'); [lia|]. eauto.
  - unfold l_purge. rewrite (next_ok w [] xs l f i_rewind R eq_refl). cbn [bind].
    destruct (purge_ok p b xs w [] [] l f (l_fresh w) R eq_refl) as (w' & xs' & E & R'); [lia|]. eauto.
Qed.

Lemma observes_ok w xs l f : rep w xs l f -> list_observes w l.
Proof.
  intros R. pose proof (rep_len _ _ _ _ R) as Hlen. pose proof (rep_bound _ _ _ _ R) as Hb.
  destruct (read_last w [] xs l f R) as (k & Hk & Nk). cbn [last] in Hk.
  unfold list_observes. split; [|split; [|split; [|split; [|split]]]].
  - unfold l_count. rewrite Hk. cbn [bind]. rewrite Nk, (count_ok w f xs [] l 0 (l_fresh w) R) by lia. f_equal. lia.
  - unfold l_isempty. rewrite Hk. cbn [bind]. rewrite Nk. destruct xs, l; try discriminate; reflexivity.
  - apply (walk_ok w f xs [] [] l i_rewind (l_fresh w) R eq_refl eq_refl). lia.
  - intros e r ->. destruct xs as [|x xs]; [discriminate|]. unfold l_first. rewrite Hk. cbn [bind]. rewrite Nk. cbn [of_opt bind].
    destruct (read_elem w [] x xs [] e r f R eq_refl) as (k1 & Hk1 & Dk & _). rewrite Hk1. cbn [bind]. rewrite Dk. reflexivity.
  - intros e r ->. unfold l_last. rewrite (r_tail _ _ _ _ R).
    rewrite app_length in Hlen. cbn in Hlen. destruct (exists_last (l := xs)) as (ys & y & ->); [intros ->; cbn in Hlen; lia|].
    rewrite app_length in Hlen. cbn in Hlen.
    destruct (read_elem w ys y [] r e [] f R ltac:(lia)) as (k1 & Hk1 & Dk & _).
    rewrite last_app_cons. cbn [last]. rewrite Hk1. cbn [bind]. rewrite Dk. reflexivity.
  - intros d. unfold i_find.
    destruct (find_ok w f d xs [] [] l i_rewind (l_fresh w) R eq_refl eq_refl ltac:(lia))
      as [(ys1 & b & ys2 & m1 & e & m2 & -> & -> & Hl & He & Hni & Hfd)|(Hni & p & Hfd)]; rewrite Hfd; cbn [app] in R.
    + eexists. split; [reflexivity|]. cbn [it_link]. split.
      * split; [discriminate|]. intros H. exfalso. apply H. rewrite map_app. apply in_or_app. right. left. assumption.
      * intros a E. injection E as <-. destruct (read_elem w ys1 b ys2 m1 e m2 f R Hl) as (k1 & Hk1 & Dk & _). exists k1. split; [assumption|congruence].
    + eexists. split; [reflexivity|]. cbn [it_link]. split; [tauto|discriminate].
Qed.

Lemma new_ok : rep list_new [] [] [].
Proof.
  constructor; cbn [list_new l_mem l_fresh l_tail l_freed last map]; auto.
  - split; [exact I|reflexivity].
  - constructor; [cbn; tauto|constructor].
  - intros x [<-|[]]. lia.
Qed.

Lemma run_rep ops : forall w xs l f, rep w xs l f -> list_ops_ok (l, f) ops ->
  exists w' xs', list_run w ops = Ok w' /\
    rep w' xs' (fst (fold_left list_spec ops (l, f))) (snd (fold_left list_spec ops (l, f))).
Proof.
  induction ops as [|o ops IH]; intros w xs l f R H; cbn [list_run fold_left].
  - exists w, xs. auto.
  - destruct H as [H1 H2]. destruct (exec_ok w xs l f o R H1) as (w1 & xs1 & E & R1). rewrite E. cbn [bind].
    destruct (list_spec (l, f) o) as [l1 f1]. exact (IH _ _ _ _ R1 H2).
Qed.

Theorem list_ok_all ops l freed : list_ops_ok ([], []) ops -> fold_left list_spec ops ([], []) = (l, freed) ->
  exists w, list_run list_new ops = Ok w /\ list_observes w l /\ l_freed w = freed.
Proof.
  intros H E. destruct (run_rep ops _ _ _ _ new_ok H) as (w & xs & Er & R). rewrite E in R. cbn in R.
  exists w. split; [exact Er|]. split; [eapply observes_ok; exact R|exact (r_free _ _ _ _ R)].
Qed.
