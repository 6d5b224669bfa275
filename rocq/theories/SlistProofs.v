(** Proofs about stream lists. *)
From Verif Require Import Base BaseFacts SlistModel SlistSpec.
From Coq Require Import Lia ZArith.
Local Open Scope nat_scope.

Definition refs (h : heap) (s : nat) : nat := match h s with Some (n, _) => n | None => 0 end.
Definition flag (h : heap) (s : nat) : option bool := option_map snd (h s).
Definition solid (h : heap) : Prop := forall s k, h s <> Some (0, k).
(** Live streams keep their state. *)
Definition like (h h' : heap) : Prop := forall x, h' x <> None -> flag h' x = flag h x.
Lemma like_refl h : like h h. Proof. intros x _. reflexivity. Qed.
Lemma flag_none h x : flag h x = None -> h x = None.
Proof. unfold flag. destruct (h x); [discriminate|auto]. Qed.
Lemma like_trans h h1 h2 : like h h1 -> like h1 h2 -> like h h2.
Proof. intros A A2 x H. rewrite (A2 x H). apply A. intros N. pose proof (A2 x H) as E. unfold flag in E. rewrite N in E. cbn in E. destruct (h2 x); [discriminate|auto]. Qed.
Lemma solid_some h s : solid h -> 0 < refs h s -> exists n k, h s = Some (S n, k).
Proof. unfold refs. intros S H. destruct (h s) as [[[|n] k]|] eqn:E; try lia. eauto. Qed.
Lemma alive_refs h s : solid h -> (h s <> None <-> 0 < refs h s).
Proof. unfold refs. intros S. destruct (h s) as [[n k]|] eqn:E; [|split; [contradiction|lia]]. split; [|discriminate]. intros _. destruct n; [exfalso; eapply S, E|lia]. Qed.
Lemma refs_set h s v x : refs (set_heap h s v) x = if Nat.eqb x s then (match v with Some (n, _) => n | None => 0 end) else refs h x.
Proof. unfold refs, set_heap. destruct (Nat.eqb x s); reflexivity. Qed.
Lemma solid_set h s v : solid h -> (forall k, v <> Some (0, k)) -> solid (set_heap h s v).
Proof. intros S V x k. unfold set_heap. destruct (Nat.eqb x s); [apply V|apply S]. Qed.

Lemma addref_ok h s : solid h -> 0 < refs h s ->
  exists h', addref h s = Ok h' /\ solid h' /\ like h h' /\ forall x, refs h' x = refs h x + (if Nat.eqb x s then 1 else 0).
Proof.
  intros S H. destruct (solid_some h s S H) as (n & k & E). unfold addref. rewrite E. eexists. split; [reflexivity|].
  split; [apply solid_set; [exact S|discriminate]|]. split.
  - intros x _. unfold flag, set_heap. destruct (Nat.eqb_spec x s); [subst; rewrite E; reflexivity|reflexivity].
  - intros x. rewrite refs_set. destruct (Nat.eqb_spec x s); [subst; unfold refs; rewrite E; lia|lia].
Qed.
Lemma release_ok h s : solid h -> 0 < refs h s ->
  exists h', release h s = Ok h' /\ solid h' /\ like h h' /\ forall x, refs h' x = refs h x - (if Nat.eqb x s then 1 else 0).
Proof.
  intros S H. destruct (solid_some h s S H) as (n & k & E). unfold release. rewrite E.
  destruct n as [|n]; eexists; (split; [reflexivity|]); (split; [apply solid_set; [exact S|discriminate]|split]).
  - intros x. unfold flag, set_heap. destruct (Nat.eqb_spec x s); [contradiction|reflexivity].
  - intros x. rewrite refs_set. destruct (Nat.eqb_spec x s); [subst; unfold refs; rewrite E; lia|lia].
  - intros x _. unfold flag, set_heap. destruct (Nat.eqb_spec x s); [subst; rewrite E; reflexivity|reflexivity].
  - intros x. rewrite refs_set. destruct (Nat.eqb_spec x s); [subst; unfold refs; rewrite E; lia|lia].
Qed.
(** References of a list *)
Definition one (l : link) (x : nat) : nat := if Nat.eqb x (fst l) then (if snd l then 1 else 0) else 0.
Fixpoint cnt (l : list link) (x : nat) : nat := match l with [] => 0 | a :: r => one a x + cnt r x end.
Lemma cnt_app a b x : cnt (a ++ b) x = cnt a x + cnt b x.
Proof. induction a; cbn; lia. Qed.
Lemma drop_ok h l : solid h -> (forall x, one l x <= refs h x) ->
  exists h', drop h l = Ok h' /\ solid h' /\ like h h' /\ forall x, refs h' x = refs h x - one l x.
Proof.
  intros S H. unfold drop. destruct l as [s [|]]; cbn [fst snd] in *.
  - destruct (release_ok h s S) as (h' & E & S' & L & R); [specialize (H s); unfold one in H; cbn in H; rewrite Nat.eqb_refl in H; lia|].
    exists h'. repeat split; auto.
  - exists h. repeat split; auto using like_refl. intros x. unfold one. cbn. destruct (Nat.eqb x s); lia.
Qed.
Definition without (l : list link) (s : nat) : list link := filter (fun a => negb (Nat.eqb (fst a) s)) l.
Lemma cnt_without l s x : cnt (without l s) x = if Nat.eqb x s then 0 else cnt l x.
Proof.
  induction l as [|[a o] l IH]; cbn [without filter fst cnt]; [destruct (Nat.eqb x s); reflexivity|]. fold (without l s).
  destruct (Nat.eqb_spec a s); cbn; unfold one; cbn; rewrite IH; destruct (Nat.eqb_spec x s), (Nat.eqb_spec x a); subst; try lia; try congruence.
Qed.
Lemma unlink_ok l s : forall h, solid h -> (forall x, cnt l x <= refs h x) ->
  exists h', unlink h l s = Ok (h', without l s) /\ solid h' /\ like h h' /\ forall x, refs h' x = refs h x - (if Nat.eqb x s then cnt l s else 0).
Proof.
  induction l as [|[a o] l IH]; intros h S H; cbn [unlink without filter fst].
  - exists h. repeat split; auto using like_refl. intros x. destruct (Nat.eqb x s); cbn; lia.
  - cbn [cnt] in H. destruct (Nat.eqb_spec a s).
    + subst a. destruct (drop_ok h (s, o) S) as (h1 & E1 & S1 & L1 & R1); [intros x; specialize (H x); lia|]. rewrite E1. cbn [bind negb].
      destruct (IH h1 S1) as (h2 & E2 & S2 & L2 & R2); [intros x; rewrite R1; specialize (H x); lia|].
      fold (without l s). rewrite E2. exists h2. split; [reflexivity|]. split; [exact S2|]. split; [eapply like_trans; eauto|].
      intros x. rewrite R2, R1. cbn [cnt]. unfold one. cbn. destruct (Nat.eqb_spec x s); [subst; rewrite Nat.eqb_refl|]; lia.
    + destruct (IH h S) as (h2 & E2 & S2 & L2 & R2); [intros x; specialize (H x); lia|]. fold (without l s). rewrite E2. cbn [bind negb].
      exists h2. split; [reflexivity|]. repeat split; auto. intros x. rewrite R2. cbn [cnt]. unfold one. cbn.
      destruct (Nat.eqb_spec x s); [|reflexivity]. destruct (Nat.eqb_spec s a); [congruence|]. lia.
Qed.
Lemma zap_ok l : forall h, solid h -> (forall x, cnt l x <= refs h x) ->
  exists h', zap h l = Ok h' /\ solid h' /\ like h h' /\ forall x, refs h' x = refs h x - cnt l x.
Proof.
  induction l as [|a l IH]; intros h S H; cbn [zap cnt] in *.
  - exists h. repeat split; auto using like_refl. intros; lia.
  - destruct (drop_ok h a S) as (h1 & E1 & S1 & L1 & R1); [intros x; specialize (H x); lia|]. rewrite E1. cbn [bind].
    destruct (IH h1 S1) as (h2 & E2 & S2 & L2 & R2); [intros x; rewrite R1; specialize (H x); lia|]. exists h2. rewrite E2.
    split; [reflexivity|]. split; [exact S2|]. split; [eapply like_trans; eauto|]. intros x. rewrite R2, R1. lia.
Qed.
Lemma touch_ok h l : (forall a, In a l -> h (fst a) <> None) -> touch h l = Ok tt.
Proof.
  induction l as [|a l IH]; intros H; [reflexivity|]. cbn. unfold is_ok. pose proof (H a (or_introl eq_refl)).
  destruct (h (fst a)) as [[n k]|]; [|contradiction]. cbn. apply IH. intros; apply H; right; assumption.
Qed.

(** * post_select *)
Definition okf (h : heap) (s : nat) : bool := match h s with Some (_, k) => k | None => false end.
Lemma okf_like h h' x : like h h' -> h' x <> None -> okf h' x = okf h x.
Proof. intros L H. pose proof (L x H) as E. unfold flag, okf in *. destruct (h' x) as [[? ?]|]; [|contradiction]. destruct (h x) as [[? ?]|]; cbn in E; [congruence|discriminate]. Qed.
Definition addsure (ready : nat -> bool) (su : list link) (a : link) : list link := if ready (fst a) then without su (fst a) ++ [(fst a, true)] else su.
Lemma has_in l s : has l s = true <-> In s (map fst l).
Proof. unfold has. rewrite existsb_exists, in_map_iff. split; intros (a & H1 & H2); exists a; rewrite Nat.eqb_eq in *; auto. Qed.
Lemma post_loop_ok ready (l : list link) : forall (R : nat -> nat) h su, solid h ->
  (forall x, refs h x = R x + cnt l x + cnt su x) ->
  (forall x, In (x, false) l -> 0 < R x) -> (forall x, In x (map fst su) -> ready x = true) ->
  exists h', post_loop ready h l su = Ok (h', filter (fun a => okf h (fst a)) l, fold_left (addsure ready) l su, existsb (fun a => negb (okf h (fst a))) l) /\
    solid h' /\ like h h' /\ forall x, refs h' x = R x + cnt (filter (fun a => okf h (fst a)) l) x + cnt (fold_left (addsure ready) l su) x.
Proof.
  induction l as [|a l IH]; intros R h su S HR Hu Hs; cbn [post_loop filter fold_left existsb cnt] in *.
  - exists h. repeat split; auto using like_refl.
  - assert (Ra : 0 < refs h (fst a)).
    { rewrite HR. destruct a as [s [|]]; cbn [fst]; [unfold one; cbn; rewrite Nat.eqb_refl; lia|]. pose proof (Hu s (or_introl eq_refl)). lia. }
    destruct (solid_some _ _ S Ra) as (n0 & k0 & E0). unfold is_ok at 1. rewrite E0. cbn [bind].
    assert (M : exists h1, (if ready (fst a) then let! (h, sure) := unlink h su (fst a) in let! h := addref h (fst a) in Ok (h, sure ++ [(fst a, true)]) else if has su (fst a) then Fault else Ok (h, su)) = Ok (h1, addsure ready su a)
      /\ solid h1 /\ like h h1 /\ forall x, refs h1 x = R x + (one a x + cnt l x) + cnt (addsure ready su a) x).
    { unfold addsure. destruct (ready (fst a)) eqn:Er.
      - destruct (unlink_ok su (fst a) h S) as (h1 & E1 & S1 & L1 & R1); [intros x; rewrite HR; lia|]. rewrite E1. cbn [bind].
        destruct (addref_ok h1 (fst a) S1) as (h2 & E2 & S2 & L2 & R2).
        { rewrite R1, Nat.eqb_refl, HR. assert (0 < R (fst a) + one a (fst a)); [|lia]. destruct a as [s [|]]; cbn [fst]; [unfold one; cbn; rewrite Nat.eqb_refl; lia|]. pose proof (Hu s (or_introl eq_refl)). lia. }
        rewrite E2. cbn [bind]. exists h2. split; [reflexivity|]. split; [exact S2|]. split; [eapply like_trans; eauto|].
        intros x. rewrite R2, R1, HR, cnt_app, cnt_without. cbn [cnt]. change (one (fst a, true) x) with (if Nat.eqb x (fst a) then 1 else 0). destruct (Nat.eqb_spec x (fst a)); [subst|]; lia.
      - destruct (has su (fst a)) eqn:Eh; [apply has_in in Eh; apply Hs in Eh; congruence|]. exists h. repeat split; auto using like_refl. }
    destruct M as (h1 & E1 & S1 & L1 & R1). rewrite E1. cbn [bind].
    assert (Ra1 : 0 < refs h1 (fst a)).
    { rewrite R1. destruct a as [s [|]]; cbn [fst]; [unfold one; cbn; rewrite Nat.eqb_refl; lia|]. pose proof (Hu s (or_introl eq_refl)). lia. }
    destruct (solid_some _ _ S1 Ra1) as (n1 & k1 & E2). unfold is_ok at 1. rewrite E2. cbn [bind].
    assert (K : okf h (fst a) = k1).
    { rewrite <- (okf_like h h1 (fst a) L1); [unfold okf; rewrite E2; reflexivity|rewrite E2; discriminate]. }
    rewrite K.
    assert (Hs1 : forall x, In x (map fst (addsure ready su a)) -> ready x = true).
    { intros x. unfold addsure. destruct (ready (fst a)) eqn:Er; [|apply Hs]. rewrite map_app, in_app_iff. intros [I|[<-|[]]]; [|exact Er].
      apply Hs. apply in_map_iff in I as (b & <- & I). apply filter_In in I as [I _]. apply in_map; exact I. }
    assert (EQ : forall h2, like h1 h2 -> (forall x, In x l -> h2 (fst x) <> None) ->
        filter (fun a0 => okf h2 (fst a0)) l = filter (fun a0 => okf h (fst a0)) l /\
        existsb (fun a0 => negb (okf h2 (fst a0))) l = existsb (fun a0 => negb (okf h (fst a0))) l).
    { intros h2 L2 Al. pose proof (like_trans _ _ _ L1 L2) as L3. clear - L3 Al. induction l as [|b l IHl]; [auto|]. cbn.
      rewrite (okf_like h h2 (fst b) L3 (Al b (or_introl eq_refl))). destruct IHl as [-> ->]; [intros; apply Al; right; assumption|auto]. }
    assert (AL : forall h2 R2, solid h2 -> (forall x, refs h2 x = R2 x + cnt l x + cnt (addsure ready su a) x) -> (forall x, In (x, false) l -> 0 < R2 x) -> forall x, In x l -> h2 (fst x) <> None).
    { intros h2 R2 S2 HR2 Hu2 x I. apply alive_refs; [exact S2|]. rewrite HR2. destruct x as [s [|]]; cbn [fst].
      - assert (0 < cnt l s); [|lia]. clear - I. induction l as [|b l IHl]; [destruct I|]. cbn. destruct I as [->|I]; [unfold one; cbn; rewrite Nat.eqb_refl; lia|]. specialize (IHl I). lia.
      - pose proof (Hu2 s I). lia. }
    destruct k1; cbn [negb orb].
    + destruct (IH (fun x => R x + one a x) h1 (addsure ready su a) S1) as (h2 & E3 & S2 & L2 & R2); auto.
      { intros x. rewrite R1. lia. }
      { intros x I. pose proof (Hu x (or_intror I)). lia. }
      rewrite E3. cbn [bind].
      destruct (EQ h1 (like_refl _)) as [Q1 Q2]; [eapply (AL h1 (fun x => R x + one a x)); auto; [intros; rewrite R1; lia|intros x I; pose proof (Hu x (or_intror I)); lia]|].
      exists h2. rewrite Q1, Q2 in *. split; [reflexivity|]. split; [exact S2|]. split; [eapply like_trans; eauto|].
      intros x. rewrite R2. cbn [cnt]. lia.
    + destruct (drop_ok h1 a S1) as (h2 & E3 & S2 & L2 & R2); [intros x; rewrite R1; lia|]. rewrite E3. cbn [bind].
      destruct (IH R h2 (addsure ready su a) S2) as (h3 & E4 & S3 & L3 & R3); auto.
      { intros x. rewrite R2, R1. lia. }
      { intros x I. exact (Hu x (or_intror I)). }
      destruct (EQ h2 L2) as [Q1 Q2]; [apply (AL h2 R); [exact S2|intros; rewrite R2, R1; lia|intros x I; exact (Hu x (or_intror I))]|]. rewrite Q1, Q2 in E4. rewrite Q1 in R3.
      rewrite E4. cbn [bind]. exists h3. split; [reflexivity|]. split; [exact S3|]. split; [eapply like_trans; [eapply like_trans; eauto|exact L3]|].
      intros x. rewrite R3. reflexivity.
Qed.

(** * The invariant *)
Fixpoint fcnt (k : list frame) (x : nat) : nat :=
  match k with [] => 0 | FCall s :: k => (if Nat.eqb x s then 1 else 0) + fcnt k x | FLoop :: k => fcnt k x end.
Definition inv (c : conf) : Prop :=
  solid (hp (st c)) /\
  (forall x, refs (hp (st c)) x = held c x + cnt (main (st c)) x + cnt (sure (st c)) x + fcnt (stack c) x) /\
  (forall x, In (x, false) (main (st c)) -> 0 < held c x) /\
  (forall a, In a (sure (st c)) -> snd a = true).
Lemma cnt_in l a : In a l -> snd a = true -> 0 < cnt l (fst a).
Proof. induction l as [|b l IH]; [intros []|]. intros [->|I] H; cbn; [unfold one; rewrite Nat.eqb_refl, H; lia|]. specialize (IH I H). lia. Qed.
Lemma without_in l s a : In a (without l s) -> In a l.
Proof. intros I. apply filter_In in I as [I _]. exact I. Qed.
Lemma addsure_own ready l : forall su, (forall a, In a su -> snd a = true) -> forall a, In a (fold_left (addsure ready) l su) -> snd a = true.
Proof.
  induction l as [|b l IH]; intros su H; [exact H|]. cbn. apply IH. intros a. unfold addsure. destruct (ready (fst b)); [|apply H].
  rewrite in_app_iff. intros [I|[<-|[]]]; [|reflexivity]. apply H. eapply without_in; eauto.
Qed.
Definition after_select (c : conf) (due : bool) (ready : nat -> bool) (c' : conf) : Prop :=
  (main (st c') = filter (fun a => okf (hp (st c)) (fst a)) (main (st c))) /\
  (sure (st c') = fold_left (addsure ready) (main (st c)) []) /\
  (stack c' = if due || existsb (fun a => negb (okf (hp (st c)) (fst a))) (main (st c)) || negb (match sure (st c') with [] => true | _ => false end) then FLoop :: stack c else stack c).
Lemma select_inv c due ready : inv c -> exists c', do_act c (ASelect due ready) = Ok c' /\ inv c' /\ after_select c due ready c' /\ held c' = held c /\ like (hp (st c)) (hp (st c')).
Proof.
  intros (S & HR & Hu & Hs). cbn [do_act]. unfold pre_select.
  destruct (zap_ok (sure (st c)) (hp (st c)) S) as (h1 & E1 & S1 & L1 & R1); [intros x; rewrite HR; lia|]. rewrite E1. cbn [bind].
  assert (HR1 : forall x, refs h1 x = (held c x + fcnt (stack c) x) + cnt (main (st c)) x + cnt [] x) by (intros x; rewrite R1, HR; cbn; lia).
  rewrite touch_ok.
  2: { intros a I. apply alive_refs; [exact S1|]. rewrite HR1. destruct a as [s [|]].
       - pose proof (cnt_in _ _ I eq_refl). cbn [fst] in *. lia.
       - pose proof (Hu s I). cbn [fst]. lia. }
  cbn [bind post_select hp main sure]. unfold post_select. cbn [hp main sure].
  destruct (post_loop_ok ready (main (st c)) (fun x => held c x + fcnt (stack c) x) h1 [] S1 HR1) as (h2 & E2 & S2 & L2 & R2).
  { intros x I. pose proof (Hu x I). lia. }
  { intros x []. }
  rewrite E2. cbn [bind].
  assert (AL : forall a, In a (main (st c)) -> h1 (fst a) <> None).
  { intros a I. apply alive_refs; [exact S1|]. rewrite HR1. destruct a as [s [|]]; [pose proof (cnt_in _ _ I eq_refl)|pose proof (Hu s I)]; cbn [fst] in *; lia. }
  assert (Q : forall l : list link, (forall a, In a l -> h1 (fst a) <> None) -> filter (fun a => okf h1 (fst a)) l = filter (fun a => okf (hp (st c)) (fst a)) l /\
     existsb (fun a => negb (okf h1 (fst a))) l = existsb (fun a => negb (okf (hp (st c)) (fst a))) l).
  { clear - L1. induction l as [|b l IHl]; intros Al; [auto|]. cbn. rewrite (okf_like _ h1 (fst b) L1 (Al b (or_introl eq_refl))).
    destruct IHl as [-> ->]; [intros; apply Al; right; assumption|auto]. }
  destruct (Q _ AL) as [Q1 Q2]. rewrite Q1, Q2 in *. eexists. split; [reflexivity|]. split; [|split; [|split]].
  - split; [exact S2|]. split; [|split].
    + intros x. cbn [st hp main sure held stack]. rewrite R2. destruct (_ || _); cbn [fcnt]; lia.
    + intros x I. cbn [st hp main sure held stack] in *. apply Hu. apply filter_In in I as [I _]. exact I.
    + cbn [st hp main sure]. apply addsure_own. intros a [].
  - repeat split.
  - reflexivity.
  - cbn [st hp]. eapply like_trans; eauto.
Qed.
Ltac fin_inv := split; [|split; [|split]]; cbn [st hp main sure held stack with_hp] in *.
Lemma cnt_split m k l x : nth_error m k = Some l -> cnt m x = cnt (firstn k m ++ skipn (S k) m) x + one l x.
Proof.
  revert k. induction m as [|a m IH]; intros [|k] E; try discriminate; cbn [nth_error] in E.
  - injection E as ->. cbn. lia.
  - cbn [firstn skipn app cnt]. rewrite (IH k E). cbn [skipn]. lia.
Qed.
Lemma in_split_at (m : list link) k a : In a (firstn k m ++ skipn (S k) m) -> In a m.
Proof.
  rewrite in_app_iff. intros [I|I]; rewrite <- (firstn_skipn k m).
  - apply in_app_iff. left. exact I.
  - apply in_app_iff. right. revert k I. induction m as [|b m IH]; intros [|k] I; cbn in *; auto.
Qed.
Lemma act_inv c a : inv c -> allowed c a -> exists c', do_act c a = Ok c' /\ inv c'.
Proof.
  intros Hi Ha. destruct a as [s|s own|s own|s|k|s|s|s|due ready].
  9: { destruct (select_inv c due ready Hi) as (c' & E & I & _). eauto. }
  all: destruct Hi as (S & HR & Hu & Hs).
  - cbn [allowed do_act] in *. rewrite Ha. eexists. split; [reflexivity|]. fin_inv.
    + apply solid_set; [exact S|discriminate].
    + intros x. rewrite refs_set. unfold bump. specialize (HR x). destruct (Nat.eqb_spec x s); [subst; unfold refs in HR; rewrite Ha in HR|]; lia.
    + intros x I. unfold bump. destruct (Nat.eqb x s); [lia|]. apply Hu, I.
    + exact Hs.
  - destruct Ha as [H0 H1]. cbn [do_act]. eexists. split; [reflexivity|]. fin_inv; auto.
    + intros x. rewrite HR, cnt_app. cbn [cnt]. unfold one. cbn [fst snd]. unfold bump. destruct own, (Nat.eqb_spec x s); subst; lia.
    + intros x I. apply in_app_iff in I as [I|[E|[]]].
      * pose proof (Hu x I). destruct own; [|auto]. unfold bump. destruct (Nat.eqb_spec x s); [|auto]. subst.
        destruct H1 as [H1|[H1|[H1|H1]]]; [lia|contradiction|discriminate|discriminate].
      * injection E as -> ->. lia.
  - destruct Ha as [H0 H1]. cbn [do_act]. eexists. split; [reflexivity|]. fin_inv; auto.
    + intros x. rewrite HR. cbn [cnt]. unfold one. cbn [fst snd]. unfold bump. destruct own, (Nat.eqb_spec x s); subst; lia.
    + intros x I. destruct I as [E|I].
      * injection E as -> ->. lia.
      * pose proof (Hu x I). destruct own; [|auto]. unfold bump. destruct (Nat.eqb_spec x s); [|auto]. subst.
        destruct H1 as [H1|[H1|[H1|H1]]]; [lia|contradiction|discriminate|discriminate].
  - cbn [do_act]. destruct (unlink_ok (sure (st c)) s (hp (st c)) S) as (h1 & E1 & S1 & L1 & R1); [intros x; rewrite HR; lia|]. rewrite E1. cbn [bind].
    destruct (unlink_ok (main (st c)) s h1 S1) as (h2 & E2 & S2 & L2 & R2).
    { intros x. rewrite R1, HR. destruct (Nat.eqb_spec x s); [subst|]; lia. }
    rewrite E2. cbn [bind]. eexists. split; [reflexivity|]. fin_inv; auto.
    + intros x. rewrite R2, R1, HR, !cnt_without. destruct (Nat.eqb_spec x s); [subst|]; lia.
    + intros x I. apply without_in in I. auto.
    + intros a I. apply without_in in I. auto.
  - cbn [do_act]. destruct (nth_error (main (st c)) k) as [l|] eqn:E; [|exists c; split; [reflexivity|]; split; [exact S|auto]].
    destruct (drop_ok (hp (st c)) l S) as (h1 & E1 & S1 & L1 & R1).
    { intros x. rewrite HR, (cnt_split _ _ _ x E). lia. }
    rewrite E1. cbn [bind]. eexists. split; [reflexivity|]. fin_inv; auto.
    + intros x. rewrite R1, HR, (cnt_split _ _ _ x E). lia.
    + intros x I. apply in_split_at in I. auto.
  - cbn [allowed do_act] in *. destruct (hp (st c) s) as [[n b]|] eqn:E; [|contradiction]. eexists. split; [reflexivity|]. fin_inv; auto.
    + apply solid_set; [exact S|]. intros k N. assert (n = 0) by congruence. subst. eapply S, E.
    + intros x. rewrite refs_set, <- HR. destruct (Nat.eqb_spec x s); [subst; unfold refs; rewrite E|]; reflexivity.
  - cbn [allowed do_act] in *. apply (alive_refs _ s S) in Ha. destruct (addref_ok _ s S Ha) as (h1 & E1 & S1 & L1 & R1). rewrite E1. cbn [bind].
    eexists. split; [reflexivity|]. fin_inv; auto.
    + intros x. rewrite R1, HR. unfold bump. destruct (Nat.eqb x s); lia.
    + intros x I. unfold bump. pose proof (Hu x I). destruct (Nat.eqb x s); lia.
  - cbn [allowed do_act] in *. destruct Ha as [H0 H1]. destruct (release_ok (hp (st c)) s S) as (h1 & E1 & S1 & L1 & R1); [rewrite HR; lia|]. rewrite E1. cbn [bind].
    eexists. split; [reflexivity|]. fin_inv; auto.
    + intros x. rewrite R1, HR. unfold bump. destruct (Nat.eqb_spec x s); [subst|]; lia.
    + intros x I. unfold bump. pose proof (Hu x I). destruct (Nat.eqb_spec x s); [subst|lia]. destruct H1 as [H1|H1]; [lia|contradiction].
Qed.
Lemma step_inv c e : inv c -> (match e with EAct a => allowed c a | _ => True end) -> step c e = NoFuel \/ exists c', step c e = Ok c' /\ inv c'.
Proof.
  intros Hi Ha. unfold step. destruct e as [a|s|s|].
  - destruct (stack c) as [|[|t] k]; [right; apply act_inv; auto|left; reflexivity|right; apply act_inv; auto].
  - destruct (stack c) as [|[|t] k] eqn:Ek; auto. destruct (sure (st c)) as [|l r] eqn:Es; auto. destruct (Nat.eqb_spec (fst l) s); auto. right.
    destruct Hi as (S & HR & Hu & Hs). rewrite Es, Ek in HR. rewrite Es in Hs.
    pose proof (Hs l (or_introl eq_refl)) as Hl.
    assert (O : forall x, one l x = if Nat.eqb x s then 1 else 0) by (intros x; unfold one; rewrite e, Hl; reflexivity).
    cbn [cnt] in HR. destruct (addref_ok (hp (st c)) s S) as (h1 & E1 & S1 & L1 & R1); [rewrite HR, O, Nat.eqb_refl; lia|]. rewrite E1. cbn [bind].
    destruct (drop_ok h1 l S1) as (h2 & E2 & S2 & L2 & R2); [intros x; rewrite R1, HR; lia|]. rewrite E2. cbn [bind]. eexists. split; [reflexivity|]. fin_inv; auto.
    + intros x. rewrite R2, R1, HR. cbn [fcnt]. rewrite O. lia.
    + intros a I. apply Hs. right. exact I.
  - destruct (stack c) as [|[|t] k] eqn:Ek; auto. destruct (Nat.eqb_spec s t); auto. subst t. right.
    destruct Hi as (S & HR & Hu & Hs). rewrite Ek in HR. cbn [fcnt] in HR.
    destruct (release_ok (hp (st c)) s S) as (h1 & E1 & S1 & L1 & R1); [rewrite HR, Nat.eqb_refl; lia|]. rewrite E1. cbn [bind]. eexists. split; [reflexivity|]. fin_inv; auto.
    intros x. rewrite R1, HR. destruct (Nat.eqb x s); lia.
  - destruct (stack c) as [|[|t] k] eqn:Ek; auto. destruct (sure (st c)) as [|l r] eqn:Es; auto. right. eexists. split; [reflexivity|].
    destruct Hi as (S & HR & Hu & Hs). rewrite Ek in HR. fin_inv; auto.
Qed.
Lemma run_inv es : forall c, inv c -> polite c es -> run c es = NoFuel \/ exists c', run c es = Ok c' /\ inv c'.
Proof.
  induction es as [|e es IH]; intros c Hi P; cbn [run]; [eauto|]. destruct P as [P1 P2].
  destruct (step_inv c e Hi P1) as [->|(c' & E & Hi')]; [auto|]. rewrite E. cbn [bind]. apply IH; auto.
Qed.
Lemma init_inv : inv init.
Proof. split; [|split; [|split]]; cbn; auto; try contradiction. discriminate. Qed.

(** * A round *)
Lemma todo_without l s : map fst (without l s) = filter (fun x => negb (Nat.eqb x s)) (map fst l).
Proof. induction l as [|a l IH]; [reflexivity|]. cbn. destruct (Nat.eqb (fst a) s); cbn; rewrite <- IH; reflexivity. Qed.
Lemma unlink_list l s : forall h h' l', unlink h l s = Ok (h', l') -> l' = without l s.
Proof.
  induction l as [|a l IH]; intros h h' l' E; cbn [unlink] in E; [injection E as _ <-; reflexivity|]. cbn [without filter]. fold (without l s).
  destruct (Nat.eqb (fst a) s); cbn [negb].
  - destruct (drop h a) as [h1| |]; cbn in E; try discriminate. eauto.
  - destruct (unlink h l s) as [[h1 r]| |] eqn:E1; cbn in E; try discriminate. injection E as _ <-. f_equal. eauto.
Qed.
(** What a step without select() does to the streams to be called *)
Lemma step_todo c e c' : step c e = Ok c' -> (forall d r, e <> EAct (ASelect d r)) ->
  match e with
  | ECall s => todo c = s :: todo c'
  | EAct (AUnlink s) => todo c' = filter (fun x => negb (Nat.eqb x s)) (todo c)
  | EDone => todo c = [] /\ todo c' = []
  | _ => todo c' = todo c
  end.
Proof.
  intros E N. unfold step in E. destruct e as [a|s|s|].
  - assert (E' : do_act c a = Ok c') by (destruct (stack c) as [|[|t] k]; [exact E|discriminate|exact E]). clear E. rename E' into E.
    destruct a as [s|s own|s own|s|k|s|s|s|due ready]; unfold todo; cbn [do_act] in E.
    + destruct (hp (st c) s); [discriminate|]. injection E as <-. reflexivity.
    + injection E as <-. reflexivity.
    + injection E as <-. reflexivity.
    + destruct (unlink (hp (st c)) (sure (st c)) s) as [[h su]| |] eqn:E1; cbn in E; try discriminate.
      destruct (unlink h (main (st c)) s) as [[h2 m]| |]; cbn in E; try discriminate. injection E as <-. cbn.
      apply unlink_list in E1. subst su. apply todo_without.
    + destruct (nth_error (main (st c)) k); [|injection E as <-; reflexivity]. destruct (drop _ _); cbn in E; try discriminate. injection E as <-. reflexivity.
    + destruct (hp (st c) s) as [[? ?]|]; [|discriminate]. injection E as <-. reflexivity.
    + destruct (addref _ _); cbn in E; try discriminate. injection E as <-. reflexivity.
    + destruct (release _ _); cbn in E; try discriminate. injection E as <-. reflexivity.
    + exfalso. eapply N. reflexivity.
  - destruct (stack c) as [|[|t] k]; try discriminate. destruct (sure (st c)) as [|l r] eqn:Es; [discriminate|]. destruct (Nat.eqb_spec (fst l) s); [|discriminate].
    destruct (addref _ _) as [h1| |]; cbn in E; try discriminate. destruct (drop h1 l); cbn in E; try discriminate. injection E as <-. unfold todo. rewrite Es. cbn. congruence.
  - destruct (stack c) as [|[|t] k]; try discriminate. destruct (Nat.eqb s t); [|discriminate]. destruct (release _ _); cbn in E; try discriminate. injection E as <-. reflexivity.
  - destruct (stack c) as [|[|t] k]; try discriminate. destruct (sure (st c)) as [|l r] eqn:Es; [|discriminate]. injection E as <-. unfold todo. cbn. rewrite Es. auto.
Qed.
Lemma sub_in a b x : sub a b -> In x a -> In x b.
Proof. induction 1; cbn; intuition. Qed.
Lemma sub_filter p a b : sub a (filter p b) -> sub a b.
Proof.
  revert a. induction b as [|x b IH]; intros a H; [exact H|]. cbn in H. destruct (p x).
  - inversion H; subst; [constructor|apply sub_take; auto|apply sub_skip; auto].
  - apply sub_skip. auto.
Qed.
Lemma sub_refl l : sub l l. Proof. induction l; [constructor|apply sub_take; auto]. Qed.
Lemma round es : forall c c', run c es = Ok c' -> no_select es ->
  sub (calls es ++ todo c') (todo c) /\
  (forall s, In s (todo c) -> In s (calls es) \/ In s (todo c') \/ In (EAct (AUnlink s)) es) /\
  (forall s u v, es = u ++ EAct (AUnlink s) :: v -> ~ In s (calls v)).
Proof.
  induction es as [|e es IH]; intros c c' R N; cbn [run] in R.
  - injection R as <-. cbn. split; [apply sub_refl|]. split; [auto|]. intros s u v E. destruct u; discriminate.
  - destruct (step c e) as [c1| |] eqn:E; cbn in R; try discriminate.
    assert (N1 : no_select es) by (intros d r I; apply (N d r); right; exact I).
    assert (Ne : forall d r, e <> EAct (ASelect d r)) by (intros d r ->; apply (N d r); left; reflexivity).
    destruct (IH c1 c' R N1) as (H1 & H2 & H3). pose proof (step_todo c e c1 E Ne) as T.
    split; [|split].
    + destruct e as [a|s|s|]; cbn [calls].
      * destruct a; try (rewrite <- T; exact H1); try (exfalso; eapply Ne; reflexivity). rewrite T in H1. eapply sub_filter, H1.
      * rewrite T. apply sub_take. exact H1.
      * rewrite <- T. exact H1.
      * destruct T as [T1 T2]. rewrite T1. rewrite T2 in H1. exact H1.
    + intros x I. destruct e as [a|s|s|].
      * destruct a as [| | |s| | | | |]; try (rewrite <- T in I; destruct (H2 x I) as [K|[K|K]]; [left|right; left|right; right; right]; exact K); try (exfalso; eapply Ne; reflexivity).
        destruct (Nat.eq_dec x s) as [->|D]; [right; right; left; reflexivity|].
        assert (I' : In x (todo c1)) by (rewrite T; apply filter_In; split; [exact I|]; destruct (Nat.eqb_spec x s); [contradiction|reflexivity]).
        destruct (H2 x I') as [K|[K|K]]; [left|right; left|right; right; right]; exact K.
      * rewrite T in I. destruct I as [->|I]; [left; left; reflexivity|]. destruct (H2 x I) as [K|[K|K]]; [left; right|right; left|right; right; right]; exact K.
      * rewrite <- T in I. destruct (H2 x I) as [K|[K|K]]; [left|right; left|right; right; right]; exact K.
      * destruct T as [T1 T2]. rewrite T1 in I. destruct I.
    + intros s u v Eq. destruct u as [|e0 u]; cbn in Eq; injection Eq as -> ->.
      * intros I. assert (I' : In s (todo c1)) by (eapply sub_in; [exact H1|apply in_app_iff; left; exact I]).
        rewrite T in I'. apply filter_In in I' as [_ I']. rewrite Nat.eqb_refl in I'. discriminate.
      * eapply H3. reflexivity.
Qed.

(** * The streams found ready *)
Lemma addsure_in ready l : forall su x, In x (map fst (fold_left (addsure ready) l su)) <-> In x (map fst su) \/ (In x (map fst l) /\ ready x = true).
Proof.
  induction l as [|a l IH]; intros su x; cbn [fold_left map]; [cbn; tauto|]. rewrite IH. unfold addsure.
  destruct (ready (fst a)) eqn:Er.
  - rewrite map_app, in_app_iff, todo_without, filter_In. cbn. destruct (Nat.eqb_spec x (fst a)); [subst; rewrite Er|]; intuition congruence.
  - cbn. split; [tauto|]. intros [H|[[H|H] H2]]; [tauto|congruence|tauto].
Qed.
Lemma addsure_nodup ready l : forall su, NoDup (map fst su) -> NoDup (map fst (fold_left (addsure ready) l su)).
Proof.
  induction l as [|a l IH]; intros su H; [exact H|]. cbn [fold_left]. apply IH. unfold addsure. destruct (ready (fst a)); [|exact H].
  rewrite map_app, todo_without. cbn. apply NoDup_Add with (a := fst a) (l := filter (fun x => negb (Nat.eqb x (fst a))) (map fst su)).
  - rewrite <- (app_nil_r (filter _ _)) at 1. apply Add_app.
  - split; [apply NoDup_filter, H|]. intros I. apply filter_In in I as [_ I]. rewrite Nat.eqb_refl in I. discriminate.
Qed.
Lemma filter_all {A} (p : A -> bool) l : (forall x, In x l -> p x = true) -> filter p l = l.
Proof. induction l as [|a l IH]; intros H; [reflexivity|]. cbn. rewrite (H a (or_introl eq_refl)), IH; auto. intros; apply H; right; assumption. Qed.
Lemma addsure_order ready l : forall su, NoDup (map fst su ++ map fst l) -> map fst (fold_left (addsure ready) l su) = map fst su ++ filter ready (map fst l).
Proof.
  induction l as [|a l IH]; intros su H; cbn [fold_left map filter]; [rewrite app_nil_r; reflexivity|].
  cbn [map] in H. assert (Na : ~ In (fst a) (map fst su)).
  { apply NoDup_remove_2 in H. rewrite in_app_iff in H. tauto. }
  assert (Ef : filter (fun x => negb (Nat.eqb x (fst a))) (map fst su) = map fst su).
  { apply filter_all. intros x I. destruct (Nat.eqb_spec x (fst a)); [subst; contradiction|reflexivity]. }
  unfold addsure at 2. destruct (ready (fst a)) eqn:Er.
  - rewrite IH; rewrite map_app, todo_without, Ef; cbn; rewrite <- app_assoc; auto.
  - rewrite IH; auto. apply NoDup_remove_1 in H. exact H.
Qed.

(** * Timeouts *)
Lemma lower_sooner t w : sooner (lower t w) t /\ sooner (lower t w) w /\ (lower t w = t \/ lower t w = w).
Proof.
  unfold lower, sooner. destruct (Z.leb_spec 0 w), (Z.ltb_spec w t), (Z.ltb_spec t 0); cbn; repeat split; try lia.
Qed.
Lemma sooner_trans a b c : sooner a b -> sooner b c -> sooner a c.
Proof. unfold sooner. lia. Qed.
Lemma lowers (ws : list (Z * bool)) : forall t, let r := fold_left (fun t w => lower t (fst w)) ws t in
  sooner r t /\ (forall w, In w ws -> sooner r (fst w)) /\ (r = t \/ In r (map fst ws)).
Proof.
  induction ws as [|w ws IH]; intros t; cbn [fold_left]; cbn zeta.
  - split; [unfold sooner; lia|]. split; [intros ? []|auto].
  - destruct (lower_sooner t (fst w)) as (A & A2 & A3). destruct (IH (lower t (fst w))) as (H1 & H2 & H3).
    split; [eapply sooner_trans; eauto|]. split; [intros x [<-|I]; [eapply sooner_trans; eauto|auto]|].
    destruct H3 as [->|H3]; [|right; right; exact H3]. destruct A3 as [->| ->]; [left; reflexivity|right; left; reflexivity].
Qed.
(** * Who holds a stream *)
Lemma cnt_zero l x : cnt l x = 0 <-> ~ In (x, true) l.
Proof.
  induction l as [|[s o] l IH]; cbn [cnt]; [cbn; tauto|]. unfold one. cbn [fst snd In]. destruct (Nat.eqb_spec x s), o.
  - subst. split; [lia|]. intros H. exfalso. apply H. auto.
  - rewrite Nat.add_0_l, IH. split; [intros H [E|I]; [congruence|tauto]|tauto].
  - rewrite Nat.add_0_l, IH. split; [intros H [E|I]; [congruence|tauto]|tauto].
  - rewrite Nat.add_0_l, IH. split; [intros H [E|I]; [congruence|tauto]|tauto].
Qed.
Lemma fcnt_zero k x : fcnt k x = 0 <-> ~ In (FCall x) k.
Proof.
  induction k as [|[|s] k IH]; cbn [fcnt In]; [tauto| |].
  - rewrite IH. split; [intros H [E|I]; [discriminate|tauto]|tauto].
  - destruct (Nat.eqb_spec x s); [subst; split; [lia|intros H; exfalso; apply H; auto]|]. rewrite Nat.add_0_l, IH.
    split; [intros H [E|I]; [congruence|tauto]|tauto].
Qed.
Lemma todo_in c s : inv c -> (In s (todo c) <-> In (s, true) (sure (st c))).
Proof.
  intros (_ & _ & _ & Hs). unfold todo. rewrite in_map_iff. split.
  - intros ([x o] & <- & I). pose proof (Hs _ I) as E. cbn in E. subst. exact I.
  - intros I. exists (s, true). auto.
Qed.
Lemma dead_iff c s : inv c -> (hp (st c) s = None <-> held c s = 0 /\ ~ In (s, true) (main (st c)) /\ ~ In s (todo c) /\ ~ In (FCall s) (stack c)).
Proof.
  intros Hi. rewrite (todo_in c s Hi). destruct Hi as (S & HR & Hu & Hs). rewrite <- !cnt_zero, <- fcnt_zero. specialize (HR s).
  assert (E : hp (st c) s = None <-> refs (hp (st c)) s = 0).
  { pose proof (alive_refs _ s S) as A. destruct (hp (st c) s) as [v|] eqn:E; [|unfold refs; rewrite E; tauto].
    assert (0 < refs (hp (st c)) s) by (apply A; discriminate). split; [discriminate|lia]. }
  rewrite E. lia.
Qed.
