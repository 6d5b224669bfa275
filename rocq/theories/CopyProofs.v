(** Proofs about copying and moving keys. *)
From Verif Require Import Base BaseFacts Ctype KeyModel KeySpec KeyProofs TempModel TempSpec TreeProofs TempProofs TempProps WatchModel RecModel RecProofs RecProps MountProofs CopySpec CopyModel.
Local Open Scope nat_scope.

Notation plains := (Forall plain).

(** ** Paths *)
Lemma under_split a k : under a k = true -> lows k = lows a ++ lows (rest a k).
Proof. intros H. unfold rest. rewrite skipn_lows. apply under_lows in H. destruct H as (r & E). rewrite E, skipn_app, lows_length, Nat.sub_diag, skipn_all2 by (rewrite lows_length; lia). reflexivity. Qed.
Lemma rest_app a r : rest a (a ++ r) = r.
Proof. unfold rest. rewrite skipn_app, Nat.sub_diag, skipn_all. reflexivity. Qed.
Lemma under_app_r a r : under a (a ++ r) = true.
Proof. apply under_lows. exists (lows r). apply lows_app. Qed.
Lemma under_app_l a r b : under (a ++ r) b = true -> under a b = true.
Proof. intros H. apply under_lows in H. destruct H as (x & E). apply under_lows. exists (lows r ++ x). rewrite E, lows_app, app_assoc. reflexivity. Qed.
Lemma plains_rest a k : plains k -> plains (rest a k).
Proof. intros H. unfold rest. apply Forall_forall. intros x I. rewrite Forall_forall in H. apply H. rewrite <- (firstn_skipn (length a) k). apply in_or_app. right. exact I. Qed.
Lemma apart_app src dst r : apart src dst -> under dst (src ++ r) = false /\ under (src ++ r) dst = false.
Proof.
  intros [A C]. split.
  - destruct (under dst (src ++ r)) eqn:E; [|reflexivity]. destruct (under_comparable dst src (src ++ r) E (under_app_r src r)) as [H|H]; congruence.
  - destruct (under (src ++ r) dst) eqn:E; [|reflexivity]. apply under_app_l in E. congruence.
Qed.
Lemma apart_under src dst k : apart src dst -> under src k = true -> under dst k = false /\ under k dst = false.
Proof.
  intros [A C] U. split.
  - destruct (under dst k) eqn:E; [|reflexivity]. destruct (under_comparable dst src k E U) as [H|H]; congruence.
  - destruct (under k dst) eqn:E; [|reflexivity]. rewrite (under_trans src k dst U E) in A. discriminate.
Qed.

(** ** Histories *)
Lemma history_app g hs ns g1 : history g hs ns g1 -> forall k v, exists ns', history g (hs ++ [(k, v)]) ns' (setme g1 k v).
Proof.
  induction 1 as [g|g k v g1 n hs ns g' E H IH|d t t' hs ns g' S H IH]; intros k' v'.
  - unfold setme. destruct (tset g k' v') as [g1 n] eqn:E. exists (n ++ []). cbn [app]. econstructor; [exact E|constructor].
  - destruct (IH k' v') as (ns' & I). exists (n ++ ns'). cbn [app]. econstructor; [exact E|exact I].
  - destruct (IH k' v') as (ns' & I). exists ns'. econstructor; [exact S|exact I].
Qed.
Definition holds (g : gen) (m : contents) : Prop := exists hs ns, history tinit hs ns g /\ canonical_history hs /\ forall k, plains k -> sets hs k = m k.
Lemma slashed_plain k : plains k -> slashed k = false.
Proof. intros P. apply plain_slashed, P. Qed.
Lemma holds_get g m k : holds g m -> plains k -> tget g k = m k.
Proof. intros (hs & ns & H & C & E) P. rewrite (C26_get hs ns g k H C (or_introl P)), slashed_plain by exact P. apply E, P. Qed.
Lemma holds_set g m k v : holds g m -> plains k -> holds (setme g k v) (set_spec m k v).
Proof.
  intros (hs & ns & H & C & E) P. destruct (history_app _ _ _ _ H k v) as (ns' & H'). exists (hs ++ [(k, v)]), ns'. split; [exact H'|]. split; [apply Forall_app; split; [exact C|]; repeat constructor; exact P|].
  intros q Q. unfold sets. rewrite fold_left_app. cbn [fold_left]. unfold set_key. rewrite slashed_plain by exact P. apply set_ext, E, Q.
Qed.
Lemma holds_ext g m m' : holds g m -> (forall k, plains k -> m k = m' k) -> holds g m'.
Proof. intros (hs & ns & H & C & E) X. exists hs, ns. split; [exact H|]. split; [exact C|]. intros k P. rewrite E by exact P. apply X, P. Qed.
Lemma holds_low g m k k' : holds g m -> plains k -> plains k' -> lows k = lows k' -> m k = m k'.
Proof.
  intros (hs & ns & H & C & E) P P' L. destruct (reach _ _ _ H C) as (W & S & _). rewrite <- !E, <- !S by assumption. apply has_low; try assumption. apply same_lows, L.
Qed.
Lemma holds_closed g m a b : holds g m -> plains (a ++ b) -> m (a ++ b) <> None -> m a <> None.
Proof.
  intros G P N. pose proof P as P0. apply Forall_app in P0. destruct P0 as [Pa Pb]. rewrite <- (holds_get g m) in N by assumption. rewrite <- (holds_get g m) by assumption.
  destruct G as (hs & ns & H & C & E). eapply C26_closed; eassumption.
Qed.
Definition enough (g : gen) (src : key) (fuel : nat) : Prop := exists items, trec fuel g src = Ok items.
Lemma holds_rec g m src : holds g m -> plains src -> exists ks,
  (forall fuel, length ks < fuel -> exists items, trec fuel g src = Ok items /\ map fst items = ks) /\
  NoDup (map lows ks) /\ Forall (fun k => k <> [] /\ plains k) ks /\
  (forall k, plains k -> k <> [] -> m (src ++ k) <> None <-> exists k0, In k0 ks /\ lows k0 = lows k) /\
  (forall a q s b, ks = a ++ (q ++ [s]) :: b -> q <> [] -> In q a).
Proof.
  intros (hs & ns & H & C & E) P. destruct (C57_recursive hs ns g src H C (or_introl P)) as (ks & F & N & A & X & O & _).
  assert (Nm : named src = src) by (apply plain_slashed, P). rewrite Nm in *.
  exists ks. split; [|split; [exact N|split; [exact A|split; [|exact O]]]].
  - intros fuel L. eexists. split; [apply F, L|]. rewrite map_map. apply map_id.
  - intros k Pk Nk. rewrite <- E by (apply Forall_app; auto). rewrite X by assumption. split; intros (k0 & I & S); exists k0; (split; [exact I|]); apply same_lows, S.
Qed.
Lemma kcat_plain a r : plains a -> plains r -> r <> [] -> kcat a r = a ++ r.
Proof. intros Pa Pr N. rewrite kcat_named by (auto; left; exact Pa). f_equal. apply plain_slashed, Pa. Qed.

(** ** The loop of copy *)
Section Copy.
Context (m : contents) (src dst : key) (force : bool) (v0 : bytes).
Definition mem (q : key) (a : list key) : bool := existsb (fun p => same p q) a.
Definition F (a : list key) : contents := fun k =>
  if under dst k then
    match rest dst k with
    | [] => m src
    | r => if mem r a then (if (force || isnull (m k))%bool then m (src ++ r) else m k) else m k
    end
  else set_spec m dst (Some v0) k.
End Copy.

Lemma mem_iff q a : mem q a = true <-> exists p, In p a /\ lows p = lows q.
Proof. unfold mem. rewrite existsb_exists. split; intros (p & I & S); exists p; (split; [exact I|]); apply same_lows, S. Qed.

Lemma prefix_in (ks : list key) : (forall a q s b, ks = a ++ (q ++ [s]) :: b -> q <> [] -> In q a) -> forall t p a b, ks = a ++ (p ++ t) :: b -> t <> [] -> p <> [] -> In p a.
Proof.
  intros O. induction t as [|x t IH] using rev_ind; intros p a b E N Np; [congruence|]. rewrite app_assoc in E.
  assert (I : In (p ++ t) a) by (eapply O; [exact E|destruct p; discriminate || congruence]).
  destruct t as [|y t]; [rewrite app_nil_r in I; exact I|]. apply in_split in I. destruct I as (a1 & a2 & ->). rewrite <- app_assoc in E. cbn [app] in E.
  apply in_or_app. left. eapply IH; [exact E|discriminate|exact Np].
Qed.

Lemma set_dst m dst v0 k : under dst k = true -> rest dst k <> [] -> set_spec m dst (Some v0) k = m k.
Proof.
  intros U N. pose proof (under_split dst k U) as L. unfold set_spec. destruct (same dst k) eqn:S.
  - apply same_lows in S. rewrite <- S in L. assert (X : length (lows dst) = length (lows dst ++ lows (rest dst k))) by congruence. rewrite app_length, (lows_length (rest dst k)) in X. destruct (rest dst k); [congruence|cbn in X; lia].
  - destruct (under k dst) eqn:U2; [|reflexivity]. exfalso. unfold same in S. rewrite U, U2 in S. discriminate.
Qed.

Lemma copy_step g0 m src dst force v0 ks : holds g0 m -> plains src -> plains dst -> apart src dst -> m src = Some v0 ->
  NoDup (map lows ks) -> Forall (fun k => k <> [] /\ plains k) ks ->
  (forall k, plains k -> k <> [] -> m (src ++ k) <> None <-> exists k0, In k0 ks /\ lows k0 = lows k) ->
  (forall a q s b, ks = a ++ (q ++ [s]) :: b -> q <> [] -> In q a) ->
  forall a q b g, ks = a ++ q :: b -> holds g (F m src dst force v0 a) -> holds (copy_one src dst force g q) (F m src dst force v0 (a ++ [q])).
Proof.
  intros G0 Ps Pd AP M0 ND PL KS OR a q b g E G.
  assert (Q : q <> [] /\ plains q) by (rewrite Forall_forall in PL; apply PL; rewrite E; apply in_or_app; right; left; reflexivity). destruct Q as [Nq Pq].
  assert (Pdq : plains (dst ++ q)) by (apply Forall_app; auto). assert (Psq : plains (src ++ q)) by (apply Forall_app; auto).
  assert (MQ : mem q a = false).
  { destruct (mem q a) eqn:MM; [|reflexivity]. apply mem_iff in MM. destruct MM as (p & I & L). rewrite E, map_app in ND. cbn [map] in ND. apply NoDup_remove_2 in ND. exfalso. apply ND. apply in_or_app. left. rewrite <- L. apply in_map, I. }
  assert (Fd : F m src dst force v0 a (dst ++ q) = m (dst ++ q)).
  { unfold F. rewrite under_app_r, rest_app. destruct q as [|x q]; [congruence|]. rewrite MQ. reflexivity. }
  assert (Fs : F m src dst force v0 a (src ++ q) = m (src ++ q)).
  { unfold F. destruct (apart_app src dst q AP) as [U1 U2]. rewrite U1. unfold set_spec. unfold same. rewrite U1, U2. reflexivity. }
  assert (MS : exists w, m (src ++ q) = Some w).
  { assert (X : m (src ++ q) <> None) by (apply KS; [exact Pq|exact Nq|]; exists q; split; [rewrite E; apply in_or_app; right; left; reflexivity|reflexivity]). destruct (m (src ++ q)); [eauto|congruence]. }
  destruct MS as (w & MS).
  assert (memS : forall r, mem r (a ++ [q]) = (mem r a || same q r)%bool) by (intros r; unfold mem; rewrite existsb_app; cbn [existsb]; rewrite orb_false_r; reflexivity).
  unfold copy_one. rewrite !kcat_plain by assumption. rewrite (holds_get g _ _ G Pdq), (holds_get g _ _ G Psq), Fd, Fs.
  assert (LQ : forall k, plains k -> under dst k = true -> same q (rest dst k) = true -> m k = m (dst ++ q) /\ m (src ++ rest dst k) = m (src ++ q) /\ rest dst k <> []).
  { intros k Pk U S. apply same_lows in S. pose proof (under_split _ _ U) as L. split; [|split].
    - apply (holds_low g0 m); try assumption. rewrite L, lows_app, S. reflexivity.
    - apply (holds_low g0 m); try assumption; [apply Forall_app; split; [exact Ps|apply plains_rest, Pk]|]. rewrite !lows_app, S. reflexivity.
    - intros Z. rewrite Z in S. destruct q; [congruence|discriminate]. }
  destruct (force || isnull (m (dst ++ q)))%bool eqn:CO.
  - eapply holds_ext; [apply holds_set; [exact G|exact Pdq]|]. intros k Pk. rewrite MS. unfold set_spec.
    destruct (same (dst ++ q) k) eqn:S.
    + assert (U : under dst k = true) by (unfold same in S; apply andb_prop in S; destruct S as [S _]; apply under_app_l in S; exact S).
      assert (S2 : same q (rest dst k) = true). { apply same_lows in S. apply same_lows. rewrite lows_app, (under_split _ _ U) in S. apply app_inv_head in S. exact S. }
      destruct (LQ k Pk U S2) as (E1 & E2 & E3). unfold F. rewrite U. destruct (rest dst k) as [|x r] eqn:R; [congruence|]. rewrite memS, S2, orb_true_r, E1, CO, E2. symmetry. exact MS.
    + assert (SR : under dst k = true -> same q (rest dst k) = false).
      { intros U. destruct (same q (rest dst k)) eqn:S2; [|reflexivity]. apply same_lows in S2. assert (X : same (dst ++ q) k = true) by (apply same_lows; rewrite lows_app, (under_split _ _ U), S2; reflexivity). congruence. }
      assert (FE : F m src dst force v0 (a ++ [q]) k = F m src dst force v0 a k).
      { unfold F. destruct (under dst k) eqn:U; [|reflexivity]. destruct (rest dst k) as [|x r] eqn:R; [reflexivity|]. rewrite memS. specialize (SR eq_refl). rewrite SR, orb_false_r. reflexivity. }
      rewrite FE. destruct (under k (dst ++ q)) eqn:U2; [|reflexivity].
      assert (NN : F m src dst force v0 a k <> None); [|destruct (F m src dst force v0 a k); congruence].
      unfold F. destruct (under dst k) eqn:U.
      * destruct (rest dst k) as [|x r] eqn:R; [rewrite M0; discriminate|]. rewrite <- R in *.
        (* [rest dst k] is above [q] *)
        assert (RN : rest dst k <> []) by (rewrite R; discriminate).
        apply under_lows in U2. destruct U2 as (t & U2). rewrite lows_app, (under_split _ _ U), <- app_assoc in U2. apply app_inv_head in U2.
        assert (Lr : length (rest dst k) <= length q) by (rewrite <- (lows_length q), U2, app_length, lows_length; lia).
        set (p := firstn (length (rest dst k)) q). assert (Lp : lows p = lows (rest dst k)).
        { unfold p. rewrite lows_firstn, U2, firstn_app, lows_length, Nat.sub_diag, firstn_all2 by (rewrite lows_length; lia). cbn [firstn]. apply app_nil_r. }
        assert (Nt : skipn (length (rest dst k)) q <> []).
        { intros Z. assert (X : same q (rest dst k) = true); [|rewrite (SR eq_refl) in X; discriminate]. apply same_lows. rewrite <- Lp. unfold p. rewrite <- (firstn_skipn (length (rest dst k)) q) at 1. rewrite Z, app_nil_r. reflexivity. }
        assert (Np : p <> []) by (intros Z; rewrite Z in Lp; rewrite R in Lp; discriminate).
        assert (Ip : In p a). { eapply (prefix_in ks OR (skipn (length (rest dst k)) q) p a b); [unfold p; rewrite firstn_skipn; exact E|exact Nt|exact Np]. }
        assert (MM : mem (rest dst k) a = true) by (apply mem_iff; exists p; auto). rewrite MM.
        destruct (force || isnull (m k))%bool eqn:C2.
        -- apply KS; [apply plains_rest, Pk|exact RN|]. exists p. split; [rewrite E; apply in_or_app; left; exact Ip|exact Lp].
        -- apply orb_false_iff in C2. destruct C2 as [_ C2]. destruct (m k); [discriminate|discriminate C2].
      * unfold set_spec. destruct (same dst k) eqn:S3; [unfold same in S3; apply andb_prop in S3; destruct S3; congruence|].
        destruct (under_comparable k dst (dst ++ q) U2 (under_app_r dst q)) as [H|H]; [|congruence]. rewrite H. destruct (m k); discriminate.
  - apply orb_false_iff in CO. destruct CO as [-> CO]. eapply holds_ext; [exact G|]. intros k Pk. unfold F. destruct (under dst k) eqn:U; [|reflexivity]. destruct (rest dst k) as [|x r] eqn:R; [reflexivity|]. rewrite <- R in *.
    rewrite memS. destruct (mem (rest dst k) a) eqn:MM; [reflexivity|]. cbn [orb]. destruct (same q (rest dst k)) eqn:S2; [|reflexivity].
    destruct (LQ k Pk U S2) as (E1 & _). rewrite E1, CO. reflexivity.
Qed.

Lemma copy_loop g0 m src dst force v0 ks : holds g0 m -> plains src -> plains dst -> apart src dst -> m src = Some v0 ->
  NoDup (map lows ks) -> Forall (fun k => k <> [] /\ plains k) ks ->
  (forall k, plains k -> k <> [] -> m (src ++ k) <> None <-> exists k0, In k0 ks /\ lows k0 = lows k) ->
  (forall a q s b, ks = a ++ (q ++ [s]) :: b -> q <> [] -> In q a) ->
  forall b a g, ks = a ++ b -> holds g (F m src dst force v0 a) -> holds (fold_left (copy_one src dst force) b g) (F m src dst force v0 ks).
Proof.
  intros G0 Ps Pd AP M0 ND PL KS OR. induction b as [|q b IH]; intros a g E G; cbn [fold_left].
  - rewrite app_nil_r in E. subst a. exact G.
  - apply (IH (a ++ [q])); [rewrite <- app_assoc; exact E|]. eapply (copy_step g0 m); eassumption.
Qed.

(** What copy really does. *)
Definition result (m : contents) (src dst : key) (force : bool) : contents := fun k =>
  match m src with
  | None => set_spec m dst None k
  | Some v => if same dst k then Some v else copied m src dst force k
  end.

Lemma set_away m dst v k : under dst k = false -> under k dst = false -> set_spec m dst v k = m k.
Proof. intros A C. unfold set_spec, same. rewrite A, C. destruct v; reflexivity. Qed.

Lemma copy_ok g m src dst force : holds g m -> plains src -> plains dst -> apart src dst ->
  exists n, forall fuel, n < fuel -> exists g', copy fuel g src dst force = Ok g' /\ holds g' (result m src dst force).
Proof.
  intros G Ps Pd AP. pose proof (holds_set g m dst (m src) G Pd) as G1. pose proof (holds_get g m src G Ps) as GS.
  destruct (holds_rec _ _ src G1 Ps) as (ks & FU & ND & PL & KS & OR). exists (length ks). intros fuel L. destruct (FU fuel L) as (items & E & EI).
  assert (KM : forall k, plains k -> k <> [] -> m (src ++ k) <> None <-> exists k0, In k0 ks /\ lows k0 = lows k).
  { intros k Pk Nk. rewrite <- KS by assumption. destruct (apart_app src dst k AP) as [U1 U2]. rewrite set_away by assumption. reflexivity. }
  unfold copy. rewrite GS, E. cbn [bind]. rewrite EI. eexists. split; [reflexivity|].
  destruct (m src) as [v0|] eqn:M0.
  - eapply holds_ext; [apply (copy_loop g m src dst force v0 ks G Ps Pd AP M0 ND PL KM OR ks [] _ eq_refl)|].
    + eapply holds_ext; [exact G1|]. intros k Pk. unfold F. destruct (under dst k) eqn:U; [|reflexivity]. destruct (rest dst k) as [|x r] eqn:R; [|cbn [mem existsb]; apply set_dst; [exact U|rewrite R; discriminate]].
      unfold set_spec. assert (S : same dst k = true) by (apply same_lows; rewrite (under_split _ _ U), R; cbn; rewrite app_nil_r; reflexivity). rewrite S. symmetry. exact M0.
    + intros k Pk. unfold F, result, copied. rewrite M0. destruct (under dst k) eqn:U.
      * destruct (rest dst k) as [|x r] eqn:R.
        -- assert (S : same dst k = true) by (apply same_lows; rewrite (under_split _ _ U), R; cbn; rewrite app_nil_r; reflexivity). rewrite S. reflexivity.
        -- assert (S : same dst k = false). { destruct (same dst k) eqn:S; [|reflexivity]. apply same_lows in S. apply (f_equal (@length _)) in S. rewrite (under_split _ _ U), app_length, R in S. cbn in S. lia. }
           rewrite S, <- R. pose proof (plains_rest dst k Pk) as Pr. assert (Nr : rest dst k <> []) by (rewrite R; discriminate). specialize (KM _ Pr Nr).
           destruct (mem (rest dst k) ks) eqn:MM.
           ++ apply mem_iff in MM. apply KM in MM. destruct (m (src ++ rest dst k)) as [v|]; [|congruence]. destruct (m k), force; reflexivity.
           ++ destruct (m (src ++ rest dst k)) as [v|] eqn:MV; [|destruct (m k); reflexivity]. assert (X : mem (rest dst k) ks = true) by (apply mem_iff, KM; discriminate). congruence.
      * unfold set_spec. destruct (same dst k) eqn:S; [unfold same in S; rewrite U in S; cbn in S; rewrite ?andb_false_r in S; discriminate|]. destruct (under k dst), (m k); reflexivity.
  - assert (Z : ks = []).
    { destruct ks as [|q ks]; [reflexivity|]. exfalso. assert (Q : q <> [] /\ plains q) by (inversion PL; assumption). destruct Q as [Nq Pq].
      assert (X : m (src ++ q) <> None) by (apply KM; [exact Pq|exact Nq|]; exists q; split; [left|]; reflexivity).
      apply (holds_closed g m src q G) in X; [congruence|apply Forall_app; auto]. }
    rewrite Z. cbn [fold_left]. unfold result. eapply holds_ext; [exact G1|]. intros k _. rewrite M0. reflexivity.
Qed.

Lemma set_none m dst k : set_spec m dst None k = if under dst k then None else m k.
Proof. reflexivity. Qed.

Lemma move_ok g m src dst : holds g m -> plains src -> plains dst -> apart src dst ->
  exists n, forall fuel, n < fuel -> exists g', move fuel g src dst = Ok g' /\ holds g' (moved m src dst).
Proof.
  intros G Ps Pd AP. pose proof (holds_set g m dst None G Pd) as G1. destruct (copy_ok _ _ src dst true G1 Ps Pd AP) as (n & H). exists n. intros fuel L.
  destruct (H fuel L) as (g' & E & G2). unfold move, remove. rewrite E. cbn [bind]. eexists. split; [reflexivity|]. eapply holds_ext; [apply holds_set; [exact G2|exact Ps]|]. intros k Pk.
  rewrite set_none. unfold moved. destruct (under src k) eqn:U1; [reflexivity|]. unfold result.
  assert (ES : forall r, set_spec m dst None (src ++ r) = m (src ++ r)) by (intros r; destruct (apart_app src dst r AP); apply set_away; assumption).
  pose proof (ES []) as E0. rewrite app_nil_r in E0. rewrite E0. destruct (m src) as [v0|] eqn:M0.
  - unfold copied. rewrite ?E0, ?M0, ES, set_none. destruct (under dst k) eqn:U.
    + destruct (same dst k) eqn:S.
      * assert (R : rest dst k = []). { apply same_lows in S. apply (f_equal (@length _)) in S. rewrite !lows_length in S. unfold rest. apply skipn_all2. lia. } rewrite R, app_nil_r. symmetry. exact M0.
      * destruct (m (src ++ rest dst k)); reflexivity.
    + destruct (same dst k) eqn:S; [unfold same in S; rewrite U in S; cbn in S; rewrite ?andb_false_r in S; discriminate|reflexivity].
  - rewrite !set_none. destruct (under dst k) eqn:U; [|reflexivity].
    destruct (m (src ++ rest dst k)) eqn:X; [|reflexivity]. exfalso. apply (holds_closed g m src (rest dst k) G); [apply Forall_app; split; [exact Ps|apply plains_rest, Pk]|congruence|exact M0].
Qed.
