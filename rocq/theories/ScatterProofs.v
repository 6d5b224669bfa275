(** Proofs about the open-addressing hash table. *)
From Verif Require Import Base BaseFacts HashModel HashSpec HashProofs ScatterModel ScatterSpec.
From Coq Require Import NArith Permutation ZifyN ZifyNat ZifyBool.
Local Open Scope N_scope.

Section Scatter.
Variables (T K : Type) (key_of : T -> K) (hash : K -> N) (eqk : K -> K -> bool).
Notation scatter := (scatter T).
Notation place := (place T).
Notation sc_add := (sc_add T K key_of hash).
Notation genfind := (genfind T K key_of hash eqk).
Notation find_loop := (find_loop T K key_of eqk).
Notation slot_matches := (slot_matches T K key_of eqk).

Definition ent (s : scatter) (i : N) : list (T * bool) :=
  if is_occupied (c_status s i)
  then match c_data s i with Some d => [(d, is_auto_free (c_status s i))] | None => [] end else [].
Definition contents (s : scatter) : list (T * bool) := flat_map (ent s) (indices (c_numslots s)).
Definition nz (s : scatter) (i : N) : list N := if c_status s i =? 0 then [] else [i].
Definition nzs (s : scatter) : list N := flat_map (nz s) (indices (c_numslots s)).
Definition probe (s : scatter) (h a : N) : N := curhash s h (second_hash s h) a.

(** ** Lists of indices *)
Lemma in_indices p i : In i (indices p) <-> i < p.
Proof.
  unfold indices. rewrite in_map_iff. split.
  - intros (n & <- & H). apply in_seq in H. lia.
  - intros H. exists (N.to_nat i). split; [lia|]. apply in_seq. lia.
Qed.
Lemma nodup_indices p : NoDup (indices p).
Proof.
  unfold indices. apply FinFun.Injective_map_NoDup; [|apply seq_NoDup]. intros a b H. lia.
Qed.

Lemma flat_map_same {A} (f g : N -> list A) l i : ~ In i l -> (forall j, j <> i -> f j = g j) -> flat_map f l = flat_map g l.
Proof.
  induction l as [|x l IH]; intros Hi H; [reflexivity|]. cbn. rewrite IH; [|intros ?; apply Hi; right; assumption|assumption].
  rewrite (H x); [reflexivity|]. intros ->. apply Hi. left. reflexivity.
Qed.
Lemma flat_map_upd {A} (f g : N -> list A) l i : NoDup l -> In i l -> (forall j, j <> i -> f j = g j) ->
  Permutation (g i ++ flat_map f l) (f i ++ flat_map g l).
Proof.
  induction l as [|x l IH]; intros ND Hi H; [destruct Hi|]. apply NoDup_cons_iff in ND. destruct ND as [Hx ND]. cbn.
  destruct Hi as [->|Hi].
  - rewrite (flat_map_same f g l i Hx H). rewrite !app_assoc. apply Permutation_app_tail, Permutation_app_comm.
  - assert (x <> i) by (intros ->; contradiction). rewrite (H x) by assumption.
    rewrite !app_assoc. rewrite (Permutation_app_comm (g i) (g x)), (Permutation_app_comm (f i) (g x)).
    rewrite <- !app_assoc. apply Permutation_app_head. apply IH; assumption.
Qed.

(** ** Invariant *)
Record inv0 (s : scatter) : Prop := Inv0
  { i_prime : nth_error prime_numbers (c_index s) = Some (c_numslots s);
    i_num : c_num s = N.of_nat (length (contents s));
    i_used : c_used s = N.of_nat (length (nzs s));
    i_data : forall i, i < c_numslots s -> is_occupied (c_status s i) = true -> c_data s i <> None;
    i_probe : forall i d, i < c_numslots s -> is_occupied (c_status s i) = true -> c_data s i = Some d ->
      exists a, i = probe s (hash (key_of d)) a /\ forall b, b < a -> c_status s (probe s (hash (key_of d)) b) <> 0 }.
Definition inv (s : scatter) : Prop := inv0 s /\ 100 * c_used s < 45 * c_numslots s.

Lemma primes_big p i : nth_error prime_numbers i = Some p -> 2 <= p.
Proof.
  intros H. apply nth_error_In in H. assert (F : Forall (fun p => 2 <= p) prime_numbers) by (repeat constructor; lia).
  rewrite Forall_forall in F. auto.
Qed.
Lemma primes_grow i p p' : nth_error prime_numbers i = Some p -> nth_error prime_numbers (S i) = Some p' -> p + 3 <= p'.
Proof.
  intros H H'. do 32 (destruct i as [|i]; [cbn in H, H'; try discriminate; injection H as <-; injection H' as <-; lia|]).
  cbn in H. destruct i; discriminate.
Qed.

Lemma occ_ge x : is_occupied x = true <-> 2 <= x.
Proof.
  unfold is_occupied. rewrite N.shiftr_div_pow2. change (2 ^ 1) with 2. rewrite negb_true_iff, N.eqb_neq. split; intros H.
  - destruct (N.le_gt_cases 2 x); [assumption|]. exfalso. apply H. apply N.div_small. assumption.
  - intros E. apply N.div_small_iff in E; lia.
Qed.
Lemma occ_false x : is_occupied x = false <-> x < 2.
Proof. rewrite <- not_true_iff_false, occ_ge. lia. Qed.
Lemma occ_status a : is_occupied (status_of a) = true.
Proof. destruct a; reflexivity. Qed.
Lemma auto_status a : is_auto_free (status_of a) = a.
Proof. destruct a; reflexivity. Qed.

Lemma fresh_inv i fr s : fresh T i fr = Ok s -> inv s /\ contents s = [] /\ c_freed s = fr /\ c_index s = i /\ c_used s = 0.
Proof.
  unfold fresh. destruct (nth_error prime_numbers i) as [p|] eqn:E; [|discriminate]. cbn. intros H. injection H as <-.
  pose proof (primes_big _ _ E).
  assert (E0 : forall l, flat_map (ent (Scatter T (fun _ => 0) (fun _ => None) i p 0 0 fr)) l = []) by (induction l; auto).
  assert (E1 : forall l, flat_map (nz (Scatter T (fun _ => 0) (fun _ => None) i p 0 0 fr)) l = []) by (induction l; auto).
  split; [|unfold contents; rewrite E0; auto].
  split; [|cbn [c_used c_numslots]; lia]. constructor; cbn [c_index c_numslots c_num c_used c_status c_data].
  - assumption.
  - unfold contents. rewrite E0. reflexivity.
  - unfold nzs. rewrite E1. reflexivity.
  - discriminate.
  - discriminate.
Qed.

Lemma num_le_used s : inv0 s -> c_num s <= c_used s.
Proof.
  intros I. rewrite (i_num s I), (i_used s I). unfold contents, nzs.
  enough (H : forall l, (length (flat_map (ent s) l) <= length (flat_map (nz s) l))%nat) by (specialize (H (indices (c_numslots s))); lia).
  induction l as [|i l IH]; [auto|]. cbn. rewrite !app_length.
  assert ((length (ent s i) <= length (nz s i))%nat); [|lia]. unfold ent, nz.
  destruct (is_occupied (c_status s i)) eqn:E; [|cbn; lia]. apply occ_ge in E.
  destruct (N.eqb_spec (c_status s i) 0); [lia|]. destruct (c_data s i); cbn; lia.
Qed.

Hypothesis hash32 : forall k, hash k < 2 ^ 32.

Lemma probe0 s k : probe s (hash k) 0 = hash k mod c_numslots s.
Proof. unfold probe, curhash, wrap32. rewrite N.mul_0_l, N.add_0_r, (N.mod_small (hash k)) by apply hash32. reflexivity. Qed.
Lemma probe_lt s h a : inv0 s -> probe s h a < c_numslots s.
Proof. intros I. pose proof (primes_big _ _ (i_prime s I)). apply N.mod_upper_bound. lia. Qed.

(** ** Filling a slot *)
Definition same_shape (s s' : scatter) : Prop :=
  c_index s' = c_index s /\ c_numslots s' = c_numslots s /\ c_freed s' = c_freed s.

Lemma place_loop_ok s h : forall fuel a slot, place_loop T fuel s h (second_hash s h) a (probe s h a) = Ok slot ->
  (forall b, b < a -> c_status s (probe s h b) <> 0) ->
  exists a', slot = probe s h a' /\ is_occupied (c_status s slot) = false /\ forall b, b < a' -> c_status s (probe s h b) <> 0.
Proof.
  induction fuel as [|fuel IH]; intros a slot E H; [discriminate|]. cbn [place_loop] in E.
  destruct (is_occupied (c_status s (probe s h a))) eqn:Eo.
  - apply (IH (a + 1)); [exact E|]. intros b Hb. destruct (N.eq_dec b a) as [->|]; [apply occ_ge in Eo; lia|apply H; lia].
  - injection E as <-. exists a. auto.
Qed.

Lemma place_ok fuel s d auto s' : inv0 s -> place fuel s d (hash (key_of d)) auto = Ok s' ->
  inv0 s' /\ same_shape s s' /\ Permutation (contents s') ((d, auto) :: contents s) /\
  c_used s <= c_used s' <= c_used s + 1.
Proof.
  intros I E. unfold ScatterModel.place in E. set (h := hash (key_of d)) in *.
  assert (Hs : exists slot, s' = set_slot T (set_counts T s (if is_deleted (c_status s slot) then c_used s else c_used s + 1)
      (c_num s + 1) (c_freed s)) slot (Some d) (status_of auto) /\
      exists a, slot = probe s h a /\ is_occupied (c_status s slot) = false /\ forall b, b < a -> c_status s (probe s h b) <> 0).
  { pose proof (probe0 s (key_of d)) as P0. fold h in P0. rewrite <- P0 in E. clear P0. destruct (is_occupied (c_status s (probe s h 0))) eqn:Eo.
    - destruct (place_loop T fuel s h (second_hash s h) 0 (probe s h 0)) as [slot| |] eqn:Ep; try discriminate.
      cbn [bind] in E. exists slot. split; [congruence|]. apply (place_loop_ok s h fuel 0); [exact Ep|]. intros; lia.
    - cbn [bind] in E. exists (probe s h 0). split; [congruence|]. exists 0. split; [reflexivity|]. split; [assumption|]. intros; lia. }
  destruct Hs as (slot & -> & a & Ea & Eo & Hb). clear E.
  assert (Hlt : slot < c_numslots s) by (rewrite Ea; apply probe_lt; assumption).
  set (s' := set_slot T _ _ _ _).
  assert (Hst : forall j, c_status s' j = if j =? slot then status_of auto else c_status s j) by reflexivity.
  assert (Hdt : forall j, c_data s' j = if j =? slot then Some d else c_data s j) by reflexivity.
  assert (Hnz : forall j, c_status s j <> 0 -> c_status s' j <> 0).
  { intros j Hj. rewrite Hst. destruct (N.eqb_spec j slot); [destruct auto; discriminate|assumption]. }
  pose proof (nodup_indices (c_numslots s)) as ND.
  assert (Hin : In slot (indices (c_numslots s))) by (apply in_indices; assumption).
  assert (Pc : Permutation (contents s') ((d, auto) :: contents s)).
  { pose proof (flat_map_upd (ent s') (ent s) (indices (c_numslots s)) slot ND Hin) as P.
    assert (E1 : ent s slot = []) by (unfold ent; rewrite Eo; reflexivity).
    assert (E2 : ent s' slot = [(d, auto)]) by (unfold ent; rewrite Hst, Hdt, N.eqb_refl, occ_status, auto_status; reflexivity).
    rewrite E1, E2 in P. cbn [app] in P. apply P. intros j Hj. unfold ent. rewrite Hst, Hdt.
    destruct (N.eqb_spec j slot); [contradiction|reflexivity]. }
  assert (Pn : length (nzs s') = (length (nzs s) + if is_deleted (c_status s slot) then 0 else 1)%nat).
  { pose proof (flat_map_upd (nz s') (nz s) (indices (c_numslots s)) slot ND Hin) as P.
    assert (E2 : nz s' slot = [slot]) by (unfold nz; rewrite Hst, N.eqb_refl; destruct auto; reflexivity).
    assert (E1 : nz s slot = if is_deleted (c_status s slot) then [slot] else []).
    { unfold nz, is_deleted. apply occ_false in Eo. destruct (N.eqb_spec (c_status s slot) 0), (N.eqb_spec (c_status s slot) 1); try reflexivity; lia. }
    rewrite E1, E2 in P. specialize (P ltac:(intros j Hj; unfold nz; rewrite Hst; destruct (N.eqb_spec j slot); [contradiction|reflexivity])).
    apply Permutation_length in P. rewrite !app_length in P. unfold nzs. change (c_numslots s') with (c_numslots s).
    destruct (is_deleted (c_status s slot)); cbn [length] in P; lia. }
  split; [|split; [repeat split|split; [exact Pc|]]].
  - constructor.
    + exact (i_prime s I).
    + change (c_num s') with (c_num s + 1). rewrite (Permutation_length Pc), (i_num s I). cbn [length]. lia.
    + change (c_used s') with (if is_deleted (c_status s slot) then c_used s else c_used s + 1).
      rewrite Pn, (i_used s I). destruct (is_deleted (c_status s slot)); lia.
    + intros i Hi Ho. rewrite Hdt. rewrite Hst in Ho. destruct (N.eqb_spec i slot); [discriminate|]. apply (i_data s I); assumption.
    + intros i e Hi Ho He. rewrite Hst in Ho. rewrite Hdt in He. destruct (N.eqb_spec i slot) as [->|Hne].
      * injection He as <-. exists a. split; [exact Ea|]. intros b Hba. apply Hnz. apply Hb. assumption.
      * destruct (i_probe s I i e Hi Ho He) as (a' & E' & H'). exists a'. split; [exact E'|].
        intros b Hba. apply Hnz. apply H'. assumption.
  - change (c_used s') with (if is_deleted (c_status s slot) then c_used s else c_used s + 1).
    destruct (is_deleted (c_status s slot)); lia.
Qed.

Lemma add_norebuild fuel s d auto : 100 * (c_used s + 1) < 45 * c_numslots s ->
  sc_add fuel s d auto = match fuel with O => NoFuel | S _ => place fuel s d (hash (key_of d)) auto end.
Proof.
  intros H. destruct fuel as [|f]; [reflexivity|]. cbn [ScatterModel.sc_add]. unfold rebuild.
  destruct (N.leb_spec (45 * c_numslots s) (100 * (c_used s + 1))); [lia|]. reflexivity.
Qed.

Lemma refill_ok f old B : forall l s s', inv0 s ->
  refill T (sc_add f) old s l = Ok s' ->
  c_used s + N.of_nat (length (flat_map (ent old) l)) <= B -> 100 * B < 45 * c_numslots s ->
  inv0 s' /\ same_shape s s' /\ Permutation (contents s') (contents s ++ flat_map (ent old) l) /\ c_used s' <= B.
Proof.
  induction l as [|i l IH]; intros s s' I E HB Hl.
  - cbn in E. injection E as <-. split; [assumption|]. split; [repeat split|]. cbn [flat_map] in *. rewrite app_nil_r.
    split; [reflexivity|]. cbn in HB. lia.
  - cbn [refill] in E. cbn [flat_map] in *. unfold ent at 1 in HB. unfold ent at 1.
    destruct (is_occupied (c_status old i)) eqn:Eo; [|exact (IH s s' I E HB Hl)].
    destruct (c_data old i) as [d|]; [|discriminate]. cbn [of_opt bind] in E.
    rewrite app_length in HB. cbn [length] in HB.
    rewrite add_norebuild in E by lia. destruct f as [|f]; [discriminate|].
    destruct (place (S f) s d (hash (key_of d)) (is_auto_free (c_status old i))) as [s1| |] eqn:Ep; try discriminate. cbn [bind] in E.
    destruct (place_ok _ _ _ _ _ I Ep) as (I1 & (Sh1 & Sh2 & Sh3) & P1 & U1).
    destruct (IH s1 s' I1 E) as (I2 & (Sh4 & Sh5 & Sh6) & P2 & U2); [lia|rewrite Sh2; assumption|].
    split; [assumption|]. split; [repeat split; congruence|]. split; [|assumption].
    rewrite P2, P1. cbn [app]. rewrite <- Permutation_middle. reflexivity.
Qed.

Lemma rebuild_ok f s s' : inv s -> rebuild T (sc_add f) s = Ok s' ->
  inv0 s' /\ Permutation (contents s') (contents s) /\ c_freed s' = c_freed s /\
  100 * (c_used s' + 1) < 45 * c_numslots s' /\
  (c_index s' = c_index s \/ (c_index s' = S (c_index s) /\ 40 * c_numslots s <= 100 * (c_num s + 1))).
Proof.
  intros [I L] E. unfold rebuild in E. destruct (N.leb_spec (45 * c_numslots s) (100 * (c_used s + 1))) as [Hr|Hr].
  2:{ injection E as <-. repeat (split; auto). }
  destruct (fresh T (if 40 * c_numslots s <=? 100 * (c_num s + 1) then S (c_index s) else c_index s) (c_freed s)) as [s0| |] eqn:Ef; try discriminate.
  cbn [bind] in E. destruct (fresh_inv _ _ _ Ef) as ([I0 L0] & C0 & F0 & X0 & U0).
  pose proof (num_le_used s I) as NU. pose proof (i_prime s I) as Hp. pose proof (i_prime s0 I0) as Hp0. rewrite X0 in Hp0.
  assert (HB : 100 * (N.of_nat (length (contents s)) + 1) < 45 * c_numslots s0).
  { rewrite <- (i_num s I). destruct (N.leb_spec (40 * c_numslots s) (100 * (c_num s + 1))).
    - pose proof (primes_grow _ _ _ Hp Hp0). lia.
    - rewrite Hp in Hp0. injection Hp0 as <-. lia. }
  destruct (refill_ok f s (N.of_nat (length (contents s))) _ _ _ I0 E) as (I1 & (S1 & S2 & S3) & P1 & U1).
  - rewrite U0. unfold contents. lia.
  - lia.
  - rewrite C0 in P1. split; [assumption|]. split; [exact P1|]. split; [congruence|]. split; [rewrite S2; lia|].
    rewrite S1, X0. destruct (N.leb_spec (40 * c_numslots s) (100 * (c_num s + 1))); auto.
Qed.

Lemma add_ok fuel s d auto s' : inv s -> sc_add fuel s d auto = Ok s' ->
  inv s' /\ Permutation (contents s') ((d, auto) :: contents s) /\ c_freed s' = c_freed s /\
  (c_index s' = c_index s \/ (c_index s' = S (c_index s) /\ 40 * c_numslots s <= 100 * (c_num s + 1))).
Proof.
  intros I E. destruct fuel as [|f]; [discriminate|]. cbn [ScatterModel.sc_add] in E.
  destruct (rebuild T (sc_add f) s) as [s1| |] eqn:Er; try discriminate. cbn [bind] in E.
  destruct (rebuild_ok _ _ _ I Er) as (I1 & P1 & F1 & L1 & X1).
  destruct (place_ok _ _ _ _ _ I1 E) as (I2 & (S1 & S2 & S3) & P2 & U2).
  split; [split; [assumption|rewrite S2; lia]|]. split; [rewrite P2, P1; reflexivity|]. split; [congruence|].
  rewrite S1. assumption.
Qed.

(** ** Lookup *)
Hypothesis Heq : eq_ok K eqk hash.

Lemma find_loop_ok s k : forall fuel a r, inv0 s ->
  find_loop fuel s k (hash k) (second_hash s (hash k)) a (probe s (hash k) a) = Ok r ->
  (forall b, b < a -> c_status s (probe s (hash k) b) <> 0) ->
  (forall b, b <= a -> slot_matches s k (probe s (hash k) b) = Ok false) ->
  match r with
  | Some i => i < c_numslots s /\ slot_matches s k i = Ok true
  | None => exists a', c_status s (probe s (hash k) a') = 0 /\
             forall b, b <= a' -> slot_matches s k (probe s (hash k) b) = Ok false
  end.
Proof.
  induction fuel as [|fuel IH]; intros a r I E H M; [discriminate|]. cbn [ScatterModel.find_loop] in E.
  destruct (N.eqb_spec (c_status s (probe s (hash k) a)) 0) as [E0|E0].
  - injection E as <-. exists a. auto.
  - fold (probe s (hash k) (a + 1)) in E.
    destruct (slot_matches s k (probe s (hash k) (a + 1))) as [m| |] eqn:Em; try discriminate. cbn [bind] in E.
    destruct m.
    + injection E as <-. split; [apply probe_lt; assumption|assumption].
    + apply (IH (a + 1) r I E).
      * intros b Hb. destruct (N.eq_dec b a) as [->|]; [assumption|apply H; lia].
      * intros b Hb. destruct (N.eq_dec b (a + 1)) as [->|]; [assumption|apply M; lia].
Qed.

Lemma matches_true s k i : slot_matches s k i = Ok true ->
  exists d, is_occupied (c_status s i) = true /\ c_data s i = Some d /\ eqk k (key_of d) = true.
Proof.
  unfold ScatterModel.slot_matches. destruct (is_occupied (c_status s i)); [|discriminate].
  destruct (c_data s i) as [d|]; [|discriminate]. cbn. intros H. injection H as H. eauto.
Qed.

Lemma in_contents s e : inv0 s -> In e (contents s) <->
  exists i d, i < c_numslots s /\ is_occupied (c_status s i) = true /\ c_data s i = Some d /\ e = (d, is_auto_free (c_status s i)).
Proof.
  intros I. unfold contents. rewrite in_flat_map. split.
  - intros (i & Hi & He). apply in_indices in Hi. unfold ent in He.
    destruct (is_occupied (c_status s i)) eqn:Eo; [|destruct He]. destruct (c_data s i) as [d|] eqn:Ed; [|destruct He].
    destruct He as [<-|[]]. exists i, d. auto.
  - intros (i & d & Hi & Ho & Hd & ->). exists i. split; [apply in_indices; assumption|]. unfold ent. rewrite Ho, Hd. left. reflexivity.
Qed.

Lemma genfind_ok fuel s k r : inv0 s -> genfind fuel s k = Ok r ->
  match r with
  | Some i => i < c_numslots s /\ exists d, is_occupied (c_status s i) = true /\ c_data s i = Some d /\ eqk k (key_of d) = true
  | None => ~ Exists (matches T K key_of eqk k) (contents s)
  end.
Proof.
  intros I E. unfold ScatterModel.genfind in E. rewrite <- probe0 in E.
  destruct (slot_matches s k (probe s (hash k) 0)) as [m| |] eqn:Em; try discriminate. cbn [bind] in E.
  destruct m.
  - injection E as <-. split; [apply probe_lt; assumption|]. apply matches_true. assumption.
  - apply find_loop_ok in E; [|assumption|intros; lia|intros b Hb; assert (b = 0) as -> by lia; assumption].
    destruct r as [i|].
    + destruct E as [E1 E2]. split; [assumption|]. apply matches_true. assumption.
    + destruct E as (a & Ea & H). rewrite Exists_exists. intros (e & He & Me).
      apply in_contents in He; [|assumption]. destruct He as (i & d & Hi & Ho & Hd & ->).
      unfold matches in Me. cbn [fst] in Me.
      destruct (i_probe s I i d Hi Ho Hd) as (a' & E' & H').
      assert (Hh : hash (key_of d) = hash k) by (destruct Heq as (_ & _ & _ & Hh); symmetry; apply Hh; assumption).
      rewrite Hh in *. destruct (N.le_gt_cases a' a) as [Hle|Hgt].
      * specialize (H a' Hle). rewrite <- E' in H. unfold ScatterModel.slot_matches in H. rewrite Ho, Hd in H. cbn in H.
        rewrite Me in H. discriminate.
      * apply (H' a Hgt). assumption.
Qed.

(** ** Changing an occupied slot *)
Lemma change_ok s i d x num freed : inv0 s -> i < c_numslots s -> is_occupied (c_status s i) = true -> c_data s i = Some d ->
  x <> 0 -> let s' := Scatter T (fun j => if j =? i then x else c_status s j) (fun j => if j =? i then Some d else c_data s j)
     (c_index s) (c_numslots s) (c_used s) num freed in
  num = N.of_nat (length (contents s')) ->
  Permutation (ent s i ++ contents s') (ent s' i ++ contents s) -> inv0 s'.
Proof.
  intros I Hi Ho Hd Hx s' Hn P.
  assert (Hst : forall j, c_status s' j = if j =? i then x else c_status s j) by reflexivity.
  assert (Hdt : forall j, c_data s' j = c_data s j) by (intros j; cbn; destruct (N.eqb_spec j i) as [->|]; congruence).
  assert (Hnz : forall j, c_status s j <> 0 -> c_status s' j <> 0).
  { intros j Hj. rewrite Hst. destruct (N.eqb_spec j i); assumption. }
  assert (Hoc : forall j, is_occupied (c_status s' j) = true -> is_occupied (c_status s j) = true).
  { intros j. rewrite Hst. destruct (N.eqb_spec j i) as [->|]; auto. }
  constructor.
  - exact (i_prime s I).
  - exact Hn.
  - change (c_used s') with (c_used s). rewrite (i_used s I). f_equal. unfold nzs. change (c_numslots s') with (c_numslots s).
    f_equal. apply flat_map_ext. intros j. unfold nz. rewrite Hst. destruct (N.eqb_spec j i) as [->|]; [|reflexivity].
    apply occ_ge in Ho. destruct (N.eqb_spec x 0), (N.eqb_spec (c_status s i) 0); try reflexivity; [contradiction|lia].
  - intros j Hj Hoj. rewrite Hdt. apply (i_data s I); auto.
  - intros j e Hj Hoj He. rewrite Hdt in He. destruct (i_probe s I j e Hj (Hoc j Hoj) He) as (a & E & H).
    exists a. split; [exact E|]. intros b Hb. apply Hnz. apply H. assumption.
Qed.

Lemma exec_remove fuel s d s' : inv s -> sc_remove T K key_of hash eqk fuel s d = Ok s' ->
  inv s' /\ mm_step T K key_of eqk (contents s) (c_freed s) (HRemove d) (contents s') (c_freed s') /\ c_index s' = c_index s.
Proof.
  intros [I L] E. unfold sc_remove in E. destruct (genfind fuel s (key_of d)) as [r| |] eqn:Eg; try discriminate. cbn [bind] in E.
  apply genfind_ok in Eg; [|assumption]. destruct r as [i|].
  2:{ injection E as <-. split; [split; assumption|]. split; [|reflexivity]. left. auto. }
  destruct Eg as (Hi & x & Ho & Hd & Hk). rewrite Hd in E. cbn [of_opt bind] in E. injection E as <-.
  set (s' := set_counts T _ _ _ _).
  assert (P : Permutation (ent s i ++ contents s') (ent s' i ++ contents s)).
  { apply (flat_map_upd (ent s') (ent s) (indices (c_numslots s)) i (nodup_indices _)); [apply in_indices; assumption|].
    intros j Hj. unfold ent. cbn. destruct (N.eqb_spec j i); [contradiction|reflexivity]. }
  assert (E1 : ent s i = [(x, is_auto_free (c_status s i))]) by (unfold ent; rewrite Ho, Hd; reflexivity).
  assert (E2 : ent s' i = []) by (unfold ent; cbn; rewrite N.eqb_refl; reflexivity).
  pose proof P as P'. rewrite E1, E2 in P'. cbn [app] in P'.
  split.
  - split; [|exact L]. apply (change_ok s i x 1 (c_num s - 1) (c_freed s') I Hi Ho Hd ltac:(lia)).
    + change (c_num s - 1 = N.of_nat (length (contents s'))). apply Permutation_length in P'. cbn [length] in P'.
      rewrite (i_num s I). lia.
    + exact P.
  - split; [|reflexivity]. right. exists (x, is_auto_free (c_status s i)). split; [exact Hk|]. split; [symmetry; exact P'|].
    unfold frees. cbn [filter snd]. cbn [s' c_freed set_counts]. destruct (is_auto_free (c_status s i)); [reflexivity|]. cbn. rewrite app_nil_r. reflexivity.
Qed.

Lemma exec_auto fuel s k a s' : inv s -> sc_set_autofree T K key_of hash eqk fuel s k a = Ok s' ->
  inv s' /\ mm_step T K key_of eqk (contents s) (c_freed s) (HAuto k a) (contents s') (c_freed s') /\ c_index s' = c_index s.
Proof.
  intros [I L] E. unfold sc_set_autofree in E. destruct (genfind fuel s k) as [r| |] eqn:Eg; try discriminate. cbn [bind] in E.
  apply genfind_ok in Eg; [|assumption]. destruct r as [i|].
  2:{ injection E as <-. split; [split; assumption|]. split; [|reflexivity]. left. auto. }
  destruct Eg as (Hi & x & Ho & Hd & Hk). rewrite Hd in E. injection E as <-.
  set (s' := set_slot T _ _ _ _).
  assert (P : Permutation (ent s i ++ contents s') (ent s' i ++ contents s)).
  { apply (flat_map_upd (ent s') (ent s) (indices (c_numslots s)) i (nodup_indices _)); [apply in_indices; assumption|].
    intros j Hj. unfold ent. cbn. destruct (N.eqb_spec j i); [contradiction|reflexivity]. }
  assert (E1 : ent s i = [(x, is_auto_free (c_status s i))]) by (unfold ent; rewrite Ho, Hd; reflexivity).
  assert (E2 : ent s' i = [(x, a)]) by (unfold ent; cbn; rewrite N.eqb_refl, occ_status, auto_status; reflexivity).
  pose proof P as P'. rewrite E1, E2 in P'. cbn [app] in P'.
  split.
  - split; [|exact L]. apply (change_ok s i x (status_of a) (c_num s) (c_freed s) I Hi Ho Hd ltac:(destruct a; discriminate)).
    + change (c_num s = N.of_nat (length (contents s'))). apply Permutation_length in P'. cbn [length] in P'.
      rewrite (i_num s I). lia.
    + exact P.
  - split; [|reflexivity]. right.
    assert (Hin : In (x, is_auto_free (c_status s i)) (contents s)).
    { apply in_contents; [assumption|]. exists i, x. auto. }
    apply in_split in Hin. destruct Hin as (l1 & l2 & El).
    exists (x, is_auto_free (c_status s i)), (l1 ++ l2). split; [exact Hk|].
    assert (PE : Permutation (contents s) ((x, is_auto_free (c_status s i)) :: l1 ++ l2)).
    { rewrite El. symmetry. apply Permutation_middle. }
    split; [exact PE|]. split; [|reflexivity]. rewrite PE in P'.
    apply (Permutation_cons_inv (a := (x, is_auto_free (c_status s i)))). rewrite P'. apply perm_swap.
Qed.

Lemma zap_loop_ok s : inv0 s -> forall l, (forall i, In i l -> i < c_numslots s) ->
  zap_loop T s l = Ok (frees T (flat_map (ent s) l)).
Proof.
  intros I. induction l as [|i l IH]; intros H; [reflexivity|]. cbn [zap_loop flat_map].
  rewrite IH by (intros; apply H; right; assumption). cbn [bind].
  unfold frees. rewrite filter_app, map_app.
  set (rest := map fst (filter snd (flat_map (ent s) l))). unfold ent.
  destruct (is_occupied (c_status s i)) eqn:Eo.
  - pose proof (i_data s I i (H i (or_introl eq_refl)) Eo) as Hd. destruct (c_data s i) as [d|]; [|contradiction].
    cbn [filter snd]. destruct (is_auto_free (c_status s i)); reflexivity.
  - cbn. apply occ_false in Eo. unfold is_auto_free. destruct (N.eqb_spec (c_status s i) 3); [lia|reflexivity].
Qed.

Lemma exec_zap s : inv s -> exists s', sc_zap T s = Ok s' /\
  inv s' /\ mm_step T K key_of eqk (contents s) (c_freed s) HZap (contents s') (c_freed s') /\ c_index s' = c_index s.
Proof.
  intros [I L]. unfold sc_zap. rewrite zap_loop_ok; [|assumption|intros i; apply in_indices]. cbn [bind].
  eexists. split; [reflexivity|]. set (s' := Scatter T _ _ _ _ _ _ _).
  assert (E0 : forall l, flat_map (ent s') l = []) by (induction l; auto).
  assert (E1 : forall l, flat_map (nz s') l = []) by (induction l; auto).
  split; [split|].
  - constructor.
    + exact (i_prime s I).
    + unfold contents. rewrite E0. reflexivity.
    + unfold nzs. rewrite E1. reflexivity.
    + discriminate.
    + discriminate.
  - cbn [c_used c_numslots s']. pose proof (primes_big _ _ (i_prime s I)). lia.
  - split; [|reflexivity]. split; [unfold contents; apply E0|]. reflexivity.
Qed.

Lemma exec_ok fuel s o s' : inv s -> sc_exec T K key_of hash eqk fuel s o = Ok s' ->
  inv s' /\ mm_step T K key_of eqk (contents s) (c_freed s) o (contents s') (c_freed s') /\
  (c_index s' = c_index s \/ (c_index s' = S (c_index s) /\ 40 * c_numslots s <= 100 * (c_num s + 1))).
Proof.
  intros I E. destruct o as [d a|d| |k a]; cbn [sc_exec] in E.
  - destruct (add_ok _ _ _ _ _ I E) as (I1 & P1 & F1 & X1). split; [assumption|]. split; [|assumption]. split; assumption.
  - destruct (exec_remove _ _ _ _ I E) as (I1 & P1 & X1). auto.
  - destruct (exec_zap s I) as (s1 & E1 & I1 & P1 & X1). rewrite E in E1. injection E1 as <-. auto.
  - destruct (exec_auto _ _ _ _ _ I E) as (I1 & P1 & X1). auto.
Qed.

Lemma run_ok fuel : forall ops s s', inv s -> sc_run T K key_of hash eqk fuel s ops = Ok s' ->
  inv s' /\ mm_run T K key_of eqk (contents s) (c_freed s) ops (contents s') (c_freed s').
Proof.
  induction ops as [|o ops IH]; intros s s' I E; cbn [sc_run] in E.
  - injection E as <-. split; [assumption|]. constructor.
  - destruct (sc_exec T K key_of hash eqk fuel s o) as [s1| |] eqn:E1; try discriminate. cbn [bind] in E.
    destruct (exec_ok _ _ _ _ I E1) as (I1 & M1 & _). destruct (IH _ _ I1 E) as (I2 & M2).
    split; [assumption|]. econstructor; eassumption.
Qed.

(** ** Observers *)
Lemma find_answer_ok fuel s k x : inv s -> sc_find T K key_of hash eqk fuel s k = Ok x ->
  find_answer T K key_of eqk k (contents s) x.
Proof.
  intros [I L] E. unfold sc_find in E. destruct (genfind fuel s k) as [r| |] eqn:Eg; try discriminate. cbn [bind] in E.
  apply genfind_ok in Eg; [|assumption]. destruct r as [i|]; [|injection E as <-; exact Eg].
  destruct Eg as (Hi & d & Ho & Hd & Hk). rewrite Hd in E. cbn in E. injection E as <-.
  split; [assumption|]. apply in_map_iff. exists (d, is_auto_free (c_status s i)). split; [reflexivity|].
  apply in_contents; [assumption|]. exists i, d. auto.
Qed.
Lemma get_autofree_ok fuel s k b : inv s -> sc_get_autofree T K key_of hash eqk fuel s k = Ok b ->
  exists d, eqk k (key_of d) = true /\ In (d, b) (contents s).
Proof.
  intros [I L] E. unfold sc_get_autofree in E. destruct (genfind fuel s k) as [r| |] eqn:Eg; try discriminate. cbn [bind] in E.
  apply genfind_ok in Eg; [|assumption]. destruct r as [i|]; [|discriminate]. injection E as <-.
  destruct Eg as (Hi & d & Ho & Hd & Hk). exists d. split; [assumption|]. apply in_contents; [assumption|]. exists i, d. auto.
Qed.

Lemma slowcount_ok s : inv s -> sc_slowcount T s = length (contents s).
Proof.
  intros [I L]. unfold sc_slowcount, contents.
  assert (H : forall i, In i (indices (c_numslots s)) -> i < c_numslots s) by (intros i; apply in_indices).
  induction (indices (c_numslots s)) as [|i l IH]; [reflexivity|]. cbn [filter flat_map]. rewrite app_length.
  rewrite <- IH by (intros; apply H; right; assumption). unfold ent.
  destruct (is_occupied (c_status s i)) eqn:Eo; [|reflexivity].
  pose proof (i_data s I i (H i (or_introl eq_refl)) Eo) as Hd. destruct (c_data s i); [reflexivity|contradiction].
Qed.

Definition from (s : scatter) (i : N) : list N := map N.of_nat (seq (N.to_nat i) (N.to_nat (c_numslots s - i))).
Lemma from_step s i : i < c_numslots s -> from s i = i :: from s (i + 1).
Proof.
  intros H. unfold from. replace (N.to_nat (c_numslots s - i)) with (S (N.to_nat (c_numslots s - (i + 1)))) by lia.
  cbn [seq map]. replace (N.to_nat (i + 1)) with (S (N.to_nat i)) by lia. f_equal. lia.
Qed.
Lemma from_end s i : c_numslots s <= i -> from s i = [].
Proof. intros H. unfold from. replace (N.to_nat (c_numslots s - i)) with O by lia. reflexivity. Qed.

Lemma next_ok s : inv0 s -> forall fuel i, c_numslots s - i < N.of_nat fuel ->
  exists r, next_loop T fuel s i = Ok r /\
  match r with
  | None => flat_map (ent s) (from s i) = []
  | Some j => exists d, i < j <= c_numslots s /\ c_data s (j - 1) = Some d /\
      map fst (flat_map (ent s) (from s i)) = d :: map fst (flat_map (ent s) (from s j))
  end.
Proof.
  intros I. induction fuel as [|fuel IH]; intros i Hf; [lia|]. cbn [next_loop].
  destruct (N.leb_spec (i + 1) (c_numslots s)) as [Hl|Hl].
  - rewrite from_step by lia. cbn [flat_map]. replace (i + 1 - 1) with i by lia.
    destruct (is_occupied (c_status s i)) eqn:Eo.
    + pose proof (i_data s I i ltac:(lia) Eo) as Hd. destruct (c_data s i) as [d|] eqn:Ed; [|contradiction].
      exists (Some (i + 1)). split; [reflexivity|]. exists d. split; [lia|]. replace (i + 1 - 1) with i by lia.
      split; [assumption|]. rewrite map_app. unfold ent at 1. rewrite Eo, Ed. reflexivity.
    + assert (Ee : ent s i = []) by (unfold ent; rewrite Eo; reflexivity). rewrite Ee. cbn [app].
      destruct (IH (i + 1) ltac:(lia)) as (r & E & H). exists r. split; [exact E|].
      destruct r as [j|]; [|exact H]. destruct H as (d & H1 & H2 & H3). exists d. split; [lia|]. auto.
  - exists None. split; [reflexivity|]. rewrite from_end by lia. reflexivity.
Qed.

Lemma walk_loop_ok s : inv0 s -> forall fuel i, c_numslots s - i < N.of_nat fuel ->
  sc_walk_loop T fuel s i = Ok (map fst (flat_map (ent s) (from s i))).
Proof.
  intros I. induction fuel as [|fuel IH]; intros i Hf; [lia|]. cbn [sc_walk_loop].
  destruct (next_ok s I (S fuel) i Hf) as (r & E & H). rewrite E. cbn [bind]. destruct r as [j|].
  - destruct H as (d & H1 & H2 & H3). rewrite H2. cbn [of_opt bind]. rewrite IH by lia. cbn [bind]. rewrite H3. reflexivity.
  - rewrite H. reflexivity.
Qed.
Lemma walk_contents s : inv s -> sc_walk T s = Ok (map fst (contents s)).
Proof.
  intros [I L]. unfold sc_walk. rewrite walk_loop_ok; [|assumption|lia]. unfold from, contents, indices.
  rewrite N.sub_0_r. reflexivity.
Qed.

Lemma index_loop_ok : forall fuel n i r, index_loop fuel n i = Ok r -> (i <= r)%nat.
Proof.
  induction fuel as [|fuel IH]; intros n i r E; [discriminate|]. cbn [index_loop] in E.
  destruct (N.shiftr n 1 =? 0); [injection E as <-; lia|]. apply IH in E. lia.
Qed.
Lemma index_loop_bound : forall b fuel n i, n < 2 ^ N.of_nat (S b) -> (b < fuel)%nat ->
  exists r, index_loop fuel n i = Ok r /\ (r <= i + b)%nat.
Proof.
  induction b as [|b IH]; intros fuel n i Hn Hf; (destruct fuel as [|fuel]; [lia|]); cbn [index_loop];
    rewrite N.shiftr_div_pow2; change (2 ^ 1) with 2.
  - rewrite N.div_small by (cbn in Hn; lia). exists i. split; [reflexivity|lia].
  - destruct (n / 2 =? 0); [exists i; split; [reflexivity|lia]|].
    destruct (IH fuel (n / 2) (S i)) as (r & E & H); [|lia|exists r; split; [exact E|lia]].
    apply N.div_lt_upper_bound; [lia|]. rewrite (Nat2N.inj_succ (S b)), N.pow_succ_r' in Hn. lia.
Qed.

Lemma new_inv n s : sc_new T n = Ok s -> inv s /\ contents s = [] /\ c_freed s = [].
Proof.
  unfold sc_new. intros E. destruct (if n =? 0 then Ok 0%nat else index_loop 33 n 1) as [i| |]; try discriminate. cbn [bind] in E.
  destruct (fresh_inv _ _ _ E) as (I & C & F & _). auto.
Qed.
Lemma new_total n b : n < 2 ^ N.of_nat b -> (0 < b <= 31)%nat -> exists s, sc_new T n = Ok s /\ (c_index s <= b)%nat.
Proof.
  intros Hn Hb. unfold sc_new.
  assert (Hi : exists i, (if n =? 0 then Ok 0%nat else index_loop 33 n 1) = Ok i /\ (i <= b)%nat).
  { destruct (N.eqb_spec n 0); [exists 0%nat; split; [reflexivity|lia]|].
    destruct (index_loop_bound (b - 1) 33 n 1) as (r & E & H); [|lia|exists r; split; [exact E|lia]].
    replace (S (b - 1)) with b by lia. assumption. }
  destruct Hi as (i & E & Hi). rewrite E. cbn [bind].
  assert (Hp : exists p, nth_error prime_numbers i = Some p).
  { destruct (nth_error prime_numbers i) eqn:En; [eauto|]. apply nth_error_None in En. cbn in En. lia. }
  destruct Hp as (p & Ep). unfold fresh. rewrite Ep. cbn. eexists. split; [reflexivity|]. exact Hi.
Qed.

(** ** Termination for tables of at most 65521 slots *)
Definition nodiv (p : N) : bool :=
  forallb (fun d => (p <? d * d) || negb (p mod d =? 0)) (map N.of_nat (seq 2 254)).
Lemma small_primes i p : (i <= 15)%nat -> nth_error prime_numbers i = Some p -> p <= 65521 /\ nodiv p = true.
Proof.
  intros Hi H. do 16 (destruct i as [|i]; [cbn in H; injection H as <-; split; [lia|vm_compute; reflexivity]|]). lia.
Qed.
Lemma nodiv_coprime p h : 2 <= p -> p <= 65521 -> nodiv p = true -> 0 < h < p -> N.gcd p h = 1.
Proof.
  intros Hp Hs Hd Hh. unfold nodiv in Hd. rewrite forallb_forall in Hd.
  assert (D : forall d, 2 <= d -> d * d <= p -> ~ (d | p)).
  { intros d H2 Hdd Hdiv. assert (Hlt : d < 256) by nia. specialize (Hd d).
    assert (Hin : In d (map N.of_nat (seq 2 254))).
    { apply in_map_iff. exists (N.to_nat d). split; [lia|]. apply in_seq. lia. }
    specialize (Hd Hin). apply orb_true_iff in Hd. destruct Hd as [Hd|Hd]; [apply N.ltb_lt in Hd; lia|].
    apply negb_true_iff, N.eqb_neq in Hd. apply Hd. apply N.mod_divide; [lia|assumption]. }
  set (g := N.gcd p h). destruct (N.gcd_divide_l p h) as [q Eq]. pose proof (N.gcd_divide_r p h) as Dr. fold g in Eq, Dr.
  assert (Hg : g <= h) by (apply N.divide_pos_le; [lia|assumption]).
  destruct (N.eq_dec g 0) as [E0|]; [nia|]. destruct (N.eq_dec g 1) as [|N1]; [assumption|]. exfalso.
  destruct (N.le_gt_cases g q) as [Hle|Hgt].
  - apply (D g); [lia|nia|exists q; assumption].
  - apply (D q); [nia|nia|exists g; lia].
Qed.

Lemma second_hash_range s h : inv0 s -> 0 < second_hash s h < c_numslots s.
Proof.
  intros I. pose proof (primes_big _ _ (i_prime s I)). unfold second_hash.
  pose proof (N.mod_upper_bound h (c_numslots s - 1) ltac:(lia)). lia.
Qed.

Lemma probe_inj s h a b c : inv0 s -> (c_index s <= 15)%nat -> a < b -> b < c_numslots s ->
  2 ^ 32 * c <= h + a * second_hash s h -> h + b * second_hash s h < 2 ^ 32 * (c + 1) ->
  probe s h a <> probe s h b.
Proof.
  intros I Hi Hab Hb H1 H2 E. unfold probe, curhash, wrap32 in E.
  destruct (small_primes _ _ Hi (i_prime s I)) as [Hs Hd]. pose proof (second_hash_range s h I) as Hr.
  pose proof (primes_big _ _ (i_prime s I)) as Hp.
  pose proof (nodiv_coprime _ _ Hp Hs Hd Hr) as G. set (p := c_numslots s) in *. set (q := second_hash s h) in *.
  assert (Hw : forall x, 2 ^ 32 * c <= x -> x < 2 ^ 32 * (c + 1) -> x mod 2 ^ 32 = x - 2 ^ 32 * c).
  { intros x Hx Hy. symmetry. apply (N.mod_unique x (2 ^ 32) c); lia. }
  assert (a * q <= b * q) by nia.
  rewrite !Hw in E by lia.
  set (x := h + a * q - 2 ^ 32 * c) in *. set (y := h + b * q - 2 ^ 32 * c) in *.
  assert (Exy : y = x + (b - a) * q) by (unfold x, y; rewrite N.mul_sub_distr_r; lia).
  assert (D : (p | q * (b - a))).
  { rewrite (N.div_mod x p), (N.div_mod y p) in Exy by lia. rewrite E in Exy.
    assert (Hle : x / p <= y / p) by (apply N.div_le_mono; [lia|unfold x, y; lia]).
    exists (y / p - x / p). rewrite N.mul_sub_distr_r.
    clear -Exy Hle. set (u := x / p) in *. set (v := y / p) in *. clearbody u v. set (r := y mod p) in *. clearbody r.
    pose proof (N.mul_le_mono_r u v p Hle). lia. }
  apply N.gauss in D; [|assumption]. apply N.divide_pos_le in D; lia.
Qed.

Lemma pigeon s h m n c : inv0 s -> (c_index s <= 15)%nat -> n < c_numslots s -> m <= n ->
  2 ^ 32 * c <= h + m * second_hash s h -> h + n * second_hash s h < 2 ^ 32 * (c + 1) ->
  (forall a, m <= a <= n -> c_status s (probe s h a) <> 0) -> n - m + 1 <= c_used s.
Proof.
  intros I Hi Hn Hmn H1 H2 H.
  set (l := map (fun j => probe s h (m + N.of_nat j)) (seq 0 (N.to_nat (n - m + 1)))).
  assert (ND : NoDup l).
  { unfold l.
    assert (G : forall k st, N.of_nat st + N.of_nat k <= n - m + 1 ->
      NoDup (map (fun j => probe s h (m + N.of_nat j)) (seq st k))).
    { induction k as [|k IH]; intros st Hst; [constructor|]. cbn [seq map]. constructor; [|apply IH; lia].
      intros Hin. apply in_map_iff in Hin. destruct Hin as (j & Ej & Hj). apply in_seq in Hj.
      symmetry in Ej. revert Ej. apply (probe_inj s h _ _ c I Hi); [lia|lia| |].
      - assert (m * second_hash s h <= (m + N.of_nat st) * second_hash s h) by nia. lia.
      - assert ((m + N.of_nat j) * second_hash s h <= n * second_hash s h) by nia. lia. }
    apply G. lia. }
  assert (Incl : incl l (nzs s)).
  { intros x Hx. unfold l in Hx. apply in_map_iff in Hx. destruct Hx as (j & <- & Hj). apply in_seq in Hj.
    unfold nzs. apply in_flat_map. exists (probe s h (m + N.of_nat j)). split; [apply in_indices, probe_lt; assumption|].
    unfold nz. specialize (H (m + N.of_nat j) ltac:(lia)). destruct (N.eqb_spec (c_status s (probe s h (m + N.of_nat j))) 0); [contradiction|left; reflexivity]. }
  pose proof (NoDup_incl_length ND Incl) as Hl. unfold l in Hl. rewrite map_length, seq_length in Hl.
  rewrite (i_used s I). lia.
Qed.

Lemma free_slot s h : inv s -> (c_index s <= 15)%nat -> h < 2 ^ 32 ->
  exists a, a < c_numslots s /\ c_status s (probe s h a) = 0.
Proof.
  intros [I L] Hi Hh. destruct (small_primes _ _ Hi (i_prime s I)) as [Hs _].
  pose proof (primes_big _ _ (i_prime s I)) as Hp. pose proof (second_hash_range s h I) as Hr.
  set (p := c_numslots s) in *. set (q := second_hash s h) in *.
  assert (Dec : (exists a, a < p /\ c_status s (probe s h a) = 0) \/ forall a, a < p -> c_status s (probe s h a) <> 0).
  { clear. generalize p. apply N.peano_ind.
    - right. intros; lia.
    - intros n [(a & H1 & H2)|H]; [left; exists a; split; [lia|assumption]|].
      destruct (N.eq_dec (c_status s (probe s h n)) 0); [left; exists n; split; [lia|assumption]|].
      right. intros a Ha. destruct (N.eq_dec a n) as [->|]; [assumption|apply H; lia]. }
  destruct Dec as [|Hall]; [assumption|]. exfalso.
  (* the last attempt before the wrap *)
  set (m := (2 ^ 32 - 1 - h) / q).
  assert (Hm1 : h + m * q < 2 ^ 32).
  { pose proof (N.mul_div_le (2 ^ 32 - 1 - h) q ltac:(lia)). fold m in H. lia. }
  assert (Hm2 : 2 ^ 32 <= h + (m + 1) * q).
  { pose proof (N.mul_succ_div_gt (2 ^ 32 - 1 - h) q ltac:(lia)). fold m in H. lia. }
  assert (Hmax : forall a, a < p -> h + a * q < 2 ^ 33) by (intros a Ha; assert (a * q <= 65521 * 65521) by nia; lia).
  destruct (N.le_gt_cases (p - 1) m) as [Hge|Hlt].
  - pose proof (pigeon s h 0 (p - 1) 0 I Hi ltac:(fold p; lia) ltac:(lia) ltac:(fold q; lia)) as P. fold q p in P.
    assert ((p - 1) * q <= m * q) by nia. specialize (P ltac:(lia) ltac:(intros; apply Hall; lia)). lia.
  - pose proof (pigeon s h 0 m 0 I Hi ltac:(fold p; lia) ltac:(lia) ltac:(fold q; lia)) as P1. fold q p in P1.
    specialize (P1 ltac:(lia) ltac:(intros; apply Hall; lia)).
    pose proof (pigeon s h (m + 1) (p - 1) 1 I Hi ltac:(fold p; lia) ltac:(lia) ltac:(fold q; lia)) as P2. fold q p in P2.
    specialize (P2 ltac:(apply Hmax; lia) ltac:(intros; apply Hall; lia)). lia.
Qed.

Lemma place_loop_total s h : forall fuel a a0, a <= a0 -> c_status s (probe s h a0) = 0 -> a0 - a < N.of_nat fuel ->
  exists r, place_loop T fuel s h (second_hash s h) a (probe s h a) = Ok r.
Proof.
  induction fuel as [|fuel IH]; intros a a0 Ha H0 Hf; [lia|]. cbn [place_loop].
  destruct (is_occupied (c_status s (probe s h a))) eqn:Eo; [|eauto].
  apply (IH (a + 1) a0); [|assumption|]; destruct (N.eq_dec a a0) as [->|]; try lia; rewrite H0 in Eo; discriminate.
Qed.

Lemma place_total fuel s d auto : inv s -> (c_index s <= 15)%nat -> c_numslots s <= N.of_nat fuel ->
  exists s', place fuel s d (hash (key_of d)) auto = Ok s'.
Proof.
  intros I Hi Hf. destruct (free_slot s (hash (key_of d)) I Hi (hash32 _)) as (a & Ha & H0).
  unfold ScatterModel.place. rewrite <- probe0. destruct (is_occupied _); [|cbn; eauto].
  destruct (place_loop_total s (hash (key_of d)) fuel 0 a ltac:(lia) H0 ltac:(lia)) as (r & ->). cbn. eauto.
Qed.

Lemma refill_total f old B : inv old -> forall l s, (forall i, In i l -> i < c_numslots old) -> inv0 s ->
  (c_index s <= 15)%nat -> c_numslots s <= N.of_nat f ->
  c_used s + N.of_nat (length (flat_map (ent old) l)) <= B -> 100 * B < 45 * c_numslots s ->
  exists s', refill T (sc_add f) old s l = Ok s'.
Proof.
  intros Iold. induction l as [|i l IH]; intros s Hin I Hi Hf HB Hl; [cbn; eauto|]. cbn [refill]. cbn [flat_map] in HB. unfold ent at 1 in HB.
  destruct (is_occupied (c_status old i)) eqn:Eo; [|apply IH; auto; intros; apply Hin; right; assumption].
  destruct Iold as [Iold Lold].
  pose proof (i_data old Iold i (Hin i (or_introl eq_refl)) Eo) as Hd. destruct (c_data old i) as [d|]; [|contradiction].
  cbn [of_opt bind]. rewrite app_length in HB. cbn [length] in HB.
  pose proof (primes_big _ _ (i_prime s I)) as Hp.
  rewrite add_norebuild by lia. destruct f as [|f]; [lia|].
  assert (Ld : 100 * c_used s < 45 * c_numslots s) by lia.
  destruct (place_total (S f) s d (is_auto_free (c_status old i)) (conj I Ld) Hi Hf) as (s1 & Ep).
  rewrite Ep. cbn [bind]. destruct (place_ok _ _ _ _ _ I Ep) as (I1 & (Sh1 & Sh2 & Sh3) & P1 & U1).
  apply IH; auto; [intros; apply Hin; right; assumption|lia|rewrite Sh2; assumption|lia|rewrite Sh2; assumption].
Qed.

Lemma numslots_small s : inv0 s -> (c_index s <= 15)%nat -> c_numslots s <= 65521.
Proof. intros I Hi. apply (small_primes _ _ Hi (i_prime s I)). Qed.
Lemma last_small s : inv0 s -> c_index s = 15%nat -> c_numslots s = 65521.
Proof. intros I Hi. pose proof (i_prime s I) as H. rewrite Hi in H. cbn in H. congruence. Qed.

Lemma add_total fuel s d auto : inv s -> (c_index s <= 15)%nat -> c_num s <= 26207 -> 65522 <= N.of_nat fuel ->
  exists s', sc_add fuel s d auto = Ok s' /\ (c_index s' <= 15)%nat.
Proof.
  intros I Hi Hn Hf. destruct fuel as [|f]; [lia|]. cbn [ScatterModel.sc_add].
  assert (Hr : exists s1, rebuild T (sc_add f) s = Ok s1).
  { destruct I as [I L]. unfold rebuild. destruct (N.leb_spec (45 * c_numslots s) (100 * (c_used s + 1))); [|eauto].
    set (idx := if 40 * c_numslots s <=? 100 * (c_num s + 1) then S (c_index s) else c_index s).
    assert (Hidx : (idx <= 15)%nat).
    { unfold idx. destruct (N.leb_spec (40 * c_numslots s) (100 * (c_num s + 1))); [|assumption].
      destruct (Nat.eq_dec (c_index s) 15) as [E|]; [|lia]. rewrite (last_small s I E) in *. lia. }
    assert (Hp : exists p, nth_error prime_numbers idx = Some p).
    { destruct (nth_error prime_numbers idx) eqn:En; [eauto|]. apply nth_error_None in En. cbn in En. lia. }
    destruct Hp as (p & Ep).
    assert (Hs0 : exists s0', fresh T idx (c_freed s) = Ok s0') by (unfold fresh; rewrite Ep; cbn; eauto).
    destruct Hs0 as (s0' & Ef'). rewrite Ef'. cbn [bind].
    destruct (fresh_inv _ _ _ Ef') as ([I0 L0] & C0 & F0 & X0 & U0).
    pose proof (num_le_used s I) as NU. pose proof (i_prime s I) as Hp. pose proof (i_prime s0' I0) as Hp0. rewrite X0 in Hp0.
    assert (HB : 100 * (N.of_nat (length (contents s)) + 1) < 45 * c_numslots s0').
    { rewrite <- (i_num s I). unfold idx in Hp0. destruct (N.leb_spec (40 * c_numslots s) (100 * (c_num s + 1))).
      - pose proof (primes_grow _ _ _ Hp Hp0). lia.
      - rewrite Hp in Hp0. injection Hp0 as <-. lia. }
    apply (refill_total f s (N.of_nat (length (contents s))) (conj I L)).
    - intros i. apply in_indices.
    - exact I0.
    - rewrite X0. assumption.
    - pose proof (numslots_small s0' I0 ltac:(lia)). lia.
    - rewrite U0. unfold contents. lia.
    - lia. }
  destruct Hr as (s1 & Er). rewrite Er. cbn [bind].
  destruct (rebuild_ok _ _ _ I Er) as (I1 & P1 & F1 & L1 & X1).
  assert (Hi1 : (c_index s1 <= 15)%nat).
  { destruct X1 as [->|[-> X]]; [assumption|]. destruct (Nat.eq_dec (c_index s) 15) as [E|]; [|lia].
    rewrite (last_small s (proj1 I) E) in *. lia. }
  assert (L2 : 100 * c_used s1 < 45 * c_numslots s1) by lia.
  destruct (place_total (S f) s1 d auto (conj I1 L2) Hi1) as (s' & Ep).
  { pose proof (numslots_small s1 I1 Hi1). lia. }
  exists s'. split; [exact Ep|]. destruct (place_ok _ _ _ _ _ I1 Ep) as (_ & (S1 & _) & _). lia.
Qed.

Lemma matches_total s k i : inv0 s -> i < c_numslots s -> exists m, slot_matches s k i = Ok m.
Proof.
  intros I Hi. unfold ScatterModel.slot_matches. destruct (is_occupied (c_status s i)) eqn:Eo; [|eauto].
  pose proof (i_data s I i Hi Eo). destruct (c_data s i); [cbn; eauto|contradiction].
Qed.
Lemma find_loop_total s k : inv0 s -> forall fuel a a0, a <= a0 -> c_status s (probe s (hash k) a0) = 0 -> a0 - a < N.of_nat fuel ->
  exists r, find_loop fuel s k (hash k) (second_hash s (hash k)) a (probe s (hash k) a) = Ok r.
Proof.
  intros I. induction fuel as [|fuel IH]; intros a a0 Ha H0 Hf; [lia|]. cbn [ScatterModel.find_loop].
  destruct (N.eqb_spec (c_status s (probe s (hash k) a)) 0) as [|E0]; [eauto|].
  fold (probe s (hash k) (a + 1)). destruct (matches_total s k (probe s (hash k) (a + 1)) I (probe_lt _ _ _ I)) as (m & ->).
  cbn [bind]. destruct m; [eauto|]. apply (IH (a + 1) a0); [|assumption|]; destruct (N.eq_dec a a0) as [->|]; try lia; contradiction.
Qed.
Lemma genfind_total fuel s k : inv s -> (c_index s <= 15)%nat -> c_numslots s <= N.of_nat fuel ->
  exists r, genfind fuel s k = Ok r.
Proof.
  intros I Hi Hf. destruct (free_slot s (hash k) I Hi (hash32 _)) as (a & Ha & H0).
  unfold ScatterModel.genfind. rewrite <- probe0.
  destruct (matches_total s k (probe s (hash k) 0) (proj1 I) (probe_lt _ _ _ (proj1 I))) as (m & ->). cbn [bind].
  destruct m; [eauto|]. apply (find_loop_total s k (proj1 I) fuel 0 a); [lia|assumption|lia].
Qed.
Lemma find_total fuel s k : inv s -> (c_index s <= 15)%nat -> 65522 <= N.of_nat fuel ->
  exists x, sc_find T K key_of hash eqk fuel s k = Ok x.
Proof.
  intros I Hi Hf. pose proof (numslots_small s (proj1 I) Hi).
  destruct (genfind_total fuel s k I Hi ltac:(lia)) as (r & E). unfold sc_find. rewrite E. cbn [bind].
  destruct r as [i|]; [|eauto]. apply genfind_ok in E; [|exact (proj1 I)]. destruct E as (_ & d & _ & -> & _). cbn. eauto.
Qed.
Lemma exec_total fuel s o : inv s -> (c_index s <= 15)%nat -> (forall d a, o = HAdd d a -> c_num s <= 26207) ->
  65522 <= N.of_nat fuel -> exists s', sc_exec T K key_of hash eqk fuel s o = Ok s' /\ (c_index s' <= 15)%nat.
Proof.
  intros I Hi Hn Hf. pose proof (numslots_small s (proj1 I) Hi).
  destruct o as [d a|d| |k a]; cbn [sc_exec].
  - apply add_total; auto. eapply Hn. reflexivity.
  - unfold sc_remove. destruct (genfind_total fuel s (key_of d) I Hi ltac:(lia)) as (r & E). rewrite E. cbn [bind].
    destruct r as [i|]; [|eauto]. apply genfind_ok in E; [|exact (proj1 I)]. destruct E as (_ & x & _ & -> & _). cbn. eauto.
  - destruct (exec_zap s I) as (s' & E & _ & _ & X). exists s'. split; [exact E|]. lia.
  - unfold sc_set_autofree. destruct (genfind_total fuel s k I Hi ltac:(lia)) as (r & E). rewrite E. cbn [bind].
    destruct r as [i|]; [|eauto]. eexists. split; [reflexivity|]. exact Hi.
Qed.

Lemma run_total fuel ops : 65522 <= N.of_nat fuel -> forall s, inv s -> (c_index s <= 15)%nat ->
  (forall pre d a post l fr, ops = pre ++ HAdd d a :: post ->
     mm_run T K key_of eqk (contents s) (c_freed s) pre l fr -> (length l <= N.to_nat 26207)%nat) ->
  exists s', sc_run T K key_of hash eqk fuel s ops = Ok s' /\ (c_index s' <= 15)%nat.
Proof.
  intros Hf. induction ops as [|o ops IH]; intros s I Hi H; cbn [sc_run]; [eauto|].
  destruct (exec_total fuel s o I Hi) as (s1 & E & Hi1); [|assumption|].
  - intros d a ->. rewrite (i_num s (proj1 I)). specialize (H [] d a ops (contents s) (c_freed s) eq_refl (mm_nil _ _ _ _ _ _)). lia.
  - rewrite E. cbn [bind]. destruct (exec_ok _ _ _ _ I E) as (I1 & M1 & _). apply IH; auto.
    intros pre d a post l fr -> M. apply (H (o :: pre) d a post l fr eq_refl). econstructor; eassumption.
Qed.
End Scatter.

(** ** Consequences for the multimap *)
Section Mm.
Variables (T K : Type) (key_of : T -> K) (hash : K -> N) (eqk : K -> K -> bool).
Hypothesis Heq : eq_ok K eqk hash.
Notation occ k l := (occurrences T K key_of eqk k l).

Lemma occ_perm k l l' : Permutation l l' -> occ k l = occ k l'.
Proof.
  unfold occurrences. intros H. induction H; cbn; try congruence.
  - destruct (eqk k (key_of (fst x))); cbn; congruence.
  - destruct (eqk k (key_of (fst x))), (eqk k (key_of (fst y))); cbn; congruence.
Qed.
Lemma occ_cons k e l : occ k (e :: l) = ((if eqk k (key_of (fst e)) then 1 else 0) + occ k l)%nat.
Proof. unfold occurrences. cbn. destruct (eqk k (key_of (fst e))); reflexivity. Qed.
Lemma occ_none k k' l : eqk k k' = true -> ~ Exists (matches T K key_of eqk k') l -> occ k l = 0%nat.
Proof.
  destruct Heq as (Hr & Hs & Ht & _). intros E H. unfold occurrences. induction l as [|e l IH]; [reflexivity|]. cbn.
  destruct (eqk k (key_of (fst e))) eqn:E1.
  - exfalso. apply H. left. unfold matches. apply (Ht _ k); auto.
  - apply IH. intros X. apply H. right. assumption.
Qed.
Lemma eq_switch k a b : eqk a b = true -> eqk k a = eqk k b.
Proof.
  destruct Heq as (Hr & Hs & Ht & _). intros E. destruct (eqk k a) eqn:E1, (eqk k b) eqn:E2; auto.
  - rewrite (Ht _ _ _ E1 E) in E2. discriminate.
  - rewrite (Ht _ _ _ E2 (Hs _ _ E)) in E1. discriminate.
Qed.

Lemma mm_step_occ k l fr o l' fr' : mm_step T K key_of eqk l fr o l' fr' ->
  occ k l' = net T K key_of eqk k [o] (occ k l).
Proof.
  intros H. destruct o as [d a|d| |k' a]; cbn [mm_step net] in *.
  - destruct H as [P _]. rewrite (occ_perm _ _ _ P), occ_cons. cbn [fst]. destruct (eqk k (key_of d)); reflexivity.
  - destruct H as [(N & -> & _)|(e & M & P & _)].
    + destruct (eqk k (key_of d)) eqn:E; [|reflexivity]. rewrite (occ_none k _ l E N). reflexivity.
    + rewrite (occ_perm _ _ _ P), occ_cons. unfold matches in M. rewrite <- (eq_switch k _ _ M).
      destruct (eqk k (key_of d)); lia.
  - destruct H as [-> _]. reflexivity.
  - destruct H as [(N & -> & _)|(e & r & M & P & P' & _)]; [reflexivity|].
    rewrite (occ_perm _ _ _ P), (occ_perm _ _ _ P'), !occ_cons. reflexivity.
Qed.
Lemma mm_run_occ k ops : forall l fr l' fr', mm_run T K key_of eqk l fr ops l' fr' ->
  occ k l' = net T K key_of eqk k ops (occ k l).
Proof.
  induction ops as [|o ops IH]; intros l fr l' fr' H; inversion H as [|? ? ? ? ? ? ? ? H4 H8]; subst; [reflexivity|].
  rewrite (IH _ _ _ _ H8), (mm_step_occ k _ _ _ _ _ H4). destruct o; reflexivity.
Qed.
Lemma find_answer_occ k l x : find_answer T K key_of eqk k l x -> (x <> None <-> (0 < occ k l)%nat).
Proof.
  destruct Heq as (Hr & Hs & Ht & _). destruct x as [d|]; cbn [find_answer].
  - intros [E Hin]. split; [intros _|discriminate]. apply in_map_iff in Hin. destruct Hin as (e & <- & Hin).
    apply in_split in Hin. destruct Hin as (l1 & l2 & ->).
    rewrite (occ_perm k _ (e :: l1 ++ l2)) by (symmetry; apply Permutation_middle). rewrite occ_cons, E. lia.
  - intros H. rewrite (occ_none k k l (Hr k) H). split; [congruence|lia].
Qed.
Lemma mm_run_len ops : forall l fr l' fr', mm_run T K key_of eqk l fr ops l' fr' -> (length l' <= length l + adds ops)%nat.
Proof.
  induction ops as [|o ops IH]; intros l fr l' fr' H; inversion H as [|? ? ? ? ? ? ? ? H4 H8]; subst; [cbn; lia|].
  specialize (IH _ _ _ _ H8). destruct o as [d a|d| |k' a]; cbn [mm_step adds] in *.
  - destruct H4 as [P _]. apply Permutation_length in P. cbn in P. lia.
  - destruct H4 as [(_ & -> & _)|(e & M & P & _)]; [lia|]. apply Permutation_length in P. cbn in P. lia.
  - destruct H4 as [-> _]. cbn in IH. lia.
  - destruct H4 as [(_ & -> & _)|(e & r & M & P & P' & _)]; [lia|].
    apply Permutation_length in P. apply Permutation_length in P'. cbn in P, P'. lia.
Qed.
Lemma adds_app (a b : list (hash_op T K)) : adds (a ++ b) = (adds a + adds b)%nat.
Proof. induction a as [|o a IH]; [reflexivity|]. destruct o; cbn; lia. Qed.

Hypothesis hash32 : forall k, hash k < 2 ^ 32.
Theorem multimap fuel n s ops s' : sc_new T n = Ok s -> sc_run T K key_of hash eqk fuel s ops = Ok s' ->
  exists l, mm_run T K key_of eqk [] [] ops l (c_freed s') /\
  (forall fuel k x, sc_find T K key_of hash eqk fuel s' k = Ok x ->
     find_answer T K key_of eqk k l x /\ (x <> None <-> (0 < net T K key_of eqk k ops 0)%nat)) /\
  (forall fuel k b, sc_get_autofree T K key_of hash eqk fuel s' k = Ok b ->
     exists d, eqk k (key_of d) = true /\ In (d, b) l) /\
  sc_count T s' = N.of_nat (length l) /\ sc_slowcount T s' = length l /\
  (sc_isempty T s' = true <-> l = []) /\
  exists out, sc_walk T s' = Ok out /\ Permutation out (map fst l).
Proof.
  intros En Er. destruct (new_inv T K key_of hash n s En) as (I & C & F).
  destruct (run_ok T K key_of hash eqk hash32 Heq fuel ops s s' I Er) as (I' & M). rewrite C, F in M.
  exists (contents T s'). split; [exact M|]. split; [|split; [|split; [|split; [|split]]]].
  - intros fu k x Ef. pose proof (find_answer_ok T K key_of hash eqk hash32 Heq fu s' k x I' Ef) as A. split; [exact A|].
    rewrite (find_answer_occ _ _ _ A), (mm_run_occ k _ _ _ _ _ M). reflexivity.
  - intros fu k b Eb. exact (get_autofree_ok T K key_of hash eqk hash32 Heq fu s' k b I' Eb).
  - unfold sc_count. apply (i_num _ _ _ _ _ (proj1 I')).
  - exact (slowcount_ok T K key_of hash s' I').
  - unfold sc_isempty. rewrite (i_num _ _ _ _ _ (proj1 I')), N.eqb_eq. destruct (contents T s'); cbn; split; try congruence; lia.
  - eexists. split; [exact (walk_contents T K key_of hash s' I')|reflexivity].
Qed.

Theorem total fuel n ops : n < 2 ^ 15 -> 65522 <= N.of_nat fuel ->
  (forall pre d a post l fr, ops = pre ++ HAdd d a :: post -> mm_run T K key_of eqk [] [] pre l fr ->
     N.of_nat (length l) <= 26207) ->
  exists s s', sc_new T n = Ok s /\ sc_run T K key_of hash eqk fuel s ops = Ok s' /\
    forall k, exists x, sc_find T K key_of hash eqk fuel s' k = Ok x.
Proof.
  intros Hn Hf H. destruct (new_total T n 15) as (s & En & Hi); [exact Hn|lia|].
  destruct (new_inv T K key_of hash n s En) as (I & C & F).
  destruct (run_total T K key_of hash eqk hash32 Heq fuel ops Hf s I Hi) as (s' & Er & Hi').
  - intros pre d a post l fr E M. rewrite C, F in M. specialize (H pre d a post l fr E M). lia.
  - destruct (run_ok T K key_of hash eqk hash32 Heq fuel ops s s' I Er) as (I' & _).
    exists s, s'. split; [exact En|]. split; [exact Er|]. intros k.
    exact (find_total T K key_of hash eqk hash32 Heq fuel s' k I' Hi' Hf).
Qed.
Theorem total_adds fuel n ops : n < 2 ^ 15 -> 65522 <= N.of_nat fuel -> N.of_nat (adds ops) <= 26208 ->
  exists s s', sc_new T n = Ok s /\ sc_run T K key_of hash eqk fuel s ops = Ok s' /\
    forall k, exists x, sc_find T K key_of hash eqk fuel s' k = Ok x.
Proof.
  intros Hn Hf Ha. apply total; [assumption|assumption|]. intros pre d a post l fr -> M.
  apply mm_run_len in M. rewrite adds_app in Ha. cbn [adds length] in *. lia.
Qed.
End Mm.

(** ** A table whose probe sequence never ends *)
Section Hang.
Variables (T K : Type) (key_of : T -> K) (hash : K -> N) (eqk : K -> K -> bool).

Lemma curhash_period (s : scatter T) h a : curhash s h (2 ^ 25) a = curhash s h (2 ^ 25) (a mod 128).
Proof.
  unfold curhash, wrap32. f_equal. rewrite (N.div_mod a 128) at 1 by lia.
  replace (h + (128 * (a / 128) + a mod 128) * 2 ^ 25) with (h + a mod 128 * 2 ^ 25 + (a / 128) * 2 ^ 32) by (change (2 ^ 32) with (128 * 2 ^ 25); lia).
  rewrite N.mod_add by discriminate. reflexivity.
Qed.
Lemma all_busy (s : scatter T) h : forallb (fun a => is_occupied (c_status s (curhash s h (2 ^ 25) a))) (indices 128) = true ->
  forall a, is_occupied (c_status s (curhash s h (2 ^ 25) a)) = true.
Proof.
  intros H a. rewrite curhash_period. rewrite forallb_forall in H. apply H. apply in_indices. apply N.mod_upper_bound. discriminate.
Qed.
Lemma place_never (s : scatter T) h : (forall a, is_occupied (c_status s (curhash s h (2 ^ 25) a)) = true) ->
  forall fuel a, place_loop T fuel s h (2 ^ 25) a (curhash s h (2 ^ 25) a) = NoFuel.
Proof. intros H. induction fuel as [|fuel IH]; intros a; [reflexivity|]. cbn [place_loop]. rewrite H. apply IH. Qed.

Lemma add_never (s : scatter T) d auto : hash (key_of d) < 2 ^ 32 -> second_hash s (hash (key_of d)) = 2 ^ 25 ->
  100 * (c_used s + 1) < 45 * c_numslots s ->
  (forall a, is_occupied (c_status s (curhash s (hash (key_of d)) (2 ^ 25) a)) = true) ->
  forall fuel, sc_add T K key_of hash fuel s d auto = NoFuel.
Proof.
  intros Hh H2 HL H fuel. rewrite add_norebuild by assumption. destruct fuel as [|f]; [reflexivity|].
  unfold place. rewrite H2.
  assert (E : hash (key_of d) mod c_numslots s = curhash s (hash (key_of d)) (2 ^ 25) 0).
  { unfold curhash, wrap32. rewrite N.mul_0_l, N.add_0_r, (N.mod_small (hash (key_of d)) (2 ^ 32)) by assumption. reflexivity. }
  rewrite E, H, place_never by assumption. reflexivity.
Qed.
End Hang.
