(** Proofs about the chained hash table. *)
From Verif Require Import Base BaseFacts HashModel HashSpec.
From Coq Require Import NArith Permutation ZifyN ZifyNat ZifyBool.

Section Hash.
Variables (T K : Type) (key_of : T -> K) (hash : K -> N) (eqk : K -> K -> bool).
Notation at_key := (at_key T K key_of eqk).
Notation oldest := (oldest T K key_of eqk).
Notation prevlink := (prevlink T K key_of eqk).
Notation kq := (fun (k : K) (e : T * bool) => eqk k (key_of (fst e))).

Lemma prevlink_at k s a b : prevlink s k = (a, b) ->
  match b with
  | [] => oldest k s = None /\ forall f, at_key k f s = s
  | e :: r => oldest k s = Some e /\ forall f, at_key k f s = a ++ f e ++ r
  end.
Proof.
  revert a b; induction s as [|e s IH]; intros a b H; cbn in H.
  - injection H as <- <-. cbn. auto.
  - unfold HashSpec.oldest. cbn [HashSpec.at_key find]. destruct (eqk k (key_of (fst e))).
    + injection H as <- <-. split; [reflexivity|]. intros f. reflexivity.
    + destruct (prevlink s k) as [a' b'] eqn:E. injection H as <- <-. specialize (IH _ _ eq_refl).
      destruct b' as [|x r]; destruct IH as [H1 H2]; (split; [exact H1|]); intros f; rewrite H2; reflexivity.
Qed.

Lemma filter_at k f (P : T * bool -> bool) l :
  (forall e, eqk k (key_of (fst e)) = true -> P e = true /\ filter P (f e) = f e) ->
  filter P (at_key k f l) = at_key k f (filter P l).
Proof.
  intros H. induction l as [|e l IH]; [reflexivity|]. cbn [HashSpec.at_key filter].
  destruct (eqk k (key_of (fst e))) eqn:E.
  - destruct (H e E) as [H1 H2]. rewrite filter_app, H1, H2. cbn [HashSpec.at_key]. rewrite E. reflexivity.
  - cbn [filter]. destruct (P e); [|exact IH]. cbn [HashSpec.at_key]. rewrite E, IH. reflexivity.
Qed.

Lemma filter_at_other k f (P : T * bool -> bool) l :
  (forall e, eqk k (key_of (fst e)) = true -> P e = false /\ filter P (f e) = []) ->
  filter P (at_key k f l) = filter P l.
Proof.
  intros H. induction l as [|e l IH]; [reflexivity|]. cbn [HashSpec.at_key filter].
  destruct (eqk k (key_of (fst e))) eqn:E.
  - destruct (H e E) as [H1 H2]. rewrite filter_app, H1, H2. reflexivity.
  - cbn [filter]. destruct (P e); rewrite IH; reflexivity.
Qed.

Lemma oldest_filter k (P : T * bool -> bool) l :
  (forall e, eqk k (key_of (fst e)) = true -> P e = true) -> oldest k (filter P l) = oldest k l.
Proof.
  intros H. unfold HashSpec.oldest. induction l as [|e l IH]; [reflexivity|]. cbn [filter find].
  destruct (eqk k (key_of (fst e))) eqn:E.
  - rewrite (H e E). cbn [find]. rewrite E. reflexivity.
  - destruct (P e); cbn [find]; [rewrite E|]; exact IH.
Qed.

Definition slotno (n : nat) (k : K) : nat := N.to_nat (hash k mod N.of_nat n).
Definition insl (n i : nat) (e : T * bool) : bool := slotno n (key_of (fst e)) =? i.
Definition slots_for (n : nat) (l : list (T * bool)) : list (list (T * bool)) :=
  map (fun i => filter (insl n i) l) (seq 0 n).

Lemma slotno_lt n k : n <> 0 -> slotno n k < n.
Proof. intros H. unfold slotno. pose proof (N.mod_upper_bound (hash k) (N.of_nat n)). lia. Qed.

Lemma seq_split n i : i < n -> seq 0 n = seq 0 i ++ i :: seq (S i) (n - S i).
Proof. intros H. replace n with (i + S (n - S i)) at 1 by lia. rewrite seq_app. reflexivity. Qed.

Lemma replace_slot {A} (g g' : nat -> A) n i : i < n -> (forall j, j <> i -> g' j = g j) ->
  firstn i (map g (seq 0 n)) ++ g' i :: skipn (S i) (map g (seq 0 n)) = map g' (seq 0 n).
Proof.
  intros Hi H. rewrite (seq_split n i Hi), !map_app. cbn [map].
  assert (L : length (map g (seq 0 i)) = i) by (rewrite map_length, seq_length; reflexivity).
  rewrite (firstn_app_len (map g (seq 0 i)) _ i (eq_sym L)).
  rewrite (skipn_app_len (map g (seq 0 i)) _ (S i) 1) by lia. cbn [skipn].
  f_equal; [|f_equal]; apply map_ext_in; intros j Hj; apply in_seq in Hj; symmetry; apply H; lia.
Qed.

Lemma nth_map_seq {A} (g : nat -> A) n i : i < n -> nth_error (map g (seq 0 n)) i = Some (g i).
Proof.
  intros Hi. rewrite (seq_split n i Hi), map_app. cbn [map].
  rewrite nth_error_app2; rewrite map_length, seq_length; [|lia]. rewrite Nat.sub_diag. reflexivity.
Qed.

Record rep (n : nat) (t : table T) (l : list (T * bool)) (freed : list T) : Prop := Rep
  { r_pos : n <> 0; r_slots : t_slots t = slots_for n l; r_freed : Permutation (t_freed t) freed }.

Lemma rep_num n t l fr : rep n t l fr -> numslots T t = n.
Proof. intros [H E _]. unfold numslots. rewrite E. unfold slots_for. rewrite map_length, seq_length. reflexivity. Qed.

Lemma rep_slot n t l fr k : rep n t l fr ->
  slot_of T K hash t k = Ok (slotno n k) /\ slotno n k < n /\
  get_slot T t (slotno n k) = Ok (filter (insl n (slotno n k)) l).
Proof.
  intros R. pose proof (rep_num _ _ _ _ R) as En. destruct R as [H E _]. unfold slot_of. rewrite En.
  destruct (Nat.eqb_spec n 0); [contradiction|]. split; [reflexivity|].
  pose proof (slotno_lt n k H). split; [assumption|]. unfold get_slot. rewrite E. unfold slots_for.
  rewrite nth_map_seq by assumption. reflexivity.
Qed.

Lemma put_slot_ok n t l fr l' i freed fr' : rep n t l fr -> i < n ->
  (forall j, j <> i -> filter (insl n j) l' = filter (insl n j) l) ->
  Permutation (t_freed t ++ freed) fr' ->
  rep n (put_slot T t i (filter (insl n i) l') freed) l' fr'.
Proof.
  intros [H E F] Hi Hj Hf. constructor; [assumption| |exact Hf].
  unfold put_slot. cbn [t_slots]. rewrite E. unfold slots_for.
  exact (replace_slot (fun j => filter (insl n j) l) (fun j => filter (insl n j) l') n i Hi Hj).
Qed.

Hypothesis Heq : eq_ok K eqk hash.
Lemma same_slot n k k' : eqk k k' = true -> slotno n k' = slotno n k.
Proof. intros E. destruct Heq as (_ & _ & _ & H). unfold slotno. rewrite (H _ _ E). reflexivity. Qed.

Lemma concat_rev_perm {A} (ss : list (list A)) : Permutation (concat (rev ss)) (concat ss).
Proof.
  induction ss as [|s ss IH]; [reflexivity|]. cbn [rev concat]. rewrite concat_app. cbn [concat].
  rewrite app_nil_r, IH. apply Permutation_app_comm.
Qed.

Lemma slots_perm n l : n <> 0 -> Permutation (concat (slots_for n l)) l.
Proof.
  intros Hn. induction l as [|e l IH].
  - unfold slots_for. induction (seq 0 n) as [|i is IH']; [reflexivity|]. cbn. exact IH'.
  - set (i := slotno n (key_of (fst e))). assert (Hi : i < n) by (apply slotno_lt; assumption).
    unfold slots_for in *. rewrite (seq_split n i Hi) in *. rewrite map_app in *. cbn [map] in *.
    rewrite concat_app in *. cbn [concat] in *.
    assert (Ei : filter (insl n i) (e :: l) = e :: filter (insl n i) l).
    { cbn [filter]. unfold insl at 1. fold i. rewrite Nat.eqb_refl. reflexivity. }
    assert (Eo : forall js, (forall j, In j js -> j <> i) ->
      map (fun j => filter (insl n j) (e :: l)) js = map (fun j => filter (insl n j) l) js).
    { intros js H. apply map_ext_in. intros j Hj. cbn [filter]. unfold insl at 1. fold i.
      destruct (Nat.eqb_spec i j); [exfalso; apply (H j Hj); auto|reflexivity]. }
    rewrite Ei. rewrite !Eo by (intros j Hj; apply in_seq in Hj; lia).
    cbn [app]. rewrite <- Permutation_middle. apply perm_skip. exact IH.
Qed.

Lemma frees_perm (a b : list (T * bool)) : Permutation a b -> Permutation (frees T a) (frees T b).
Proof.
  unfold frees. intros H. apply Permutation_map. 
  induction H; cbn; try (destruct (snd x)); try (destruct (snd y)); auto using perm_swap.
  - eapply perm_trans; eassumption.
Qed.

Lemma exec_ok n t l fr o : rep n t l fr ->
  exists t', hash_exec T K key_of hash eqk t o = Ok t' /\
    rep n t' (fst (bag_step T K key_of eqk (l, fr) o)) (snd (bag_step T K key_of eqk (l, fr) o)).
Proof.
  intros R. destruct o as [d a|d| |k a]; cbn [hash_exec bag_step fst snd].
  - unfold hash_add. destruct (rep_slot n t l fr (key_of d) R) as (E1 & Hi & E2). rewrite E1. cbn [bind]. rewrite E2. cbn [bind].
    eexists. split; [reflexivity|].
    assert (Es : filter (insl n (slotno n (key_of d))) l ++ [(d, a)] = filter (insl n (slotno n (key_of d))) (l ++ [(d, a)])).
    { rewrite filter_app. cbn [filter]. unfold insl at 3. cbn [fst]. rewrite Nat.eqb_refl. reflexivity. }
    rewrite Es. eapply put_slot_ok; [exact R|exact Hi| |].
    + intros j Hj. rewrite filter_app. cbn [filter]. unfold insl at 2. cbn [fst].
      destruct (Nat.eqb_spec (slotno n (key_of d)) j); [congruence|]. apply app_nil_r.
    + rewrite app_nil_r. exact (r_freed _ _ _ _ R).
  - unfold hash_remove. set (k := key_of d). destruct (rep_slot n t l fr k R) as (E1 & Hi & E2). rewrite E1. cbn [bind]. rewrite E2. cbn [bind].
    destruct (prevlink (filter (insl n (slotno n k)) l) k) as [a b] eqn:Ep. pose proof (prevlink_at _ _ _ _ Ep) as Hp.
    assert (Hin : forall e, eqk k (key_of (fst e)) = true -> insl n (slotno n k) e = true).
    { intros e E. unfold insl. rewrite (same_slot n k _ E). apply Nat.eqb_refl. }
    assert (Hout : forall j, j <> slotno n k -> forall e, eqk k (key_of (fst e)) = true -> insl n j e = false).
    { intros j Hj e E. unfold insl. rewrite (same_slot n k _ E). apply Nat.eqb_neq. auto. }
    rewrite <- (oldest_filter k (insl n (slotno n k)) l Hin).
    assert (Hat : filter (insl n (slotno n k)) (at_key k (fun _ => []) l) = at_key k (fun _ => []) (filter (insl n (slotno n k)) l)).
    { apply filter_at. intros e E. split; [apply Hin; assumption|reflexivity]. }
    assert (Hot : forall j, j <> slotno n k -> filter (insl n j) (at_key k (fun _ => []) l) = filter (insl n j) l).
    { intros j Hj. apply filter_at_other. intros e E. split; [apply Hout; assumption|reflexivity]. }
    destruct b as [|e b]; destruct Hp as [Ho Ha]; rewrite Ho.
    + exists t. split; [reflexivity|]. destruct R as [Hn Es F]. constructor; [assumption| |].
      * rewrite Es. unfold slots_for. apply map_ext_in. intros j Hj.
        destruct (Nat.eq_dec j (slotno n k)) as [->|Hjk]; [rewrite Hat, Ha; reflexivity|rewrite Hot by assumption; reflexivity].
      * cbn. rewrite app_nil_r. exact F.
    + eexists. split; [reflexivity|]. rewrite Ha in Hat. cbn [app] in Hat. rewrite <- Hat.
      eapply put_slot_ok; [exact R|exact Hi|exact Hot|].
      apply Permutation_app; [exact (r_freed _ _ _ _ R)|]. unfold frees. cbn [filter map]. destruct (snd e); reflexivity.
  - eexists. split; [reflexivity|]. pose proof (rep_num _ _ _ _ R) as En. destruct R as [Hn Es F].
    constructor; [assumption| |]; cbn [hash_zap t_slots t_freed].
    + rewrite En. unfold slots_for. cbn [filter]. clear. generalize 0. induction n as [|n IH]; intros s; [reflexivity|]. cbn. f_equal. apply IH.
    + apply Permutation_app; [exact F|]. apply (frees_perm (concat (rev (t_slots t))) l).
      rewrite concat_rev_perm, Es. apply slots_perm. assumption.
  - unfold hash_set_autofree. destruct (rep_slot n t l fr k R) as (E1 & Hi & E2). rewrite E1. cbn [bind]. rewrite E2. cbn [bind].
    destruct (prevlink (filter (insl n (slotno n k)) l) k) as [x b] eqn:Ep. pose proof (prevlink_at _ _ _ _ Ep) as Hp.
    set (f := fun e : T * bool => [(fst e, a)]).
    assert (Hin : forall e, eqk k (key_of (fst e)) = true -> insl n (slotno n k) e = true).
    { intros e E. unfold insl. rewrite (same_slot n k _ E). apply Nat.eqb_refl. }
    assert (Hout : forall j, j <> slotno n k -> forall e, eqk k (key_of (fst e)) = true -> insl n j e = false).
    { intros j Hj e E. unfold insl. rewrite (same_slot n k _ E). apply Nat.eqb_neq. auto. }
    assert (Hat : filter (insl n (slotno n k)) (at_key k f l) = at_key k f (filter (insl n (slotno n k)) l)).
    { apply filter_at. intros e E. split; [apply Hin; assumption|]. unfold f. cbn [filter].
      specialize (Hin (fst e, a) E). rewrite Hin. reflexivity. }
    assert (Hot : forall j, j <> slotno n k -> filter (insl n j) (at_key k f l) = filter (insl n j) l).
    { intros j Hj. apply filter_at_other. intros e E. split; [apply Hout; assumption|]. unfold f. cbn [filter].
      specialize (Hout j Hj (fst e, a) E). rewrite Hout. reflexivity. }
    destruct b as [|e b]; destruct Hp as [Ho Ha].
    + exists t. split; [reflexivity|]. destruct R as [Hn Es F]. constructor; [assumption| |assumption].
      rewrite Es. unfold slots_for. apply map_ext_in. intros j Hj.
      destruct (Nat.eq_dec j (slotno n k)) as [->|Hjk]; [rewrite Hat, Ha; reflexivity|rewrite Hot by assumption; reflexivity].
    + eexists. split; [reflexivity|]. rewrite Ha in Hat. cbn [app] in Hat. unfold f at 2 in Hat. cbn [app] in Hat.
      rewrite <- Hat. eapply put_slot_ok; [exact R|exact Hi|exact Hot|].
      rewrite app_nil_r. exact (r_freed _ _ _ _ R).
Qed.

Lemma run_ok n ops : forall t l fr, rep n t l fr ->
  exists t', hash_run T K key_of hash eqk t ops = Ok t' /\
    rep n t' (fst (fold_left (bag_step T K key_of eqk) ops (l, fr)))
      (snd (fold_left (bag_step T K key_of eqk) ops (l, fr))).
Proof.
  induction ops as [|o ops IH]; intros t l fr R; cbn [hash_run fold_left]; [eauto|].
  destruct (exec_ok n t l fr o R) as (t1 & E & R1). rewrite E. cbn [bind].
  destruct (bag_step T K key_of eqk (l, fr) o) as [l1 fr1]. exact (IH _ _ _ R1).
Qed.

(** Observers *)
Lemma find_ok n t l fr k : rep n t l fr ->
  hash_find T K key_of hash eqk t k = Ok (option_map fst (oldest k l)).
Proof.
  intros R. unfold hash_find. destruct (rep_slot n t l fr k R) as (E1 & Hi & E2). rewrite E1. cbn [bind]. rewrite E2. cbn [bind].
  rewrite <- (oldest_filter k (insl n (slotno n k)) l).
  - destruct (prevlink (filter (insl n (slotno n k)) l) k) as [a b] eqn:Ep. pose proof (prevlink_at _ _ _ _ Ep) as Hp.
    cbn [snd]. destruct b; destruct Hp as [Ho _]; rewrite Ho; reflexivity.
  - intros e E. unfold insl. rewrite (same_slot n k _ E). apply Nat.eqb_refl.
Qed.

Lemma count_concat (ss : list (list (T * bool))) : forall n, fold_left (fun n s => n + length s) ss n = n + length (concat ss).
Proof.
  induction ss as [|s ss IH]; intros n; cbn [fold_left concat length]; [lia|]. rewrite IH, app_length. lia.
Qed.

Lemma scan_ok t : forall fuel cur, cur < numslots T t -> numslots T t - cur <= fuel ->
  exists i s, scan T fuel t cur = Ok (i, s) /\ i < numslots T t /\
    concat (skipn (S cur) (t_slots t)) = s ++ concat (skipn (S i) (t_slots t)) /\
    (s = [] -> concat (skipn (S cur) (t_slots t)) = []).
Proof.
  induction fuel as [|fuel IH]; intros cur Hc Hf; [lia|]. cbn [scan].
  destruct (Nat.ltb_spec cur (numslots T t - 1)) as [Hl|Hl].
  - assert (Hs : S cur < length (t_slots t)) by (unfold numslots in *; lia).
    destruct (nth_error (t_slots t) (S cur)) as [s|] eqn:En; [|apply nth_error_None in En; lia].
    assert (Esk : skipn (S cur) (t_slots t) = s :: skipn (S (S cur)) (t_slots t)).
    { clear -En. revert En. generalize (t_slots t). generalize (S cur). induction n as [|n IH]; intros l E; (destruct l as [|x l]; [discriminate|]).
      - cbn in E. injection E as ->. reflexivity.
      - cbn [nth_error skipn] in *. apply IH. assumption. }
    unfold get_slot. rewrite En. cbn [of_opt bind]. destruct s as [|e s].
    + destruct (IH (S cur)) as (i & s' & E & Hi & Ec & En'); [unfold numslots in *; lia|lia|].
      exists i, s'. rewrite Esk. cbn [concat app]. auto.
    + exists (S cur), (e :: s). rewrite Esk. split; [reflexivity|]. split; [exact Hs|]. split; [reflexivity|discriminate].
  - exists cur, []. split; [reflexivity|]. split; [assumption|]. split; [reflexivity|].
    intros _. rewrite skipn_all2; [reflexivity|]. unfold numslots in *. lia.
Qed.

Lemma walk_ok t : forall fuel i rest, i < numslots T t ->
  length (rest ++ concat (skipn (S i) (t_slots t))) < fuel ->
  walk_loop T fuel t i rest = Ok (map fst (rest ++ concat (skipn (S i) (t_slots t)))).
Proof.
  induction fuel as [|fuel IH]; intros i rest Hi Hf; [lia|]. cbn [walk_loop].
  destruct rest as [|e rest]; cbn [iter_next].
  - destruct (scan_ok t (S (numslots T t)) i Hi ltac:(lia)) as (j & s & E & Hj & Ec & En). rewrite E. cbn [bind].
    cbn [app] in Hf |- *. destruct s as [|e s].
    + rewrite En by reflexivity. reflexivity.
    + cbn [bind]. rewrite Ec in Hf |- *. rewrite IH; [reflexivity|assumption|].
      cbn [app length] in Hf |- *. lia.
  - cbn [bind]. rewrite IH; [reflexivity|assumption|]. cbn [app length] in Hf |- *. lia.
Qed.

Lemma walk_perm n t l fr : rep n t l fr ->
  exists out, hash_walk T t = Ok out /\ Permutation out (map fst l).
Proof.
  intros R. pose proof (rep_num _ _ _ _ R) as En. destruct R as [Hn Es F]. unfold hash_walk, get_slot.
  assert (H0 : exists s ss, t_slots t = s :: ss).
  { destruct (t_slots t) as [|s ss] eqn:E; [unfold numslots in En; rewrite E in En; cbn in En; lia|eauto]. }
  destruct H0 as (s & ss & E0). rewrite E0. cbn [nth_error of_opt bind].
  rewrite walk_ok.
  - eexists. split; [reflexivity|]. apply Permutation_map. rewrite E0. cbn [skipn].
    change (s ++ concat ss) with (concat (s :: ss)). rewrite <- E0, Es. apply slots_perm. assumption.
  - lia.
  - unfold hash_count. rewrite count_concat, E0. cbn [skipn concat]. lia.
Qed.

Lemma count_len n t l fr : rep n t l fr -> hash_count T t = length l.
Proof.
  intros [Hn Es F]. unfold hash_count. rewrite count_concat, Es. cbn. apply Permutation_length. apply slots_perm. assumption.
Qed.

Lemma isempty_ok n t l fr : rep n t l fr -> hash_isempty T t = match l with [] => true | _ => false end.
Proof.
  intros R. pose proof (count_len _ _ _ _ R) as C. unfold hash_count in C. rewrite count_concat in C. cbn in C.
  unfold hash_isempty.
  assert (H : forall ss : list (list (T * bool)), forallb (fun s => match s with [] => true | _ => false end) ss =
    match concat ss with [] => true | _ => false end).
  { induction ss as [|s ss IH]; [reflexivity|]. cbn. rewrite IH. destruct s; reflexivity. }
  rewrite H. destruct (concat (t_slots t)), l; try discriminate; reflexivity.
Qed.

(** The number of slots *)
Lemma slides_ok : forall fuel n s, (n < 2 ^ N.of_nat fuel)%N -> 0 < fuel ->
  exists s', slides_loop fuel n s = Ok s' /\ s <= s' /\ (forall b, s <= b -> (n < 2 ^ N.of_nat (b - s + 1))%N -> s' <= b).
Proof.
  induction fuel as [|fuel IH]; intros n s Hn Hf; [lia|]. cbn [slides_loop].
  destruct (N.eqb_spec (N.shiftr n 1) 0) as [E|E].
  - exists s. split; [reflexivity|]. split; [lia|]. intros; lia.
  - rewrite N.shiftr_div_pow2 in *. change (2 ^ 1)%N with 2%N in *.
    assert (Hd : (n / 2 < 2 ^ N.of_nat fuel)%N).
    { apply N.div_lt_upper_bound; [lia|]. rewrite Nat2N.inj_succ, N.pow_succ_r' in Hn. lia. }
    destruct fuel as [|fuel]; [cbn in Hd; assert (n / 2 = 0)%N by lia; contradiction|].
    destruct (IH (n / 2)%N (S s) Hd ltac:(lia)) as (s' & E' & Hs & Hb). exists s'. split; [exact E'|]. split; [lia|].
    intros b Hsb Hnb. destruct (Nat.eq_dec b s) as [->|Hne].
    + exfalso. apply E. replace (s - s + 1) with 1 in Hnb by lia. cbn in Hnb. apply N.div_small. lia.
    + apply Hb; [lia|]. apply N.div_lt_upper_bound; [lia|].
      replace (b - s + 1) with (S (b - S s + 1)) in Hnb by lia. rewrite Nat2N.inj_succ, N.pow_succ_r' in Hnb. lia.
Qed.

Lemma new_ok n : (n < 2 ^ 30)%N -> exists k t, hash_new T n = Ok t /\ rep k t [] [].
Proof.
  intros Hn. unfold hash_new, numslots_of.
  destruct (slides_ok 33 n 1) as (s & E & Hs & Hb); [cbn; lia|lia|]. rewrite E. cbn [bind].
  assert (s <= 30) by (apply Hb; [lia|]; cbn; lia).
  destruct (Nat.leb_spec 31 s); [lia|]. cbn [bind].
  exists (2 ^ s - 1). eexists. split; [reflexivity|].
  constructor; cbn [t_slots t_freed].
  - pose proof (Nat.pow_le_mono_r 2 1 s ltac:(lia) Hs) as Hp. cbn in Hp. lia.
  - unfold slots_for. cbn [filter]. generalize (2 ^ s - 1). intros m. generalize 0.
    induction m as [|m IH]; intros z; [reflexivity|]. cbn. f_equal. apply IH.
  - reflexivity.
Qed.

Theorem hash_ok n ops : (n < 2 ^ 30)%N -> exists t t' l freed,
  hash_new T n = Ok t /\ hash_run T K key_of hash eqk t ops = Ok t' /\
  fold_left (bag_step T K key_of eqk) ops ([], []) = (l, freed) /\
  (forall k, hash_find T K key_of hash eqk t' k = Ok (option_map fst (oldest k l))) /\
  hash_count T t' = length l /\
  hash_isempty T t' = match l with [] => true | _ => false end /\
  (exists out, hash_walk T t' = Ok out /\ Permutation out (map fst l)) /\
  Permutation (t_freed t') freed.
Proof.
  intros Hn. destruct (new_ok n Hn) as (m & t & E & R). destruct (run_ok m ops t [] [] R) as (t' & E' & R').
  destruct (fold_left (bag_step T K key_of eqk) ops ([], [])) as [l fr] eqn:Ef.
  cbn [fst snd] in R'.
  exists t, t', l, fr. split; [exact E|]. split; [exact E'|]. split; [reflexivity|].
  split; [intros k; eapply find_ok; exact R'|]. split; [eapply count_len; exact R'|].
  split; [eapply isempty_ok; exact R'|]. split; [eapply walk_perm; exact R'|exact (r_freed _ _ _ _ R')].
Qed.

(** Found iff added more often than removed. *)
Lemma occ_app k (a b : list (T * bool)) : occurrences T K key_of eqk k (a ++ b) = occurrences T K key_of eqk k a + occurrences T K key_of eqk k b.
Proof. unfold occurrences. rewrite filter_app, app_length. reflexivity. Qed.

Lemma occ_remove k k' (l : list (T * bool)) : 
  occurrences T K key_of eqk k (at_key k' (fun _ => []) l) =
  occurrences T K key_of eqk k l - (if eqk k k' then 1 else 0).
Proof.
  destruct Heq as (Hr & Hs & Ht & _). induction l as [|e l IH]; [destruct (eqk k k'); reflexivity|].
  unfold occurrences in *. cbn [HashSpec.at_key filter app]. destruct (eqk k' (key_of (fst e))) eqn:E.
  - destruct (eqk k k') eqn:E1.
    + rewrite (Ht _ _ _ E1 E). cbn. lia.
    + assert (E2 : eqk k (key_of (fst e)) = false).
      { destruct (eqk k (key_of (fst e))) eqn:E2; [|reflexivity]. rewrite (Ht _ _ _ E2 (Hs _ _ E)) in E1. discriminate. }
      rewrite E2. lia.
  - cbn [filter]. destruct (eqk k (key_of (fst e))) eqn:E2; [|exact IH]. cbn [length]. rewrite IH.
    destruct (eqk k k') eqn:E1; [|lia].
    rewrite (Ht _ _ _ (Hs _ _ E1) E2) in E. discriminate.
Qed.

Lemma oldest_occ k l : oldest k l <> None <-> 0 < occurrences T K key_of eqk k l.
Proof.
  unfold HashSpec.oldest, occurrences. induction l as [|e l IH]; cbn; [split; [congruence|lia]|].
  destruct (eqk k (key_of (fst e))); cbn; [split; [lia|congruence]|exact IH].
Qed.

Lemma occ_net k : forall ops l fr,
  occurrences T K key_of eqk k (fst (fold_left (bag_step T K key_of eqk) ops (l, fr))) =
  net T K key_of eqk k ops (occurrences T K key_of eqk k l).
Proof.
  destruct Heq as (Hr & Hs & Ht & _).
  induction ops as [|o ops IH]; intros l fr; [reflexivity|]. cbn [fold_left net].
  destruct o as [d a|d| |k' a]; cbn [bag_step]; rewrite IH; f_equal.
  - rewrite occ_app. unfold occurrences at 2. cbn [filter fst]. destruct (eqk k (key_of d)); cbn [length]; lia.
  - rewrite occ_remove. destruct (eqk k (key_of d)); lia.
  - clear IH. unfold occurrences. induction l as [|e l IHl]; [reflexivity|]. cbn [HashSpec.at_key].
    destruct (eqk k' (key_of (fst e))).
    + cbn [app filter fst]. destruct (eqk k (key_of (fst e))); reflexivity.
    + cbn [filter]. destruct (eqk k (key_of (fst e))); cbn [length]; rewrite IHl; reflexivity.
Qed.

Theorem hash_found n ops k : (n < 2 ^ 30)%N ->
  exists t t' x, hash_new T n = Ok t /\ hash_run T K key_of hash eqk t ops = Ok t' /\
    hash_find T K key_of hash eqk t' k = Ok x /\ (x <> None <-> 0 < net T K key_of eqk k ops 0).
Proof.
  intros Hn. destruct (hash_ok n ops Hn) as (t & t' & l & fr & E & E' & Ef & F & _).
  exists t, t'. eexists. split; [exact E|]. split; [exact E'|]. split; [apply F|].
  pose proof (occ_net k ops [] []) as N. rewrite Ef in N. cbn [fst] in N.
  change (occurrences T K key_of eqk k []) with 0 in N. rewrite <- N, <- oldest_occ.
  destruct (oldest k l); cbn; split; congruence.
Qed.
End Hash.
