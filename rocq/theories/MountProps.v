(** C32: generators mounted into one tree. *)
From Coq Require Import Permutation.
From Verif Require Import Base Ctype KeyModel KeySpec KeyProofs TempModel TempSpec TreeProofs TempProofs MountModel MountSpec MountProofs.
Local Open Scope nat_scope.

(** get: the most recent mount at or above the key answers, for the rest of the
    key; without one, a key above some mount point is empty and any other missing. *)
Theorem C32_get {S} (gget : S -> list bytes -> option bytes) st k : good_mounts (mounts st) -> good_key k ->
  (forall m rest, owner (mounts st) k m rest -> mget gget st k = gget (heap st (mid m)) rest) /\
  (no_owner (mounts st) k -> (exists m, In m (mounts st) /\ beneath k (mkey m) = true) -> mget gget st k = Some []) /\
  (no_owner (mounts st) k -> ~ (exists m, In m (mounts st) /\ beneath k (mkey m) = true) -> mget gget st k = None).
Proof.
  intros G K. destruct (get_ok gget st k G K) as [A C]. split; [exact A|]. split; intros N H; rewrite (C N).
  - destruct H as (m & Hm & E). replace (existsb _ _) with true; [reflexivity|]. symmetry. apply existsb_exists. eauto.
  - destruct (existsb _ _) eqn:E; [|reflexivity]. elim H. apply existsb_exists in E. exact E.
Qed.
(** One of the two cases always applies, and the owner is unique. *)
Theorem C32_owner ms k : good_mounts ms -> good_key k ->
  (no_owner ms k \/ exists m rest, owner ms k m rest) /\
  (forall m rest m' rest', owner ms k m rest -> owner ms k m' rest' -> m = m' /\ rest = rest') /\
  (forall m rest, owner ms k m rest -> ~ no_owner ms k).
Proof.
  intros G K. split; [|split].
  - pose proof (find_owner ms k G K) as F. destruct (findmount ms k) as [m|]; [right; exists m; eexists; apply F|left; exact F].
  - intros m r m' r' O O'. destruct (owner_find _ _ _ _ G K O) as [E1 E2], (owner_find _ _ _ _ G K O') as [E1' E2']. split; [congruence|]. assert (m = m') by congruence. subst m'. congruence.
  - intros m r O N. exact (owner_not_none _ _ _ _ O N).
Qed.
(** set: the owner is set, for the rest of the key, and no other generator is
    touched; without an owner nothing is. *)
Theorem C32_set {S} (gset : S -> list bytes -> option bytes -> S) st k v : good_mounts (mounts st) -> good_key k ->
  mounts (mset gset st k v) = mounts st /\
  (forall m rest, owner (mounts st) k m rest ->
     heap (mset gset st k v) (mid m) = gset (heap st (mid m)) rest v /\
     forall id, id <> mid m -> heap (mset gset st k v) id = heap st id) /\
  (no_owner (mounts st) k -> mset gset st k v = st).
Proof.
  intros G K. destruct (set_ok gset st k v G K) as [A C]. split; [|split; [|exact C]].
  - unfold mset. destruct (findmount (mounts st) k); reflexivity.
  - intros m r O. rewrite (A m r O). cbn [with_heap heap]. split; [apply upd_same|]. intros id. apply upd_other.
Qed.
(** setv: there is a way through it, and in every order of the internal table each
    generator ends as after setting the pairs one by one. *)
Theorem C32_setv {S} (gset : S -> list bytes -> option bytes -> S) st ps : good_mounts (mounts st) -> NoDup (map mid (mounts st)) ->
  Forall (fun p => good_key (fst p)) ps ->
  (exists st', msetv gset st ps st') /\
  forall st', msetv gset st ps st' -> mounts st' = mounts st /\
    forall id, heap st' id = heap (fold_left (fun st p => mset gset st (fst p) (snd p)) ps st) id.
Proof.
  intros G N K. pose proof (sort_pairs_ok (mounts st) G N ps (map (fun m => (m, [])) (mounts st)) K) as E.
  assert (Em : map fst (map (fun m : mount => (m, [] : pairs)) (mounts st)) = mounts st) by (rewrite map_map; apply map_id). specialize (E Em). split.
  - eexists. econstructor; [exact E|apply Permutation_refl].
  - intros st' H. destruct H as [d d' H P]. split; [reflexivity|]. intros id. cbn [with_heap heap]. assert (Ed : d = map (fun e => (fst e, snd e ++ owned (mounts st) (fst e) ps)) (map (fun m => (m, [])) (mounts st))) by congruence.
    assert (Nd : NoDup (map (fun e : mount * pairs => mid (fst e)) d)) by (rewrite Ed, !map_map; cbn [fst]; exact N).
    rewrite setv_all by (eapply Permutation_NoDup; [apply Permutation_map, P|exact Nd]). rewrite <- (find_perm d d' id P Nd).
    destruct (sets_one_by_one gset ps st id G N K) as [_ ->]. rewrite Ed, map_map. cbn [fst snd app]. clear.
    generalize (owned (mounts st)). intros ow. induction (mounts st) as [|m ms IH]; cbn [map List.find fst]; [reflexivity|]. destruct (mid m =? id); [reflexivity|exact IH].
Qed.
(** exists: the key has a value, or a mount shows below it; haschildren: the owner
    has children there, or a mount shows below it. *)
Theorem C32_exists {S} (gget : S -> list bytes -> option bytes) ghaschildren st k : good_mounts (mounts st) -> NoDup (map mid (mounts st)) -> good_key k ->
  (mexists gget st k = true <-> mget gget st k <> None \/ visible (mounts st) k) /\
  (mhaschildren ghaschildren st k = true <->
     (exists m rest, owner (mounts st) k m rest /\ ghaschildren (heap st (mid m)) rest = true) \/ visible (mounts st) k).
Proof. apply exists_ok. Qed.
(** commit reaches every mounted generator, once, and no other. *)
Theorem C32_commit {S} (gcommit : S -> S) st id : NoDup (map mid (mounts st)) ->
  (In id (map mid (mounts st)) -> heap (mcommit gcommit st) id = gcommit (heap st id)) /\
  (~ In id (map mid (mounts st)) -> heap (mcommit gcommit st) id = heap st id).
Proof.
  intros N. unfold mcommit. cbn [with_heap heap]. rewrite commit_ok by exact N. split; intros H; destruct (existsb (fun m => mid m =? id) (mounts st)) eqn:E; try reflexivity.
  - assert (X : existsb (fun m => mid m =? id) (mounts st) = true); [|congruence]. apply existsb_exists. apply in_map_iff in H. destruct H as (m & <- & Hm). exists m. split; [exact Hm|apply Nat.eqb_refl].
  - elim H. apply existsb_exists in E. destruct E as (m & Hm & E). apply Nat.eqb_eq in E. rewrite <- E. apply in_map, Hm.
Qed.
(** refresh reaches the generators in order, up to the first that fails.  Missing
    for the full claim: those after it, which the code does not refresh. *)
Theorem C32_refresh_partial {S} (grefresh : S -> S * bool) st st' ok : NoDup (map mid (mounts st)) -> mrefresh grefresh st = (st', ok) ->
  mounts st' = mounts st /\
  exists done left, mounts st = done ++ left /\
    (forall id, In id (map mid done) -> heap st' id = fst (grefresh (heap st id))) /\
    (forall id, ~ In id (map mid done) -> heap st' id = heap st id) /\
    (ok = true -> left = [] /\ forall m, In m (mounts st) -> snd (grefresh (heap st (mid m))) = true) /\
    (ok = false -> exists before m, done = before ++ [m] /\ snd (grefresh (heap st (mid m))) = false).
Proof.
  intros N H. unfold mrefresh in H. change (fun x m => _) with (refresh_one grefresh) in H. destruct (fold_left (refresh_one grefresh) (mounts st) (heap st, true)) as [h b] eqn:E. injection H as <- <-.
  split; [reflexivity|]. destruct (refresh_ok grefresh _ _ _ _ N E) as (a & c & Em & A & Bb & C & D). exists a, c. split; [exact Em|]. cbn [with_heap heap].
  assert (X : forall id, In id (map mid a) <-> existsb (fun m => mid m =? id) a = true).
  { intros id. rewrite existsb_exists, in_map_iff. split; intros (m & Q1 & Q2); exists m; [split; [exact Q2|apply Nat.eqb_eq, Q1]|split; [apply Nat.eqb_eq, Q2|exact Q1]]. }
  split; [|split; [|split; [|exact Bb]]].
  - intros id Hi. rewrite C. apply X in Hi. rewrite Hi. reflexivity.
  - intros id Hi. rewrite C. rewrite X in Hi. destruct (existsb (fun m => mid m =? id) a); [congruence|reflexivity].
  - intros O. split; [apply A, O|exact (D O)].
Qed.
(** Mounting a generator, not mounted so far, that behaves as a map: it answers for
    the keys at and under its mount point, which exists along with the keys leading
    to it; elsewhere nothing changes but that such keys come to exist. *)
Theorem C32_mount {S} ok (gget : S -> list bytes -> option bytes) gset grefresh st k g refresh :
  lawful ok gget gset -> (forall s, ok s -> ok (fst (grefresh s))) -> good_state ok st -> good_key k -> ~ In g (map mid (mounts st)) ->
  let st' := mountgen gget gset grefresh st k g refresh in
  let new := if refresh then fst (grefresh (heap st g)) else heap st g in
  (forall q, good_key q -> under k q = false ->
     mget gget st' q = mget gget st q \/ (mget gget st q = None /\ mget gget st' q = Some [] /\ under q k = true)) /\
  (forall point rest, good_key (point ++ rest) -> same k point = true ->
     mget gget st' (point ++ rest) = match rest, gget new [] with [], None => Some [] | _, _ => gget new rest end) /\
  (forall a b, k = a ++ b -> a <> [] \/ b = [] -> mget gget st' a <> None).
Proof. intros L R G K Hg. destruct (mountgen_ok gget gset grefresh (fun s => s) (fun _ _ => true) ok L st k g refresh G K Hg R) as (_ & _ & H). exact H. Qed.
(** Unmounting: one mount goes, and what the others show stays, but for keys leading
    to a mount point, which may come to exist. *)
Theorem C32_unmount {S} ok (gget : S -> list bytes -> option bytes) gset gcommit st g commit st' :
  lawful ok gget gset -> (forall s, ok s -> ok (gcommit s)) -> good_state ok st -> unmount gget gset gcommit st g commit = Ok st' ->
  exists newer m older, mounts st = newer ++ m :: older /\ mid m = g /\ mounts st' = newer ++ older /\
    heap st' g = (if commit then gcommit (heap st g) else heap st g) /\
    forall q, good_key q ->
      mget gget st' q = mget gget {| mounts := newer ++ older; heap := heap st |} q \/
      (mget gget {| mounts := newer ++ older; heap := heap st |} q = None /\ mget gget st' q = Some [] /\
       exists n, In n (newer ++ older) /\ under q (mkey n) = true).
Proof.
  intros L C G E. pose proof (unmount_ok gget gset gcommit (fun _ _ => true) ok L st g commit G C) as H. rewrite E in H. destruct H as (a & m & b & Em & Mg & _ & (M & (_ & Fr) & Q)). cbn [mounts heap] in *.
  destruct G as (Gm & N & O). rewrite Em in N, Gm. assert (Hg : ~ In g (map mid (a ++ b))) by (rewrite map_app in *; cbn [map] in N; apply NoDup_remove_2 in N; rewrite <- Mg; exact N).
  assert (Gm' : good_mounts (a ++ b)) by (apply Forall_app in Gm; destruct Gm as [Ga Gb]; apply Forall_app; split; [exact Ga|exact (Forall_inv_tail Gb)]).
  exists a, m, b. split; [exact Em|]. split; [exact Mg|]. split; [exact M|]. split.
  - rewrite Fr by exact Hg. destruct commit; [apply upd_same|reflexivity].
  - intros q K. assert (X : mget gget {| mounts := a ++ b; heap := heap st |} q = mget gget {| mounts := a ++ b; heap := if commit then upd (heap st) g (gcommit (heap st g)) else heap st |} q).
    { unfold mget. cbn [mounts heap]. pose proof (find_owner _ _ Gm' K) as F. destruct (findmount (a ++ b) q) as [n|]; [|reflexivity]. destruct commit; [|reflexivity]. rewrite upd_other; [reflexivity|]. intros D. apply Hg. rewrite <- D. apply in_map, F. }
    rewrite X. apply Q, K.
Qed.
(** It can be done for every mounted generator; for one that is not mounted the
    code reads through a null pointer. *)
Theorem C32_unmount_mounted {S} (gget : S -> list bytes -> option bytes) gset gcommit st g commit :
  (exists st', unmount gget gset gcommit st g commit = Ok st') <-> In g (map mid (mounts st)).
Proof.
  unfold unmount. pose proof (take_out_none (mounts st) g) as T. destruct (take_out (mounts st) g) as [[[a m] b]|].
  - split; [|eauto]. intros _. destruct (in_dec Nat.eq_dec g (map mid (mounts st))) as [H|H]; [exact H|]. apply T in H. discriminate.
  - split; [intros (? & Q); discriminate|]. intros H. apply T in H; [destruct H|reflexivity].
Qed.
(** zap leaves nothing mounted. *)
Theorem C32_zap {S} (gget : S -> list bytes -> option bytes) gset gcommit (st : mstate S) :
  exists st', zap gget gset gcommit st = Ok st' /\ mounts st' = [] /\ forall k, mget gget st' k = None.
Proof.
  destruct (zap_ok gget gset gcommit (length (mounts st)) st eq_refl) as (st' & E & M). exists st'. split; [exact E|]. split; [exact M|]. intros k. unfold mget. rewrite M. reflexivity.
Qed.
(** The names shown under a key with no owner: the next segments of the mount
    points below it, each spelling once. *)
Theorem C32_children ms k : good_mounts ms -> good_key k -> NoDup (virtual_children ms k) /\
  forall n, In n (virtual_children ms k) <-> exists m, In m ms /\ under k (mkey m) = true /\ nth_error (mkey m) (length k) = Some n.
Proof. apply children_ok. Qed.
(** A recursive listing is handed to a single generator only if every key at or below
    the one listed belongs to it; it is if no other mount lies at or below that key. *)
Theorem C32_recursive ms k : good_mounts ms -> good_key k ->
  (forall m, findmountunder ms k = Some m -> exists rest, forall q, owner ms (k ++ q) m (rest ++ q)) /\
  (forall newer m older, ms = newer ++ m :: older -> under (mkey m) k = true -> Forall (fun x => under k (mkey x) = false) (newer ++ older) ->
     Forall (fun x => under (mkey x) k = false) newer -> findmountunder ms k = Some m).
Proof.
  intros G K. unfold findmountunder. pose proof (findunder_ok ms k G K 0) as F. destruct (findunder ms k None 0) as [[f|] n].
  - destruct F as (a & b & E & Fa & U & ->). cbn [Nat.add]. split.
    + intros m H. destruct (S (length (filter (fun m0 => under k (mkey m0)) (a ++ b))) =? 1) eqn:En; [|discriminate]. injection H as ->. apply Nat.eqb_eq in En. injection En as En. apply filter_none in En. rewrite Forall_app in En.
      apply under_firstn in U. exists (skipn (length (mkey m)) k). intros q. exists a, b, (firstn (length (mkey m)) k). split; [exact E|]. split; [|split; [rewrite app_assoc, firstn_skipn; reflexivity|apply same_lows; symmetry; exact U]].
      rewrite Forall_forall in Fa. destruct En as [En _]. rewrite Forall_forall in En. apply Forall_forall. intros x Hx. destruct (under (mkey x) (k ++ q)) eqn:V; [|reflexivity]. exfalso.
      destruct (under_comparable _ k _ V) as [Q|Q]; [apply under_lows; exists (lows q); apply lows_app|rewrite Fa in Q by exact Hx; discriminate|rewrite En in Q by exact Hx; discriminate].
    + intros a' m b' E' U' F' Fa'. assert (H : a = a' /\ f = m /\ b = b').
      { rewrite E in E'. clear - E' Fa Fa' U U'. revert a' E' Fa'. induction a as [|x a IH]; intros [|y a'] E' Fa'; cbn in E'.
        - injection E' as -> ->. auto.
        - injection E' as -> _. apply Forall_inv in Fa'. congruence.
        - injection E' as -> _. apply Forall_inv in Fa. congruence.
        - injection E' as -> E'. destruct (IH (Forall_inv_tail Fa) a' E' (Forall_inv_tail Fa')) as (-> & ?). auto. }
      destruct H as (-> & -> & ->). apply filter_none in F'. rewrite F'. reflexivity.
  - split; [destruct (n =? 1); discriminate|]. intros a m b -> U _ _. apply Forall_app in F. destruct F as [_ F]. apply Forall_inv in F. congruence.
Qed.
Example C32_recursive_nonvacuous : let a := {| mid := 1; mkey := [B "a"] |} in let b := {| mid := 2; mkey := [B "b"] |} in
  findmountunder [b; a] [B "A"; B "x"] = Some a /\ findmountunder [b; a] [] = None.
Proof. split; reflexivity. Qed.
(** Every state reached by these operations meets the conditions above. *)
Theorem C32_reachable {S} ok (gget : S -> list bytes -> option bytes) gset grefresh gcommit h ops st' :
  lawful ok gget gset -> (forall s, ok s -> ok (fst (grefresh s))) -> (forall s, ok s -> ok (gcommit s)) -> (forall id, ok (h id)) ->
  reach gget gset grefresh gcommit {| mounts := []; heap := h |} ops st' -> Forall mop_good ops -> good_state ok st'.
Proof. intros L R C O H F. eapply reach_good; eauto. split; [constructor|]. split; [constructor|exact O]. Qed.

(** ** Memory generators are lawful *)
Definition tset' (g : gen) k v : gen := fst (tset g k v).
Theorem C32_memory_generator : lawful (fun g => WFo (root g)) tget tset'.
Proof.
  split.
  - intros s k v W P. unfold tset'. destruct (tset s k v) as [g n] eqn:E. apply (tset_ok s k v g n W (or_introl P) E).
  - intros s k v q W P Q. unfold tset'. destruct (tset s k v) as [g n] eqn:E. destruct (tset_ok s k v g n W (or_introl P) E) as (_ & H & _). cbn [fst].
    rewrite tget_has by (left; exact Q). destruct (plain_slashed _ Q) as [-> _]. rewrite H by exact Q. unfold set_key. destruct (plain_slashed _ P) as [-> _].
    assert (X : forall m m' : contents, (forall x, m x = m' x) -> set_spec m k v q = set_spec m' k v q) by (intros m m' X; unfold set_spec; rewrite !X; reflexivity).
    unfold set_spec. rewrite tget_has by (left; exact Q). destruct (plain_slashed _ Q) as [-> _]. reflexivity.
  - intros s k k' W P P' E. rewrite !tget_has by (left; assumption). destruct (plain_slashed _ P) as [-> _], (plain_slashed _ P') as [-> _]. apply has_low; assumption.
Qed.

(** ** Examples and what does not hold *)
Definition tref (g : gen) : gen * bool := (g, true).
Definition tcom (g : gen) : gen := {| root := root g; dirty := false |}.
Definition seg (s : string) : key := [B s].
Definition ex0 : mstate gen := {| mounts := []; heap := fun _ => tinit |}.
Definition ex1 := mountgen tget tset' tref ex0 [] 0 true.
Definition ex2 := mountgen tget tset' tref ex1 [B "a"; B "b"] 1 true.
Definition ex3 := mset tset' (mset tset' ex2 [B "A"; B "B"; B "x"] (Some (B "in"))) [B "c"] (Some (B "out")).
Ltac plain_seg := split; [discriminate|split; [|unfold nul_free]; vm_compute; intuition discriminate].
Example ex_good : good_key [B "a"; B "b"] /\ good_key [B "c"].
Proof. split; (split; [repeat (apply (Forall_cons (P := plain)); [plain_seg|]); apply Forall_nil|unfold short; cbn; lia]). Qed.
Example ex_reach : reach tget tset' tref tcom ex0 [MMount [] 0 true; MMount [B "a"; B "b"] 1 true] ex2.
Proof. econstructor; [constructor; cbn; tauto|]. econstructor; [constructor; cbn; intros [|[]]; discriminate|]. constructor. Qed.
Example ex_routed :
  mget tget ex3 [B "a"; B "b"; B "X"] = Some (B "in") /\ mget tget ex3 [B "c"] = Some (B "out") /\
  tget (heap ex3 1) [B "x"] = Some (B "in") /\ tget (heap ex3 0) [B "a"; B "b"; B "x"] = None /\
  tget (heap ex3 0) [B "a"; B "b"] = Some [] /\ mget tget ex3 [B "a"] = Some [].
Proof. vm_compute. repeat split. Qed.
Example ex_unmount : match unmount tget tset' tcom ex3 1 false with
  | Ok st => mget tget st [B "a"; B "b"; B "x"] = None /\ mget tget st [B "a"; B "b"] = Some [] /\ mget tget st [B "c"] = Some (B "out")
  | _ => False end.
Proof. vm_compute. repeat split. Qed.
(** With one generator failing, a later one is not refreshed. *)
Definition fref (g : nat) : nat * bool := (S g, negb (g =? 0)).
Theorem C32_refresh_refuted : exists (st : mstate nat) st' ok, NoDup (map mid (mounts st)) /\ mrefresh fref st = (st', ok) /\
  exists id, In id (map mid (mounts st)) /\ heap st' id = heap st id /\ fst (fref (heap st id)) <> heap st id.
Proof.
  exists {| mounts := [{| mid := 1; mkey := seg "a" |}; {| mid := 2; mkey := seg "b" |}]; heap := fun i => i - 1 |}. eexists. eexists. split; [repeat constructor; cbn; intuition discriminate|]. split; [reflexivity|].
  exists 2. split; [right; left; reflexivity|]. split; [reflexivity|]. cbn. lia.
Qed.
(** A mount at a key with a trailing slash loses a segment of every key. *)
Theorem C32_slash_refuted : exists (st : mstate gen) k v, mounts st = [{| mid := 0; mkey := [B "a"; []] |}] /\ v <> None /\
  tget (heap st 0) [B "x"; B "y"] = v /\ mget tget st ([B "a"] ++ [B "x"; B "y"]) <> v /\ k = [B "y"] /\ mget tget st ([B "a"] ++ [B "x"; B "y"]) = tget (heap st 0) k.
Proof.
  exists {| mounts := [{| mid := 0; mkey := [B "a"; []] |}]; heap := fun _ => tset' tinit [B "x"; B "y"] (Some (B "v")) |}, [B "y"], (Some (B "v")).
  split; [reflexivity|]. split; [discriminate|]. split; [vm_compute; reflexivity|]. split; [vm_compute; discriminate|]. split; [reflexivity|]. vm_compute. reflexivity.
Qed.
(** Unmounting a generator that is not mounted reads through a null pointer. *)
Theorem C32_unmount_refuted : exists (st : mstate gen) g, unmount tget tset' tcom st g true = Fault.
Proof. exists ex2, 7. reflexivity. Qed.
(** Mount points that differ in case only give two names for one key. *)
Theorem C32_children_refuted : exists ms a b, good_mounts ms /\ In a (virtual_children ms []) /\ In b (virtual_children ms []) /\ a <> b /\ same [a] [b] = true.
Proof.
  exists [{| mid := 0; mkey := seg "a" |}; {| mid := 1; mkey := seg "A" |}], (B "a"), (B "A"). split.
  - unfold good_mounts. repeat (apply Forall_cons; [split; [apply (Forall_cons (P := plain)); [plain_seg|constructor]|unfold short; cbn; lia]|]). constructor.
  - vm_compute. repeat split; auto; discriminate.
Qed.
Print Assumptions C32_recursive.
Print Assumptions C32_setv.
Print Assumptions C32_mount.
Print Assumptions C32_unmount.
Print Assumptions C32_reachable.
