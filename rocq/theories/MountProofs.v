From Coq Require Import Permutation.
From Verif Require Import Base BaseFacts Ctype KeyModel KeySpec KeyProofs TempModel TempSpec TreeProofs TempProofs TxnProofs MountModel MountSpec.
Local Open Scope nat_scope.

(** ** Routing *)
Lemma same_key_lows a b : same_key a b <-> lows a = lows b.
Proof.
  split.
  - induction 1 as [|x y a b H _ IH]; [reflexivity|]. change (low x :: lows a = low y :: lows b). rewrite IH. f_equal. exact H.
  - revert b. induction a as [|x a IH]; intros [|y b] H; try discriminate; [constructor|]. injection H as H1 H2. constructor; [exact H1|]. apply IH. exact H2.
Qed.
Lemma lows_length k : length (lows k) = length k.
Proof. apply map_length. Qed.
Lemma lows_firstn n k : lows (firstn n k) = firstn n (lows k).
Proof. unfold lows. symmetry. apply firstn_map. Qed.
Lemma under_firstn a k : under a k = true <-> lows (firstn (length a) k) = lows a.
Proof.
  rewrite under_lows, lows_firstn. split.
  - intros (r & ->). rewrite <- lows_length. apply firstn_app_len. reflexivity.
  - intros E. exists (skipn (length a) (lows k)). rewrite <- E. symmetry. apply firstn_skipn.
Qed.
Lemma hasts_plain k : Forall plain k -> hastrailingslash k = false.
Proof. destruct k as [|x k]; [reflexivity|]. intros P. apply hasts_app; [discriminate|exact P]. Qed.
Lemma issub_under a k : Forall plain a -> Forall plain k -> issub a k = under a k.
Proof.
  intros Pa Pk. unfold issub, suborsame. rewrite hasts_plain by exact Pa. rewrite !kfirst_eq by lia. rewrite Nat2Z.id, firstn_all.
  rewrite !plain_collapse by (auto; apply Forall_firstn; exact Pk).
  pose proof (key_eq_spec (firstn (length a) k) a ltac:(apply Forall_firstn, plain_nul, Pk) (plain_nul _ Pa)) as E. rewrite same_key_lows in E.
  pose proof (under_firstn a k) as U. rewrite <- E in U. destruct (key_eq _ _), (under a k); try reflexivity; destruct U as [U1 U2]; [discriminate (U2 eq_refl)|discriminate (U1 eq_refl)].
Qed.
Lemma trim_skipn a k : Forall plain k -> short k -> trimkey a k = skipn (length a) k.
Proof. intros P S. apply removefirst_plain; assumption. Qed.
Lemma owner_find ms k m rest : good_mounts ms -> good_key k -> owner ms k m rest -> findmount ms k = Some m /\ trimkey (mkey m) k = rest.
Proof.
  intros G (Pk & Sk) (a & b & p & -> & Fa & -> & Sm). unfold findmount. apply Forall_app in G. destruct G as [Ga Gb]. pose proof (Forall_inv Gb) as [Pm _].
  apply same_lows in Sm. assert (L : length (mkey m) = length p) by (rewrite <- (lows_length (mkey m)), <- (lows_length p); congruence). split.
  - induction a as [|n a IH]; cbn [List.find app].
    + rewrite issub_under by assumption. assert (U : under (mkey m) (p ++ rest) = true) by (apply under_lows; exists (lows rest); rewrite lows_app; congruence). rewrite U. reflexivity.
    + rewrite issub_under by (assumption || apply (Forall_inv Ga)). rewrite (Forall_inv Fa). apply IH; [exact (Forall_inv_tail Ga)|exact (Forall_inv_tail Fa)].
  - rewrite trim_skipn by assumption. rewrite L. rewrite (skipn_app_len p rest (length p) 0) by lia. reflexivity.
Qed.
Lemma find_owner ms k : good_mounts ms -> good_key k ->
  match findmount ms k with Some m => owner ms k m (trimkey (mkey m) k) /\ In m ms | None => no_owner ms k end.
Proof.
  intros G (Pk & Sk). unfold findmount. induction ms as [|m ms IH]; cbn [List.find]; [constructor|].
  pose proof (Forall_inv G) as [Pm Sm]. specialize (IH (Forall_inv_tail G)). rewrite issub_under by assumption. destruct (under (mkey m) k) eqn:U.
  - split; [|left; reflexivity]. exists [], ms, (firstn (length (mkey m)) k). split; [reflexivity|]. split; [constructor|]. rewrite trim_skipn by assumption. split; [symmetry; apply firstn_skipn|].
    apply under_firstn in U. apply same_lows. congruence.
  - destruct (List.find _ ms) as [n|].
    + destruct IH as [(a & b & p & -> & Fa & E & S) Hi]. split; [|right; exact Hi]. exists (m :: a), b, p. split; [reflexivity|]. split; [constructor; assumption|]. auto.
    + constructor; assumption.
Qed.
Lemma owner_not_none ms k m rest : owner ms k m rest -> no_owner ms k -> False.
Proof.
  intros (a & b & p & -> & _ & -> & S) N. apply Forall_app in N. destruct N as [_ N]. pose proof (Forall_inv N) as U. cbn in U.
  assert (under (mkey m) (p ++ rest) = true); [|congruence]. apply same_lows in S. apply under_lows. exists (lows rest). rewrite lows_app. congruence.
Qed.
Lemma found_none ms k : good_mounts ms -> good_key k -> no_owner ms k -> findmount ms k = None.
Proof.
  intros G K N. pose proof (find_owner ms k G K) as F. destruct (findmount ms k) as [m|]; [|reflexivity]. elim (owner_not_none _ _ _ _ (proj1 F) N).
Qed.

Lemma key_lt_under a k : Forall plain a -> Forall plain k -> under a k = true -> key_lt a k = negb (under k a).
Proof.
  revert k. induction a as [|x a IH]; intros [|y k] Pa Pk U; try discriminate; try reflexivity.
  cbn in U. apply andb_true_iff in U. destruct U as [T U]. pose proof (Forall_inv Pa) as Px. pose proof (Forall_inv Pk) as Py.
  specialize (IH k (Forall_inv_tail Pa) (Forall_inv_tail Pk) U). unfold key_lt in *. cbn [compareto under]. rewrite (teq_sym y x), T.
  assert (Z0 : strcasecmp x y = 0%Z) by (apply casecmp_eq; auto using plain_nulf; apply teq_spec in T; exact T). rewrite Z0. exact IH.
Qed.
Lemma subkey_test k m : Forall plain k -> Forall plain m -> issub k m && key_lt k m = beneath k m.
Proof.
  intros Pk Pm. rewrite issub_under by assumption. unfold beneath. destruct (under k m) eqn:U; [|reflexivity]. cbn. apply key_lt_under; assumption.
Qed.
Lemma has_subkey_none ms k : good_mounts ms -> Forall plain k -> has_subkey ms k None = existsb (fun m => beneath k (mkey m)) ms.
Proof.
  intros G P. induction ms as [|m ms IH]; [reflexivity|]. cbn [has_subkey existsb]. rewrite subkey_test by (auto; apply (Forall_inv G)). destruct (beneath k (mkey m)); [reflexivity|].
  apply IH, (Forall_inv_tail G).
Qed.
Lemma has_subkey_some a m b k : good_mounts (a ++ m :: b) -> Forall plain k -> NoDup (map mid (a ++ m :: b)) -> beneath k (mkey m) = false ->
  has_subkey (a ++ m :: b) k (Some (mid m)) = existsb (fun m => beneath k (mkey m)) a.
Proof.
  intros G P N Bm. induction a as [|x a IH]; cbn [app has_subkey existsb].
  - rewrite subkey_test by (auto; apply (Forall_inv G)). rewrite Bm, Nat.eqb_refl. reflexivity.
  - cbn [app map] in N. inversion N as [|? ? N1 N2]; subst. rewrite subkey_test by (auto; apply (Forall_inv G)). destruct (beneath k (mkey x)); [reflexivity|].
    destruct (Nat.eqb_spec (mid x) (mid m)) as [E|_]; [elim N1; rewrite E; apply in_map, in_app_iff; right; left; reflexivity|]. apply IH; [exact (Forall_inv_tail G)|exact N2].
Qed.
(** The first of some mounts beneath a key that none of them owns is its own
    owner. *)
Lemma first_beneath a k : Forall (fun n => under (mkey n) k = false) a -> existsb (fun m => beneath k (mkey m)) a = true ->
  forall c, exists m, In m a /\ owner (a ++ c) (mkey m) m [] /\ beneath k (mkey m) = true.
Proof.
  intros F H c. assert (Q : exists x m y, a = x ++ m :: y /\ existsb (fun m => beneath k (mkey m)) x = false /\ beneath k (mkey m) = true).
  { clear F. induction a as [|n a IH]; [discriminate|]. cbn in H. destruct (beneath k (mkey n)) eqn:E; [exists [], n, a; auto|].
    destruct (IH H) as (x & m & y & -> & X & Y). exists (n :: x), m, y. cbn. rewrite E. auto. }
  destruct Q as (x & m & y & -> & X & Y). exists m. split; [apply in_app_iff; right; left; reflexivity|]. split; [|exact Y].
  exists x, (y ++ c), (mkey m). split; [rewrite <- app_assoc; reflexivity|]. split; [|split; [symmetry; apply app_nil_r|apply same_refl]].
  apply Forall_app in F. destruct F as [F _]. rewrite Forall_forall in *. intros n Hn. destruct (under (mkey n) (mkey m)) eqn:U; [|reflexivity].
  specialize (F n Hn). assert (Bn : beneath k (mkey n) = false) by (destruct (beneath k (mkey n)) eqn:E; [|reflexivity]; assert (existsb (fun m => beneath k (mkey m)) x = true) by (apply existsb_exists; eauto); congruence).
  unfold beneath in *. rewrite F in Bn. cbn in Bn. rewrite andb_true_r in Bn. apply andb_true_iff in Y. destruct Y as [Y _].
  apply under_lows in U. apply under_lows in Y. destruct U as (r1 & E1). destruct Y as (r2 & E2).
  assert (C : under k (mkey n) = true \/ under (mkey n) k = true).
  { rewrite !under_lows. rewrite E1 in E2. destruct (Nat.le_gt_cases (length (lows k)) (length (lows (mkey n)))) as [L|L].
    - left. exists (skipn (length (lows k)) (lows (mkey n))). assert (lows k = firstn (length (lows k)) (lows (mkey n))).
      { transitivity (firstn (length (lows k)) (lows (mkey n) ++ r1)); [rewrite E2; symmetry; apply firstn_app_len; reflexivity|]. rewrite firstn_app. replace (_ - _) with 0 by lia. cbn. apply app_nil_r. }
      transitivity (firstn (length (lows k)) (lows (mkey n)) ++ skipn (length (lows k)) (lows (mkey n))); [symmetry; apply firstn_skipn|]. congruence.
    - right. exists (skipn (length (lows (mkey n))) (lows k)). assert (lows (mkey n) = firstn (length (lows (mkey n))) (lows k)).
      { transitivity (firstn (length (lows (mkey n))) (lows k ++ r2)); [rewrite <- E2; symmetry; apply firstn_app_len; reflexivity|]. rewrite firstn_app. replace (_ - _) with 0 by lia. cbn. apply app_nil_r. }
      transitivity (firstn (length (lows (mkey n))) (lows k) ++ skipn (length (lows (mkey n))) (lows k)); [symmetry; apply firstn_skipn|]. congruence. }
  destruct C; congruence.
Qed.

Lemma NoDup_map_inj {A} (f : A -> nat) l x y : NoDup (map f l) -> In x l -> In y l -> f x = f y -> x = y.
Proof.
  induction l as [|a l IH]; intros N Hx Hy E; [destruct Hx|]. cbn [map] in N. inversion N as [|? ? N1 N2]; subst. destruct Hx as [<-|Hx], Hy as [<-|Hy]; auto.
  - elim N1. rewrite E. apply in_map, Hy.
  - elim N1. rewrite <- E. apply in_map, Hx.
Qed.

Section Proofs.
Context {S : Type} (gget : S -> key -> option bytes) (gset : S -> key -> option bytes -> S)
  (grefresh : S -> S * bool) (gcommit : S -> S) (ghaschildren : S -> key -> bool).
Notation mget := (MountModel.mget gget).
Notation mset := (MountModel.mset gset).

Lemma get_ok st k : good_mounts (mounts st) -> good_key k ->
  (forall m rest, owner (mounts st) k m rest -> mget st k = gget (heap st (mid m)) rest) /\
  (no_owner (mounts st) k -> mget st k = if existsb (fun m => beneath k (mkey m)) (mounts st) then Some [] else None).
Proof.
  intros G K. unfold MountModel.mget. split.
  - intros m rest O. destruct (owner_find _ _ _ _ G K O) as [-> <-]. reflexivity.
  - intros N. rewrite (found_none _ _ G K N), has_subkey_none by (auto; apply K). reflexivity.
Qed.
Lemma set_ok st k v : good_mounts (mounts st) -> good_key k ->
  (forall m rest, owner (mounts st) k m rest -> mset st k v = with_heap st (upd (heap st) (mid m) (gset (heap st (mid m)) rest v))) /\
  (no_owner (mounts st) k -> mset st k v = st).
Proof.
  intros G K. unfold MountModel.mset. split.
  - intros m rest O. destruct (owner_find _ _ _ _ G K O) as [-> <-]. reflexivity.
  - intros N. rewrite (found_none _ _ G K N). reflexivity.
Qed.

(** ** Bulk set *)
Definition owned (ms : list mount) (m : mount) (ps : pairs) : pairs :=
  flat_map (fun p => match findmount ms (fst p) with Some n => if mid n =? mid m then [(trimkey (mkey m) (fst p), snd p)] else [] | None => [] end) ps.
Lemma upd_same (h : nat -> S) i s : upd h i s i = s.
Proof. unfold upd. rewrite Nat.eqb_refl. reflexivity. Qed.
Lemma upd_other (h : nat -> S) i s j : j <> i -> upd h i s j = h j.
Proof. intros N. unfold upd. destruct (Nat.eqb_spec j i); [contradiction|reflexivity]. Qed.
Definition gsets (l : pairs) (s : S) : S := fold_left (fun s p => gset s (fst p) (snd p)) l s.
Lemma setv_one_at m l : forall h id, setv_one gset h (m, l) id = if id =? mid m then gsets l (h id) else h id.
Proof.
  unfold setv_one, gsets. cbn [fst snd]. induction l as [|p l IH]; intros h id; cbn [fold_left].
  - destruct (id =? mid m); reflexivity.
  - rewrite IH. destruct (Nat.eqb_spec id (mid m)) as [->|N]; [rewrite upd_same; reflexivity|apply upd_other, N].
Qed.
Lemma setv_all : forall d h id, NoDup (map (fun e => mid (fst e)) d) ->
  fold_left (setv_one gset) d h id = match List.find (fun e => mid (fst e) =? id) d with Some e => gsets (snd e) (h id) | None => h id end.
Proof.
  induction d as [|[m l] d IH]; intros h id N; cbn [fold_left List.find fst]; [reflexivity|]. cbn [map fst] in N. inversion N as [|? ? N1 N2]; subst.
  rewrite IH by exact N2. rewrite setv_one_at, Nat.eqb_sym. destruct (Nat.eqb_spec (mid m) id) as [<-|Ne]; [|reflexivity].
  destruct (List.find (fun e => mid (fst e) =? mid m) d) as [e|] eqn:F; [|reflexivity]. apply find_some in F. destruct F as [Fi Fe]. apply Nat.eqb_eq in Fe. elim N1. rewrite <- Fe. apply (in_map (fun e => mid (fst e))), Fi.
Qed.
Lemma find_perm (d d' : list (mount * pairs)) id : Permutation d d' -> NoDup (map (fun e => mid (fst e)) d) ->
  List.find (fun e => mid (fst e) =? id) d = List.find (fun e => mid (fst e) =? id) d'.
Proof.
  induction 1 as [|x d d' P IH|x y d|d1 d2 d3 P1 IH1 P2 IH2]; intros N; cbn [List.find].
  - reflexivity.
  - inversion N; subst. rewrite IH by assumption. reflexivity.
  - cbn [map] in N. inversion N as [|? ? N1 N2]; subst. destruct (Nat.eqb_spec (mid (fst y)) id) as [E|]; [|reflexivity]. destruct (Nat.eqb_spec (mid (fst x)) id) as [E2|]; [|reflexivity].
    elim N1. left. congruence.
  - rewrite IH1 by exact N. apply IH2. eapply Permutation_NoDup; [apply Permutation_map, P1|exact N].
Qed.
Lemma printable_inj a b : Forall plain a -> Forall plain b -> printable a = printable b -> a = b.
Proof. intros Pa Pb E. rewrite <- (path_key_print a), <- (path_key_print b) by (left; assumption). congruence. Qed.
Lemma add_pair_ok : forall a m l b p, Forall (fun e => printable (mkey (fst e)) <> printable (mkey m)) a ->
  add_pair (a ++ (m, l) :: b) (printable (mkey m)) p = Ok (a ++ (m, l ++ [p]) :: b).
Proof.
  induction a as [|[n ln] a IH]; intros m l b p F; cbn [app add_pair].
  - destruct (list_eq_dec ascii_dec (printable (mkey m)) (printable (mkey m))); [reflexivity|congruence].
  - pose proof (Forall_inv F) as N. cbn in N. destruct (list_eq_dec ascii_dec (printable (mkey n)) (printable (mkey m))); [contradiction|]. rewrite IH by exact (Forall_inv_tail F). reflexivity.
Qed.
Lemma sort_pairs_ok ms : good_mounts ms -> NoDup (map mid ms) -> forall ps d, Forall (fun p => good_key (fst p)) ps -> map fst d = ms ->
  sort_pairs ms d ps = Ok (map (fun e => (fst e, snd e ++ owned ms (fst e) ps)) d).
Proof.
  intros G N. induction ps as [|[k v] ps IH]; intros d K E; cbn [sort_pairs].
  - f_equal. rewrite <- (map_id d) at 1. apply map_ext. intros [m l]. cbn. rewrite app_nil_r. reflexivity.
  - pose proof (Forall_inv K) as Kk. cbn in Kk. pose proof (find_owner ms k G Kk) as F. destruct (findmount ms k) as [m|] eqn:Ef.
    + destruct F as [(a & b & p & Em & Fa & Ek & Sm) _]. assert (Q : exists da l db, d = da ++ (m, l) :: db /\ map fst da = a /\ map fst db = b).
      { assert (E' : map fst d = a ++ m :: b) by congruence. clear - E'. revert a E'. induction d as [|[x l] d IH]; intros [|y a] E'; try discriminate; injection E' as E1 E2.
        - subst. exists [], l, d. auto.
        - destruct (IH a E2) as (da & l' & db & -> & A & Bb). exists ((x, l) :: da), l', db. cbn. rewrite A, Bb, E1. auto. }
      destruct Q as (da & l & db & -> & Ea & Eb). rewrite add_pair_ok; cbn [bind].
      * rewrite IH; [|exact (Forall_inv_tail K)|rewrite <- E, !map_app; reflexivity]. f_equal. rewrite !map_app. cbn [map fst snd].
        assert (O : forall x, In x (a ++ b) -> owned ms x ((k, v) :: ps) = owned ms x ps).
        { intros x Hx. unfold owned. cbn [flat_map fst]. rewrite Ef. destruct (Nat.eqb_spec (mid m) (mid x)) as [Q|_]; [|reflexivity]. rewrite Em, map_app in N. cbn [map] in N.
          apply NoDup_remove_2 in N. elim N. rewrite Q, <- map_app. apply in_map, Hx. }
        f_equal; [|f_equal].
        -- apply map_ext_in. intros [x lx] Hx. cbn [fst snd]. rewrite O; [reflexivity|]. apply in_app_iff. left. rewrite <- Ea. change x with (fst (x, lx)). apply in_map, Hx.
        -- f_equal. unfold owned. cbn [flat_map fst snd]. rewrite Ef, Nat.eqb_refl, <- app_assoc. reflexivity.
        -- apply map_ext_in. intros [x lx] Hx. cbn [fst snd]. rewrite O; [reflexivity|]. apply in_app_iff. right. rewrite <- Eb. change x with (fst (x, lx)). apply in_map, Hx.
      * rewrite Em in G. apply Forall_app in G. destruct G as [Ga Gb]. pose proof (Forall_inv Gb) as [Pm _]. clear - Ea Fa Ga Pm Ek Sm. subst a. rewrite Forall_map in Fa, Ga. rewrite Forall_forall in Fa, Ga |- *.
        intros x Hx Q. apply printable_inj in Q; [|apply (Ga x Hx)|exact Pm]. specialize (Fa x Hx). rewrite Q in Fa. assert (under (mkey m) k = true); [|congruence].
        apply same_lows in Sm. apply under_lows. exists (lows (trimkey (mkey m) k)). rewrite Ek at 1. rewrite lows_app. congruence.
    + rewrite IH by (auto; exact (Forall_inv_tail K)). f_equal. apply map_ext. intros [x l]. cbn [fst snd]. unfold owned. cbn [flat_map fst]. rewrite Ef. reflexivity.
Qed.
Lemma sets_one_by_one : forall ps st id, good_mounts (mounts st) -> NoDup (map mid (mounts st)) -> Forall (fun p => good_key (fst p)) ps ->
  let st' := fold_left (fun st p => mset st (fst p) (snd p)) ps st in
  mounts st' = mounts st /\ heap st' id = match List.find (fun m => mid m =? id) (mounts st) with Some m => gsets (owned (mounts st) m ps) (heap st id) | None => heap st id end.
Proof.
  induction ps as [|[k v] ps IH]; intros st id G N K; cbn [fold_left].
  - split; [reflexivity|]. destruct (List.find _ _); reflexivity.
  - pose proof (Forall_inv K) as Kk. cbn in Kk. cbn [fst snd].
    assert (M : mounts (mset st k v) = mounts st) by (unfold MountModel.mset; destruct (findmount _ _); reflexivity).
    destruct (IH (mset st k v) id) as [I1 I2]; [rewrite M; assumption..|exact (Forall_inv_tail K)|]. rewrite M in *. split; [exact I1|]. cbn zeta in I2. rewrite I2. clear I1 I2 IH.
    unfold MountModel.mset. pose proof (find_owner _ _ G Kk) as F. destruct (findmount (mounts st) k) as [m|] eqn:Ef.
    + destruct F as [_ Hm]. cbn [heap with_heap]. destruct (List.find (fun m => mid m =? id) (mounts st)) as [n|] eqn:Fn.
      * apply find_some in Fn. destruct Fn as [Hn E]. apply Nat.eqb_eq in E. subst id. unfold owned at 2. cbn [flat_map fst snd]. rewrite Ef. destruct (Nat.eqb_spec (mid m) (mid n)) as [E|D].
        -- assert (m = n) by (eapply NoDup_map_inj; eauto). subst n. rewrite upd_same. reflexivity.
        -- rewrite upd_other by congruence. reflexivity.
      * apply upd_other. intros ->. pose proof (List.find_none _ _ Fn m Hm) as Q. cbv beta in Q. rewrite Nat.eqb_refl in Q. discriminate.
    + destruct (List.find _ _) as [n|]; [|reflexivity]. unfold owned at 2. cbn [flat_map fst]. rewrite Ef. reflexivity.
Qed.

(** ** Commit and refresh *)
Lemma commit_ok : forall ms (h : nat -> S) id, NoDup (map mid ms) ->
  fold_left (fun h m => upd h (mid m) (gcommit (h (mid m)))) ms h id = if existsb (fun m => mid m =? id) ms then gcommit (h id) else h id.
Proof.
  induction ms as [|m ms IH]; intros h id N; cbn [fold_left existsb]; [reflexivity|]. cbn [map] in N. inversion N as [|? ? N1 N2]; subst. rewrite IH by exact N2.
  destruct (Nat.eqb_spec (mid m) id) as [<-|D]; cbn [orb].
  - rewrite upd_same. destruct (existsb (fun m0 => mid m0 =? mid m) ms) eqn:E; [|reflexivity]. apply existsb_exists in E. destruct E as (x & Hx & E). apply Nat.eqb_eq in E. elim N1. rewrite <- E. apply in_map, Hx.
  - rewrite upd_other by congruence. reflexivity.
Qed.
Definition refresh_one (x : (nat -> S) * bool) (m : mount) : (nat -> S) * bool :=
  let (h, result) := x in if result then let (s, ok) := grefresh (h (mid m)) in (upd h (mid m) s, ok) else (h, false).
Lemma refresh_stop : forall ms h, fold_left refresh_one ms (h, false) = (h, false).
Proof. induction ms as [|m ms IH]; intros h; cbn [fold_left]; [reflexivity|apply IH]. Qed.
Lemma refresh_ok : forall ms h h' ok, NoDup (map mid ms) -> fold_left refresh_one ms (h, true) = (h', ok) ->
  exists a b, ms = a ++ b /\ (ok = true -> b = []) /\ (ok = false -> exists a' m, a = a' ++ [m] /\ snd (grefresh (h (mid m))) = false) /\
  (forall id, h' id = if existsb (fun m => mid m =? id) a then fst (grefresh (h id)) else h id) /\
  (ok = true -> forall m, In m ms -> snd (grefresh (h (mid m))) = true).
Proof.
  induction ms as [|m ms IH]; intros h h' ok N H; cbn [fold_left] in H.
  - injection H as <- <-. exists [], []. split; [reflexivity|]. split; [reflexivity|]. split; [discriminate|]. split; [reflexivity|]. intros _ m [].
  - cbn [map] in N. inversion N as [|? ? N1 N2]; subst. unfold refresh_one at 2 in H. destruct (grefresh (h (mid m))) as [s b] eqn:E. destruct b.
    + destruct (IH _ _ _ N2 H) as (a & c & -> & A & Bb & C & D).
      assert (Ne : forall n, In n (a ++ c) -> mid n <> mid m) by (intros n Hn Q; apply N1; rewrite <- Q; apply in_map, Hn).
      exists (m :: a), c. split; [reflexivity|]. split; [exact A|]. split; [|split].
      * intros F. destruct (Bb F) as (a' & n & -> & Gn). exists (m :: a'), n. split; [reflexivity|]. rewrite upd_other in Gn; [exact Gn|]. apply Ne. rewrite <- app_assoc. apply in_app_iff. right. left. reflexivity.
      * intros id. rewrite C. cbn [existsb]. destruct (Nat.eqb_spec (mid m) id) as [<-|Q]; cbn [orb].
        -- destruct (existsb (fun m0 => mid m0 =? mid m) a) eqn:F; [|rewrite upd_same, E; reflexivity]. apply existsb_exists in F. destruct F as (x & Hx & F). apply Nat.eqb_eq in F. elim (Ne x); [apply in_app_iff; auto|exact F].
        -- rewrite upd_other by congruence. reflexivity.
      * intros O n [<-|Hn]; [rewrite E; reflexivity|]. specialize (D O n Hn). rewrite upd_other in D by (apply Ne, Hn). exact D.
    + rewrite refresh_stop in H. injection H as <- <-. exists [m], ms. split; [reflexivity|]. split; [discriminate|]. split; [|split].
      * intros _. exists [], m. rewrite E. auto.
      * intros id. cbn [existsb]. rewrite orb_false_r. destruct (Nat.eqb_spec (mid m) id) as [<-|Q]; [rewrite upd_same, E; reflexivity|rewrite upd_other by congruence; reflexivity].
      * discriminate.
Qed.

(** ** Mounting and unmounting lawful generators *)
Context (ok : S -> Prop) (law : lawful ok gget gset).
Notation good := (good_state ok).
(** Nothing visible has changed, but for keys at or above [K] that were missing
    and are now empty. *)
Definition kept (K : key -> Prop) (st st' : mstate S) : Prop := mounts st' = mounts st /\
  ((forall id, ok (heap st' id)) /\ forall id, ~ In id (map mid (mounts st)) -> heap st' id = heap st id) /\
  forall q, good_key q -> mget st' q = mget st q \/ (mget st q = None /\ mget st' q = Some [] /\ K q).
Lemma kept_refl K st : good st -> kept K st st.
Proof. intros (_ & _ & O). split; [reflexivity|]. split; [split; [exact O|reflexivity]|]. auto. Qed.
Lemma kept_trans K a b c : kept K a b -> kept K b c -> kept K a c.
Proof.
  intros (M1 & O1 & E1) (M2 & O2 & E2). split; [congruence|].
  split; [split; [apply O2|]; intros id Hid; rewrite (proj2 O2) by (rewrite M1; exact Hid); apply O1, Hid|]. intros q G. destruct (E1 q G) as [A|(A & A' & Q)], (E2 q G) as [C|(C & C' & Q')].
  - left. congruence.
  - right. split; [congruence|auto].
  - right. split; [exact A|]. split; [congruence|exact Q].
  - congruence.
Qed.
Lemma kept_good K st st' : good st -> kept K st st' -> good st'.
Proof. intros (G & N & _) (M & O & _). split; [rewrite M; exact G|]. split; [rewrite M; exact N|apply O]. Qed.
Lemma kept_weak (K K' : key -> Prop) st st' : (forall q, K q -> K' q) -> kept K st st' -> kept K' st st'.
Proof. intros W (M & O & E). split; [exact M|]. split; [exact O|]. intros q G. destruct (E q G) as [A|(A & A' & Q)]; auto. Qed.
Lemma skipn_lows n k : lows (skipn n k) = skipn n (lows k).
Proof. unfold lows. symmetry. apply skipn_map. Qed.
(** Setting a missing key of a mounted generator to empty. *)
Lemma poke_kept st m k : good st -> In m (mounts st) -> good_key k -> under (mkey m) k = true -> gget (heap st (mid m)) (trimkey (mkey m) k) = None ->
  kept (fun q => under q k = true) st (with_heap st (upd (heap st) (mid m) (gset (heap st (mid m)) (trimkey (mkey m) k) (Some [])))).
Proof.
  intros (G & N & O) Hm (Pk & Sk) U Hn. destruct law as [L1 L2 L3].
  assert (Pt : Forall plain (trimkey (mkey m) k)) by (rewrite trim_skipn by assumption; apply Forall_skipn, Pk).
  split; [reflexivity|]. split.
  - split; intros id; cbn [heap with_heap]; [unfold upd; destruct (id =? mid m); [apply L1; auto|apply O]|]. intros Hid. apply upd_other. intros ->. apply Hid, in_map, Hm.
  - intros q Gq. pose proof (find_owner _ _ G Gq) as F. unfold MountModel.mget at 1 2 3 4. cbn [with_heap mounts heap]. destruct (findmount (mounts st) q) as [n|]; [|left; reflexivity].
    destruct F as [(a & b & p & Em & Fa & Eq & Sm) Hi]. destruct (Nat.eq_dec (mid n) (mid m)) as [E|D]; [|left; rewrite upd_other by congruence; reflexivity].
    assert (n = m) by (eapply NoDup_map_inj; eauto). subst n. rewrite upd_same. destruct Gq as [Pq Sq].
    assert (Pr : Forall plain (trimkey (mkey m) q)) by (rewrite trim_skipn by assumption; apply Forall_skipn, Pq).
    rewrite L2 by auto. unfold set_spec.
    assert (Kq : under (trimkey (mkey m) q) (trimkey (mkey m) k) = true -> under q k = true).
    { intros H. apply under_lows in H. destruct H as (r & E1). rewrite !trim_skipn in E1 by assumption. apply under_firstn in U. apply same_lows in Sm.
      apply under_lows. exists r. rewrite Eq, lows_app, <- Sm, <- U, lows_firstn. rewrite trim_skipn, <- app_assoc, <- E1, skipn_lows by assumption. symmetry. apply firstn_skipn. }
    destruct (same (trimkey (mkey m) k) (trimkey (mkey m) q)) eqn:Es.
    + right. assert (X : gget (heap st (mid m)) (trimkey (mkey m) q) = None) by (rewrite <- Hn; symmetry; apply L3; auto). split; [exact X|]. split; [reflexivity|].
      apply Kq. unfold same in Es. apply andb_true_iff in Es. apply Es.
    + destruct (under (trimkey (mkey m) q) (trimkey (mkey m) k)) eqn:Eu; [|left; reflexivity]. destruct (gget (heap st (mid m)) (trimkey (mkey m) q)) eqn:Ev; [left; reflexivity|]. right. auto.
Qed.
Lemma good_prefix a b : good_key (a ++ b) -> good_key a.
Proof. intros [P Sk]. apply Forall_app in P. destruct P as [P _]. split; [exact P|]. unfold short in *. rewrite app_length in Sk. lia. Qed.
Lemma poke_point st k : good st -> good_key k -> let st' := if isnull (mget st k) then mset st k (Some []) else st in
  kept (fun q => under q k = true) st st' /\ (findmount (mounts st) k <> None -> mget st' k <> None).
Proof.
  intros G K. pose proof G as (Gm & N & O). cbn zeta. destruct (mget st k) as [v|] eqn:E; cbn [isnull].
  - split; [apply kept_refl, G|]. congruence.
  - unfold MountModel.mset. unfold MountModel.mget in E. pose proof (find_owner _ _ Gm K) as F. destruct (findmount (mounts st) k) as [m|] eqn:Ef; [|split; [apply kept_refl, G|congruence]].
    destruct F as [Ow Hm]. assert (U : under (mkey m) k = true).
    { destruct Ow as (a & b & p & _ & _ & -> & Sm). apply same_lows in Sm. apply under_lows. eexists. rewrite lows_app, Sm. reflexivity. }
    split; [apply poke_kept; auto|]. intros _. unfold MountModel.mget. cbn [with_heap mounts heap]. rewrite Ef, upd_same. destruct law as [L1 L2 L3]. destruct K as [Pk Sk].
    assert (Pt : Forall plain (trimkey (mkey m) k)) by (rewrite trim_skipn by assumption; apply Forall_skipn, Pk). rewrite L2 by auto. unfold set_spec. rewrite same_refl. discriminate.
Qed.
Lemma under_trans a b c : under a b = true -> under b c = true -> under a c = true.
Proof. rewrite !under_lows. intros (r & ->) (r' & ->). exists (r ++ r'). apply eq_sym, app_assoc. Qed.
Lemma points_ok : forall rest st points, good st -> good_key (points ++ rest) -> let st' := make_points gget gset st points rest in
  kept (fun q => under q (points ++ rest) = true) st st' /\
  forall a b, rest = a ++ b -> a <> [] -> findmount (mounts st) (points ++ a) <> None -> mget st' (points ++ a) <> None.
Proof.
  induction rest as [|s r IH]; intros st points G K; cbn [make_points]; cbn zeta.
  - split; [apply kept_refl, G|]. intros [|x a] b E Ne; [congruence|discriminate].
  - assert (Ek : points ++ s :: r = (points ++ [s]) ++ r) by (rewrite <- app_assoc; reflexivity). rewrite Ek in K. pose proof (good_prefix _ _ K) as Kp.
    destruct (poke_point st (points ++ [s]) G Kp) as [P1 P2]. cbn zeta in P1, P2. set (st1 := if isnull (mget st (points ++ [s])) then mset st (points ++ [s]) (Some []) else st) in *.
    destruct (IH st1 (points ++ [s]) (kept_good _ _ _ G P1) K) as [I1 I2]. cbn zeta in I1, I2. rewrite Ek. split.
    + eapply kept_trans; [|exact I1]. eapply kept_weak; [|exact P1]. intros q U. eapply under_trans; [exact U|apply under_app].
    + destruct P1 as (M1 & _). intros [|x a] b E Ne F; [congruence|]. injection E as <- E. destruct a as [|y a].
      * destruct I1 as (M2 & _ & I1). destruct (I1 _ Kp) as [Q|(_ & Q & _)]; [rewrite Q; apply P2, F|rewrite Q; discriminate].
      * assert (Ea : points ++ s :: y :: a = (points ++ [s]) ++ y :: a) by (rewrite <- app_assoc; reflexivity). rewrite Ea in *. apply (I2 (y :: a) b E); [discriminate|]. rewrite M1. exact F.
Qed.
Lemma removelast_one k : Forall plain k -> removelast k 1 = List.removelast k.
Proof.
  intros P. unfold removelast, range. replace (Z.of_nat (length k) <? Z.of_nat (length k) - 1)%Z with false by (symmetry; apply Z.ltb_ge; lia). cbn [Z.ltb Z.compare skipn Z.to_nat].
  destruct k as [|y k0]; [reflexivity|]. destruct (exists_last (l := y :: k0) ltac:(discriminate)) as (k' & x & Ex). rewrite Ex in *.
  rewrite removelast_last, app_length. cbn [length]. destruct (Z.ltb_spec (Z.of_nat (length k' + 1) - 1) 0); [lia|]. apply Forall_app in P. destruct P as [P _].
  replace (Z.to_nat (Z.of_nat (length k' + 1) - 1 - 0)) with (length k') by lia. rewrite firstn_app_len by reflexivity. apply plain_collapse, P.
Qed.
Lemma makemount_ok st k : good st -> good_key k -> let st' := makemount gget gset st k in
  kept (fun q => under q k = true) st st' /\
  forall a b, k = a ++ b -> a <> [] -> findmount (mounts st) a <> None -> mget st' a <> None.
Proof.
  intros G K. cbn zeta. unfold makemount. destruct (points_ok k st [] G K) as [P1 P2]. cbn [app] in P1, P2. cbn zeta in P1, P2. set (st1 := make_points gget gset st [] k) in *.
  pose proof (kept_good _ _ _ G P1) as G1. pose proof G1 as (Gm & N & O). rewrite removelast_one by apply K.
  assert (Kr : good_key (List.removelast k)).
  { destruct k as [|y k0]; [exact K|]. destruct (exists_last (l := y :: k0) ltac:(discriminate)) as (k' & x & E). rewrite E in *. rewrite removelast_last. eapply good_prefix, K. }
  assert (Ur : under (List.removelast k) k = true).
  { destruct k as [|y k0]; [reflexivity|]. destruct (exists_last (l := y :: k0) ltac:(discriminate)) as (k' & x & E). rewrite E. rewrite removelast_last. apply under_app. }
  pose proof (find_owner _ _ Gm Kr) as F. destruct (findmount (mounts st1) (List.removelast k)) as [m|]; [|split; [exact P1|exact P2]].
  destruct F as [Ow Hm]. assert (U : under (mkey m) k = true).
  { eapply under_trans; [|exact Ur]. destruct Ow as (a & b & p & _ & _ & Er & Sm). apply same_lows in Sm. apply under_lows. eexists. rewrite Er, lows_app, Sm. reflexivity. }
  destruct (gget (heap st1 (mid m)) (trimkey (mkey m) k)) as [w|] eqn:E; cbn [isnull]; [split; [exact P1|exact P2]|].
  pose proof (poke_kept st1 m k G1 Hm K U E) as P3. split; [eapply kept_trans; eauto|].
  intros a b Ek Ne Fa. specialize (P2 a b Ek Ne Fa). destruct P3 as (_ & _ & P3). destruct (P3 a) as [Q|(_ & Q & _)]; [rewrite Ek in K; eapply good_prefix, K|rewrite Q; exact P2|rewrite Q; discriminate].
Qed.
Lemma take_out_ok : forall ms g a m b, take_out ms g = Some (a, m, b) -> ms = a ++ m :: b /\ mid m = g /\ ~ In g (map mid a).
Proof.
  induction ms as [|n ms IH]; intros g a m b H; cbn [take_out] in H; [discriminate|]. destruct (Nat.eqb_spec (mid n) g) as [E|D].
  - injection H as <- <- <-. auto.
  - destruct (take_out ms g) as [[[a' m'] b']|] eqn:E; [|discriminate]. injection H as <- <- <-. destruct (IH g a' m' b' E) as (-> & M & N). split; [reflexivity|]. split; [exact M|]. cbn. intros [Q|Q]; auto.
Qed.
Lemma take_out_none : forall ms g, take_out ms g = None <-> ~ In g (map mid ms).
Proof.
  induction ms as [|n ms IH]; intros g; cbn [take_out map]; [split; [intros _ []|reflexivity]|]. destruct (Nat.eqb_spec (mid n) g) as [E|D].
  - split; [discriminate|]. intros H. elim H. left. exact E.
  - specialize (IH g). destruct (take_out ms g) as [[[a' m'] b']|].
    + split; [discriminate|]. intros H. exfalso. apply H. right. destruct IH as [_ IH]. destruct (in_dec Nat.eq_dec g (map mid ms)) as [Q|Q]; [exact Q|discriminate (IH Q)].
    + split; [|reflexivity]. intros _ [Q|Q]; [congruence|]. apply IH in Q; auto.
Qed.
Lemma remake_ok key0 next : forall ms st, good st -> good_mounts ms ->
  kept (fun q => exists m, In m ms /\ under q (mkey m) = true) st (remake gget gset st key0 next ms).
Proof.
  induction ms as [|m ms IH]; intros st G Gm; cbn [remake]; [apply kept_refl, G|]. destruct (match next with Some g => mid m =? g | None => false end); [apply kept_refl, G|].
  set (st1 := if issub key0 (mkey m) && negb (key_eq key0 (mkey m)) then makemount gget gset st (mkey m) else st).
  assert (K1 : kept (fun q => exists n, In n (m :: ms) /\ under q (mkey n) = true) st st1).
  { unfold st1. destruct (issub key0 (mkey m) && negb (key_eq key0 (mkey m))); [|apply kept_refl, G]. destruct (makemount_ok st (mkey m) G (Forall_inv Gm)) as [Q _]. eapply kept_weak; [|exact Q]. intros q U. exists m. split; [left; reflexivity|exact U]. }
  eapply kept_trans; [exact K1|]. eapply kept_weak; [|apply IH; [exact (kept_good _ _ _ G K1)|exact (Forall_inv_tail Gm)]]. intros q (n & Hn & U). exists n. split; [right; exact Hn|exact U].
Qed.
Lemma remake_mounts key0 next : forall ms st, mounts (remake gget gset st key0 next ms) = mounts st.
Proof.
  assert (MP : forall rest points st, mounts (make_points gget gset st points rest) = mounts st).
  { induction rest as [|s r IH]; intros points st; cbn [make_points]; [reflexivity|]. rewrite IH. destruct (isnull _); [|reflexivity]. unfold MountModel.mset. destruct (findmount _ _); reflexivity. }
  assert (MM : forall st k, mounts (makemount gget gset st k) = mounts st).
  { intros st k. unfold makemount. destruct (findmount _ _); [|apply MP]. destruct (isnull _); cbn [with_heap mounts]; apply MP. }
  induction ms as [|m ms IH]; intros st; cbn [remake]; [reflexivity|]. destruct (match next with Some g => mid m =? g | None => false end); [reflexivity|]. rewrite IH. destruct (_ && _); [apply MM|reflexivity].
Qed.
Lemma zap_ok : forall n st, length (mounts st) = n -> exists st', zap_loop gget gset gcommit n st = Ok st' /\ mounts st' = [].
Proof.
  induction n as [|n IH]; intros st E; cbn [zap_loop].
  - destruct (mounts st) as [|m r] eqn:Em; [exists st; auto|discriminate].
  - destruct (mounts st) as [|m r] eqn:Em; [discriminate|]. unfold unmount. rewrite Em. cbn [take_out]. rewrite Nat.eqb_refl. cbn [app bind]. apply IH. rewrite remake_mounts. cbn. cbn in E. lia.
Qed.

Lemma find_mount_tail k g ms q : good_key k -> good_key q -> under k q = false -> findmount ({| mid := g; mkey := k |} :: ms) q = findmount ms q.
Proof. intros [Pk _] [Pq _] U. unfold findmount. cbn [List.find mkey]. rewrite issub_under, U by assumption. reflexivity. Qed.
Lemma mountgen_ok st k g refresh : good st -> good_key k -> ~ In g (map mid (mounts st)) -> (forall s, ok s -> ok (fst (grefresh s))) ->
  let st' := mountgen gget gset grefresh st k g refresh in
  let new := if refresh then fst (grefresh (heap st g)) else heap st g in
  good st' /\ mounts st' = {| mid := g; mkey := k |} :: mounts st /\
  (forall q, good_key q -> under k q = false -> mget st' q = mget st q \/ (mget st q = None /\ mget st' q = Some [] /\ under q k = true)) /\
  (forall point rest, good_key (point ++ rest) -> same k point = true ->
     mget st' (point ++ rest) = match rest, gget new [] with [], None => Some [] | _, _ => gget new rest end) /\
  (forall a b, k = a ++ b -> a <> [] \/ b = [] -> mget st' a <> None).
Proof.
  intros G K Hg R. cbn zeta. destruct (makemount_ok st k G K) as [P1 P2]. cbn zeta in P1, P2. unfold mountgen. set (st1 := makemount gget gset st k) in *.
  pose proof (kept_good _ _ _ G P1) as (Gm & N & O). destruct P1 as (M1 & (_ & Fr) & P1). specialize (Fr g Hg). rewrite Fr.
  set (new := if refresh then fst (grefresh (heap st g)) else heap st g). destruct law as [L1 L2 L3].
  assert (On : ok new) by (unfold new; rewrite <- Fr; destruct refresh; [apply R|]; apply O).
  set (h1 := if refresh then upd (heap st1) g (fst (grefresh (heap st g))) else heap st1).
  assert (H1 : h1 g = new) by (unfold h1, new; destruct refresh; [apply upd_same|exact Fr]). rewrite H1.
  set (h2 := if isnull (gget new []) then upd h1 g (gset new [] (Some [])) else h1).
  assert (Hother : forall id, id <> g -> h2 id = heap st1 id).
  { intros id D. unfold h2, h1. destruct (isnull (gget new [])), refresh; rewrite ?upd_other by exact D; reflexivity. }
  assert (H2 : h2 g = if isnull (gget new []) then gset new [] (Some []) else new) by (unfold h2; destruct (isnull (gget new [])); [apply upd_same|exact H1]).
  assert (O2 : forall id, ok (h2 id)).
  { intros id. destruct (Nat.eq_dec id g) as [->|D]; [rewrite H2; destruct (isnull (gget new [])); [apply L1; [exact On|constructor]|exact On]|rewrite Hother by exact D; apply O]. }
  rewrite M1 in *. set (st' := {| mounts := {| mid := g; mkey := k |} :: mounts st; heap := h2 |}).
  assert (Gm' : good_mounts (mounts st')) by (constructor; [exact K|exact Gm]).
  assert (T3 : forall q, good_key q -> under k q = false -> mget st' q = mget st q \/ (mget st q = None /\ mget st' q = Some [] /\ under q k = true)).
  { intros q Kq U. assert (X : mget st' q = mget st1 q \/ (mget st1 q = None /\ mget st' q = Some [] /\ under q k = true)).
    { unfold MountModel.mget. cbn [mounts heap st']. rewrite find_mount_tail, M1 by assumption. pose proof (find_owner _ _ Gm Kq) as F. destruct (findmount (mounts st) q) as [m|].
      - left. rewrite Hother; [reflexivity|]. intros E. apply Hg. rewrite <- E. apply in_map, F.
      - rewrite !has_subkey_none by (assumption || apply Kq). cbn [existsb mkey]. destruct (existsb _ (mounts st)); [rewrite orb_true_r; left; reflexivity|]. rewrite orb_false_r. destruct (beneath q k) eqn:E; [|left; reflexivity]. right. split; [reflexivity|]. split; [reflexivity|]. unfold beneath in E. apply andb_true_iff in E. apply E. }
    destruct X as [X|(X & X' & X'')], (P1 q Kq) as [Y|(Y & Y' & Y'')]; [left; congruence|right; split; [exact Y|]; split; [congruence|exact Y'']|right; split; [congruence|]; auto|congruence]. }
  assert (T4 : forall point rest, good_key (point ++ rest) -> same k point = true ->
     mget st' (point ++ rest) = match rest, gget new [] with [], None => Some [] | _, _ => gget new rest end).
  { intros point rest Kq Sm. destruct (get_ok st' (point ++ rest) Gm' Kq) as [Q _]. rewrite (Q {| mid := g; mkey := k |} rest).
    - cbn [heap st' mid]. rewrite H2. destruct (gget new []) as [w|] eqn:E; cbn [isnull]; [destruct rest; reflexivity|]. destruct Kq as [Pq _]. apply Forall_app in Pq. rewrite L2 by (try constructor; tauto). unfold set_spec. destruct rest; reflexivity.
    - exists [], (mounts st), point. auto. }
  split; [split; [exact Gm'|split; [constructor; assumption|exact O2]]|]. split; [reflexivity|]. split; [exact T3|]. split; [exact T4|].
  intros a b Ek Ne. assert (Ka : good_key a) by (rewrite Ek in K; eapply good_prefix, K). destruct b as [|x b].
  - rewrite app_nil_r in Ek. subst a. replace (mget st' k) with (mget st' (k ++ [])) by (rewrite app_nil_r; reflexivity). rewrite T4 by (rewrite ?app_nil_r; auto using same_refl). destruct (gget new []); discriminate.
  - assert (Na : a <> []) by (destruct Ne; [assumption|discriminate]).
    assert (U : under k a = false).
    { destruct (under k a) eqn:E; [|reflexivity]. apply under_lows in E. destruct E as (r & E). apply (f_equal (@length _)) in E. rewrite app_length, !lows_length, Ek, app_length in E. cbn in E. lia. }
    destruct (findmount (mounts st) a) as [m|] eqn:F.
    + specialize (P2 a (x :: b) Ek Na ltac:(congruence)). unfold MountModel.mget in *. cbn [mounts heap st'] in *. rewrite find_mount_tail by assumption. rewrite M1, F in P2. rewrite F, Hother; [exact P2|].
      pose proof (find_owner _ _ Gm Ka) as Fo. rewrite F in Fo. intros E. apply Hg. rewrite <- E. apply in_map, Fo.
    + unfold MountModel.mget. cbn [mounts heap st']. rewrite find_mount_tail, F by assumption. rewrite has_subkey_none by (assumption || apply Ka). cbn [existsb mkey]. replace (beneath a k) with true; [discriminate|].
      unfold beneath. rewrite U, Ek, under_app. reflexivity.
Qed.
Lemma unmount_ok st g commit : good st -> (forall s, ok s -> ok (gcommit s)) ->
  match unmount gget gset gcommit st g commit with
  | Ok st' => exists a m b, mounts st = a ++ m :: b /\ mid m = g /\ good st' /\
      kept (fun q => exists n, In n (a ++ b) /\ under q (mkey n) = true)
        {| mounts := a ++ b; heap := if commit then upd (heap st) g (gcommit (heap st g)) else heap st |} st'
  | Fault => ~ In g (map mid (mounts st))
  | NoFuel => False
  end.
Proof.
  intros (Gm & N & O) C. unfold unmount. destruct (take_out (mounts st) g) as [[[a m] b]|] eqn:E; [|apply take_out_none, E].
  apply take_out_ok in E. destruct E as (E & M & _). rewrite E in Gm, N. assert (Gm' : good_mounts (a ++ b)) by (apply Forall_app in Gm; destruct Gm as [Ga Gb]; apply Forall_app; split; [exact Ga|exact (Forall_inv_tail Gb)]).
  set (st0 := {| mounts := a ++ b; heap := if commit then upd (heap st) g (gcommit (heap st g)) else heap st |}).
  assert (G0 : good st0).
  { split; [exact Gm'|]. split; [rewrite map_app in *; cbn [map] in N; apply NoDup_remove_1 in N; cbn [st0 mounts]; rewrite map_app; exact N|]. intros id. cbn [st0 heap]. destruct commit; [|apply O]. unfold upd. destruct (id =? g); [apply C|]; apply O. }
  pose proof (remake_ok (mkey m) (match b with [] => None | n :: _ => Some (mid n) end) (a ++ b) st0 G0 Gm') as K. exists a, m, b. split; [exact E|]. split; [exact M|]. split; [eapply kept_good; eauto|exact K].
Qed.

(** ** exists and haschildren *)
Lemma visible_none ms k : no_owner ms k -> existsb (fun m => beneath k (mkey m)) ms = true <-> visible ms k.
Proof.
  intros H. split.
  - intros E. destruct (first_beneath ms k H E []) as (m & Hm & Ow & Bm). rewrite app_nil_r in Ow. exists m. auto.
  - intros (m & Hm & Bm & _). apply existsb_exists. exists m. auto.
Qed.
Lemma visible_some a m b k : Forall (fun n => under (mkey n) k = false) a -> under (mkey m) k = true -> existsb (fun m => beneath k (mkey m)) a = true <-> visible (a ++ m :: b) k.
Proof.
  intros F U. split.
  - intros E. destruct (first_beneath a k F E (m :: b)) as (n & Hn & Ow & Bn). exists n. split; [apply in_app_iff; auto|auto].
  - intros (n & Hn & Bn & (c & d & p & Em & Fc & Ep & Sp)). apply existsb_exists. exists n. split; [|exact Bn]. rewrite app_nil_r in Ep. subst p.
    assert (Un : under (mkey m) (mkey n) = true) by (eapply under_trans; [exact U|]; unfold beneath in Bn; apply andb_true_iff in Bn; apply Bn).
    clear Hn. revert c Em Fc. induction a as [|x a IH]; intros c Em Fc.
    + exfalso. destruct c as [|y c]; injection Em as <- Em.
      * unfold beneath in Bn. rewrite U in Bn. destruct (under k (mkey m)); discriminate.
      * pose proof (Forall_inv Fc) as Q. cbn beta in Q. congruence.
    + destruct c as [|y c]; injection Em as <- Em; [left; reflexivity|]. right. apply (IH (Forall_inv_tail F) c Em (Forall_inv_tail Fc)).
Qed.
Lemma exists_ok st k : good_mounts (mounts st) -> NoDup (map mid (mounts st)) -> good_key k ->
  (mexists gget st k = true <-> mget st k <> None \/ visible (mounts st) k) /\
  (mhaschildren ghaschildren st k = true <->
     (exists m rest, owner (mounts st) k m rest /\ ghaschildren (heap st (mid m)) rest = true) \/ visible (mounts st) k).
Proof.
  intros G N K. unfold mexists, mhaschildren, MountModel.mget. pose proof (find_owner _ _ G K) as F. destruct (findmount (mounts st) k) as [m|] eqn:Ef.
  - destruct F as [Ow Hm]. pose proof Ow as (a & b & p & Em & Fa & Ep & Sp).
    assert (U : under (mkey m) k = true) by (rewrite Ep; apply same_lows in Sp; apply under_lows; eexists; rewrite lows_app, Sp; reflexivity).
    assert (Bm : beneath k (mkey m) = false) by (unfold beneath; rewrite U; apply andb_false_r). pose proof K as [Pk _].
    assert (V : has_subkey (mounts st) k (Some (mid m)) = true <-> visible (mounts st) k) by (rewrite Em in *; rewrite has_subkey_some by assumption; apply visible_some; assumption).
    split.
    + destruct (gget _ _); cbn [isnull negb]; [split; [left; discriminate|reflexivity]|]. rewrite V. split; [auto|]. intros [Q|Q]; [congruence|exact Q].
    + destruct (ghaschildren (heap st (mid m)) (trimkey (mkey m) k)) eqn:E.
      * split; [|reflexivity]. intros _. left. exists m, (trimkey (mkey m) k). auto.
      * rewrite V. split; [auto|]. intros [(m' & r' & Ow' & Q)|Q]; [|exact Q]. destruct (owner_find _ _ _ _ G K Ow') as [F1 F2]. rewrite Ef in F1. injection F1 as <-. rewrite F2 in E. congruence.
  - pose proof K as [Pk _]. rewrite has_subkey_none by assumption. pose proof (visible_none _ _ F) as V. split.
    + rewrite V. split; [auto|]. intros [Q|Q]; [|exact Q]. apply V. destruct (existsb _ _); [reflexivity|congruence].
    + rewrite V. split; [auto|]. intros [(m & r & Ow & _)|Q]; [|exact Q]. elim (owner_not_none _ _ _ _ Ow F).
Qed.
End Proofs.

(** ** The names shown where nothing is mounted *)
Lemma str_mem_In s l : str_mem s l = true <-> In s l.
Proof.
  unfold str_mem. rewrite existsb_exists. split.
  - intros (t & Ht & E). destruct (list_eq_dec ascii_dec s t) as [->|]; [exact Ht|discriminate].
  - intros H. exists s. split; [exact H|]. destruct (list_eq_dec ascii_dec s s); [reflexivity|congruence].
Qed.
Lemma last_of_first mk n x : Forall plain mk -> short mk -> nth_error mk n = Some x -> klast (kfirst mk (Z.of_nat n + 1)) 1 = [x].
Proof.
  intros P Sk E. rewrite kfirst_eq by lia. replace (Z.to_nat (Z.of_nat n + 1)) with (Datatypes.S n) by lia. rewrite plain_collapse by (apply Forall_firstn, P).
  assert (L : n < length mk) by (apply nth_error_Some; congruence).
  assert (F : firstn (Datatypes.S n) mk = firstn n mk ++ [x]).
  { clear P Sk L. revert mk E. induction n as [|n IH]; intros [|y mk] E; try discriminate; [injection E as ->; reflexivity|]. cbn [nth_error] in E. change (y :: firstn (Datatypes.S n) mk = y :: firstn n mk ++ [x]). f_equal. apply IH, E. }
  rewrite F. unfold klast. fold (removefirst (firstn n mk ++ [x]) (Z.of_nat (length (firstn n mk ++ [x])) - 1)). rewrite app_length, firstn_length_le by lia. cbn [length].
  replace (Z.of_nat (n + 1) - 1)%Z with (Z.of_nat n) by lia. rewrite removefirst_plain.
  - rewrite (skipn_app_len _ _ n 0); [reflexivity|]. rewrite firstn_length_le; lia.
  - rewrite <- F. apply Forall_firstn, P.
  - unfold short in *. rewrite app_length, firstn_length_le by lia. cbn [length]. lia.
Qed.
Definition child_step (k : key) (t : list bytes) (m : mount) : list bytes :=
  if (length k <? length (mkey m)) && issub k (mkey m)
  then let n := printable (klast (kfirst (mkey m) (Z.of_nat (length k) + 1)) 1) in if str_mem n t then t else t ++ [n]
  else t.
Lemma child_step_ok k m t : good_key k -> good_key (mkey m) -> NoDup t -> NoDup (child_step k t m) /\
  forall n, In n (child_step k t m) <-> In n t \/ (under k (mkey m) = true /\ nth_error (mkey m) (length k) = Some n).
Proof.
  intros [Pk Sk] [Pm Sm] N. unfold child_step. rewrite issub_under by assumption. destruct (Nat.ltb_spec (length k) (length (mkey m))) as [L|L]; cbn [andb].
  - destruct (under k (mkey m)) eqn:U.
    + destruct (nth_error (mkey m) (length k)) as [x|] eqn:E; [|apply nth_error_None in E; lia]. rewrite (last_of_first _ _ _ Pm Sm E). cbn zeta. cbn [printable]. destruct (str_mem x t) eqn:M.
      * apply str_mem_In in M. split; [exact N|]. intros n. split; [auto|]. intros [Q|(_ & Q)]; [exact Q|congruence].
      * assert (~ In x t) by (rewrite <- str_mem_In, M; discriminate). split.
        -- apply NoDup_app_intro; [exact N|constructor; [intros []|constructor]|]. intros y Hy [<-|[]]. contradiction.
        -- intros n. rewrite in_app_iff. cbn [In]. split; [intros [Q|[<-|[]]]; auto|]. intros [Q|(_ & Q)]; [auto|]. right. left. congruence.
    + split; [exact N|]. intros n. split; [auto|]. intros [Q|(Q & _)]; [exact Q|discriminate].
  - split; [exact N|]. intros n. split; [auto|]. intros [Q|(_ & Q)]; [exact Q|]. apply nth_error_None in L. congruence.
Qed.
Lemma children_ok ms k : good_mounts ms -> good_key k -> NoDup (virtual_children ms k) /\
  forall n, In n (virtual_children ms k) <-> exists m, In m ms /\ under k (mkey m) = true /\ nth_error (mkey m) (length k) = Some n.
Proof.
  intros G K. change (virtual_children ms k) with (fold_left (child_step k) ms []).
  assert (H : forall l t, good_mounts l -> NoDup t -> NoDup (fold_left (child_step k) l t) /\
    forall n, In n (fold_left (child_step k) l t) <-> In n t \/ exists m, In m l /\ under k (mkey m) = true /\ nth_error (mkey m) (length k) = Some n).
  { induction l as [|m l IH]; intros t Gl N; cbn [fold_left].
    - split; [exact N|]. intros n. split; [auto|]. intros [Q|(m & [] & _)]. exact Q.
    - destruct (child_step_ok k m t K (Forall_inv Gl) N) as [N1 I1]. destruct (IH _ (Forall_inv_tail Gl) N1) as [N2 I2]. split; [exact N2|]. intros n. rewrite I2, I1. split.
      + intros [[Q|Q]|(x & Hx & Q)]; [auto|right; exists m; split; [left; reflexivity|exact Q]|right; exists x; split; [right; exact Hx|exact Q]].
      + intros [Q|(x & [<-|Hx] & Q)]; [auto|auto|]. right. exists x. auto. }
  destruct (H ms [] G (NoDup_nil _)) as [A Bb]. split; [exact A|]. intros n. rewrite Bb. split; [intros [[]|Q]; exact Q|auto].
Qed.

(** ** Sets, and every state that can be reached *)
Section Reach.
Context {S : Type} (gget : S -> key -> option bytes) (gset : S -> key -> option bytes -> S)
  (grefresh : S -> S * bool) (gcommit : S -> S) (ok : S -> Prop) (law : lawful ok gget gset).
Lemma set_good st k v : good_state ok st -> good_key k -> good_state ok (mset gset st k v).
Proof.
  intros (G & N & O) K. unfold mset. pose proof (find_owner _ _ G K) as F. destruct (findmount (mounts st) k) as [m|]; [|repeat split; assumption].
  split; [exact G|]. split; [exact N|]. intros id. cbn [with_heap heap]. unfold upd. destruct (id =? mid m); [|apply O]. destruct law as [L1 _ _]. apply L1; [apply O|]. destruct K. rewrite trim_skipn by assumption. apply Forall_skipn. assumption.
Qed.
Lemma reach_good st ops st' : (forall s, ok s -> ok (fst (grefresh s))) -> (forall s, ok s -> ok (gcommit s)) ->
  reach gget gset grefresh gcommit st ops st' -> Forall mop_good ops -> good_state ok st -> good_state ok st'.
Proof.
  intros R C H. induction H as [st|st op st1 ops st2 H1 H2 IH]; intros F G; [exact G|]. apply IH; [exact (Forall_inv_tail F)|]. pose proof (Forall_inv F) as F1. clear IH F H2.
  destruct H1 as [k v|k g r Fr|g c st' E|st' Er|].
  - apply set_good; assumption.
  - apply (mountgen_ok gget gset grefresh gcommit (fun _ _ => true) ok law); assumption.
  - pose proof (unmount_ok gget gset gcommit (fun _ _ => true) ok law st g c G C) as U. rewrite E in U. destruct U as (a & m & b & _ & _ & U & _). exact U.
  - destruct G as (Gm & N & O). subst st'. unfold mrefresh. change (fun x m => _) with (refresh_one grefresh). 
    assert (X : forall l h b, (forall id, ok (h id)) -> forall id, ok (fst (fold_left (refresh_one grefresh) l (h, b)) id)).
    { induction l as [|m l IH]; intros h b Oh; cbn [fold_left]; [exact Oh|]. unfold refresh_one at 2. destruct b; [|apply IH, Oh]. destruct (grefresh (h (mid m))) as [s b] eqn:E. apply IH. intros id. unfold upd. destruct (id =? mid m); [|apply Oh]. specialize (R _ (Oh (mid m))). rewrite E in R. exact R. }
    specialize (X (mounts st) (heap st) true O). destruct (fold_left (refresh_one grefresh) (mounts st) (heap st, true)) as [h b]. split; [exact Gm|]. split; [exact N|exact X].
  - destruct G as (Gm & N & O). split; [exact Gm|]. split; [exact N|]. intros id. unfold mcommit. cbn [with_heap heap]. rewrite commit_ok by exact N. destruct (existsb _ _); [apply C|]; apply O.
Qed.
End Reach.

(** ** Recursive listings *)
Lemma under_comparable a b k : under a k = true -> under b k = true -> under a b = true \/ under b a = true.
Proof.
  revert b k. induction a as [|x a IH]; intros [|y b] [|z k] Ha Hb; cbn in *; auto; try discriminate. apply andb_true_iff in Ha, Hb. destruct Ha as [Ha1 Ha2], Hb as [Hb1 Hb2].
  assert (E : teq x y = true) by (apply teq_spec in Ha1, Hb1; apply teq_spec; congruence). rewrite (teq_sym y x), E. cbn. eapply IH; eassumption.
Qed.
Lemma findunder_some ms k f : good_mounts ms -> good_key k -> forall n, findunder ms k (Some f) n = (Some f, n + length (filter (fun m => under k (mkey m)) ms)).
Proof.
  intros G [Pk _]. induction G as [|m ms [Pm _] _ IH]; intros n; cbn [findunder filter]; [rewrite Nat.add_0_r; reflexivity|]. rewrite andb_false_r, issub_under by assumption. destruct (under k (mkey m)); rewrite IH; cbn [length]; [|reflexivity]. f_equal. lia.
Qed.
Lemma findunder_ok ms k : good_mounts ms -> good_key k -> forall n,
  match findunder ms k None n with
  | (Some m, n') => exists newer older, ms = newer ++ m :: older /\ Forall (fun x => under (mkey x) k = false) newer /\ under (mkey m) k = true /\ n' = S (n + length (filter (fun m => under k (mkey m)) (newer ++ older)))
  | (None, _) => no_owner ms k
  end.
Proof.
  intros G K. pose proof K as [Pk _]. induction G as [|m ms [Pm Sm] Gm IH]; intros n; cbn [findunder]; [constructor|]. rewrite !issub_under by assumption. destruct (under (mkey m) k) eqn:U; cbn [andb].
  - rewrite findunder_some by assumption. exists [], ms. cbn [app]. auto.
  - destruct (under k (mkey m)) eqn:V.
    + specialize (IH (S n)). destruct (findunder ms k None (S n)) as [[f|] n']; [|constructor; assumption]. destruct IH as (a & b & -> & F & U2 & ->). exists (m :: a), b. split; [reflexivity|]. split; [constructor; assumption|]. split; [exact U2|]. cbn [app filter]. rewrite V. cbn [length]. lia.
    + specialize (IH n). destruct (findunder ms k None n) as [[f|] n']; [|constructor; assumption]. destruct IH as (a & b & -> & F & U2 & ->). exists (m :: a), b. split; [reflexivity|]. split; [constructor; assumption|]. split; [exact U2|]. cbn [app filter]. rewrite V. reflexivity.
Qed.
Lemma filter_none {A} (f : A -> bool) l : length (filter f l) = 0 <-> Forall (fun x => f x = false) l.
Proof.
  induction l as [|x l IH]; cbn; [split; auto|]. destruct (f x) eqn:E; cbn.
  - split; [discriminate|]. intros H. apply Forall_inv in H. congruence.
  - rewrite IH. split; [auto|apply Forall_inv_tail].
Qed.
