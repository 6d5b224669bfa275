(** Proofs about WvMatrix. *)
From Verif Require Import Base MatrixSpec MatrixModel.
Local Open Scope Z_scope.

Lemma idx_lt (m n i j : nat) : (i < m -> j < n -> n * i + j < m * n)%nat.
Proof. nia. Qed.
Lemma idx_inj (n i j i' j' : nat) : (j < n -> j' < n -> n * i + j = n * i' + j' -> i = i' /\ j = j')%nat.
Proof. intros H H' E. apply (Nat.div_mod_unique n) in E; [|exact H|exact H']. exact E. Qed.

Lemma get_ok x i j : wf x -> (i < rows x)%nat -> (j < cols x)%nat -> get x i j = Ok (entry x i j).
Proof.
  intros [W|(l & D & L)] I J; [nia|]. unfold entry, get. rewrite D. pose proof (idx_lt _ _ _ _ I J) as B.
  destruct (nth_error l (cols x * i + j)) eqn:E; [reflexivity|]. apply nth_error_None in E. lia.
Qed.

Lemma int_ok x : int_range x -> int x = Ok x.
Proof. unfold int_range, int. intros H. destruct (Z.leb_spec (- 2 ^ 31) x); [|lia]. destruct (Z.ltb_spec x (2 ^ 31)); [|lia]. reflexivity. Qed.

Lemma nth_put (l : list Z) k v k' : (k < length l)%nat ->
  length (firstn k l ++ v :: skipn (S k) l) = length l /\
  nth_error (firstn k l ++ v :: skipn (S k) l) k' = if Nat.eqb k' k then Some v else nth_error l k'.
Proof.
  intros L. split; [rewrite app_length; cbn [length]; rewrite firstn_length, skipn_length; lia|].
  destruct (Nat.eqb_spec k' k) as [->|N].
  - rewrite nth_error_app2 by (rewrite firstn_length; lia). rewrite firstn_length, Nat.min_l, Nat.sub_diag by lia. reflexivity.
  - destruct (Nat.lt_ge_cases k' k).
    + rewrite nth_error_app1 by (rewrite firstn_length; lia). rewrite <- (firstn_skipn k l) at 2. rewrite nth_error_app1 by (rewrite firstn_length; lia). reflexivity.
    + rewrite nth_error_app2 by (rewrite firstn_length; lia). rewrite firstn_length, Nat.min_l by lia. destruct (k' - k)%nat eqn:E; [lia|]. cbn [nth_error].
      rewrite <- (firstn_skipn (S k) l) at 2. rewrite nth_error_app2 by (rewrite firstn_length; lia). rewrite firstn_length, Nat.min_l by lia. f_equal. lia.
Qed.

Lemma set_ok x i j v : wf x -> (i < rows x)%nat -> (j < cols x)%nat ->
  exists x', set x i j v = Ok x' /\ wf x' /\ rows x' = rows x /\ cols x' = cols x /\
    forall i' j', (j' < cols x)%nat -> entry x' i' j' = if (Nat.eqb i' i && Nat.eqb j' j)%bool then v else entry x i' j'.
Proof.
  intros [W|(l & D & L)] I J; [nia|]. unfold set. rewrite D. pose proof (idx_lt _ _ _ _ I J) as B.
  destruct (Nat.ltb_spec (cols x * i + j) (length l)) as [Q|Q]; [|lia]. eexists. split; [reflexivity|]. cbn [rows cols].
  split; [right; eexists; split; [reflexivity|]; cbn [rows cols]; rewrite (proj1 (nth_put l _ v 0 Q)); exact L|]. split; [reflexivity|]. split; [reflexivity|].
  intros i' j' J'. unfold entry, get. cbn [data cols]. rewrite D. rewrite (proj2 (nth_put l _ v _ Q)).
  destruct (Nat.eqb_spec (cols x * i' + j') (cols x * i + j)) as [E|E].
  - apply idx_inj in E; [|exact J'|exact J]. destruct E as [-> ->]. rewrite !Nat.eqb_refl. reflexivity.
  - destruct (Nat.eqb_spec i' i) as [->|]; [|reflexivity]. destruct (Nat.eqb_spec j' j) as [->|]; [congruence|reflexivity].
Qed.

Lemma sum_ext n f g : (forall i, (i < n)%nat -> f i = g i) -> sum n f = sum n g.
Proof. induction n as [|n IH]; intros H; cbn [sum]; [reflexivity|]. rewrite IH, H by auto with arith. reflexivity. Qed.

Lemma dot_ok a b i j : wf a -> wf b -> cols a = rows b -> (i < rows a)%nat -> (j < cols b)%nat ->
  (forall l, (l < cols a)%nat -> int_range (entry a i l * entry b l j) /\ int_range (sum (S l) (fun l => entry a i l * entry b l j))) ->
  forall k l, (k + l = cols a)%nat -> dot k l (sum l (fun l => entry a i l * entry b l j)) a b i j = Ok (sum (cols a) (fun l => entry a i l * entry b l j)).
Proof.
  intros WA WB E I J F. induction k as [|k IH]; intros l K; cbn [dot]; [do 2 f_equal; lia|].
  rewrite get_ok by (assumption || lia). cbn [bind]. rewrite get_ok by (assumption || lia). cbn [bind].
  destruct (F l) as [F1 F2]; [lia|]. rewrite int_ok by exact F1. cbn [bind]. cbn [sum] in F2. rewrite int_ok by exact F2. cbn [bind]. apply (IH (S l)). lia.
Qed.

Lemma col_ok a b i : wf a -> wf b -> cols a = rows b -> (i < rows a)%nat ->
  (forall j l, (j < cols b)%nat -> (l < cols a)%nat -> int_range (entry a i l * entry b l j) /\ int_range (sum (S l) (fun l => entry a i l * entry b l j))) ->
  forall k j r, wf r -> rows r = rows a -> cols r = cols b -> (k + j = cols b)%nat ->
  exists r', col_loop k j r a b i = Ok r' /\ wf r' /\ rows r' = rows a /\ cols r' = cols b /\
    forall i' j', (j' < cols b)%nat -> entry r' i' j' = if (Nat.eqb i' i && Nat.leb j j')%bool then product (cols a) (entry a) (entry b) i j' else entry r i' j'.
Proof.
  intros WA WB E I F. induction k as [|k IH]; intros j r WR R C K; cbn [col_loop].
  - exists r. split; [reflexivity|]. split; [exact WR|]. split; [exact R|]. split; [exact C|]. intros i' j' J'.
    destruct (Nat.leb_spec j j'); [lia|]. rewrite andb_false_r. reflexivity.
  - pose proof (dot_ok a b i j WA WB E I ltac:(lia) ltac:(intros l L; apply F; lia) (cols a) 0 ltac:(lia)) as D. cbn [sum] in D. rewrite D. cbn [bind].
    destruct (set_ok r i j (sum (cols a) (fun l => entry a i l * entry b l j)) WR) as (r1 & S1 & W1 & R1 & C1 & G1); [lia|lia|]. rewrite S1. cbn [bind].
    destruct (IH (S j) r1 W1 ltac:(congruence) ltac:(congruence) ltac:(lia)) as (r2 & S2 & W2 & R2 & C2 & G2). exists r2. split; [exact S2|]. split; [exact W2|]. split; [exact R2|]. split; [exact C2|].
    intros i' j' J'. rewrite G2 by exact J'. rewrite G1 by lia. destruct (Nat.eqb_spec i' i) as [->|]; cbn [andb]; [|reflexivity].
    destruct (Nat.leb_spec (S j) j'); destruct (Nat.leb_spec j j'); destruct (Nat.eqb_spec j' j); subst; try lia; reflexivity.
Qed.

Lemma row_ok a b : wf a -> wf b -> cols a = rows b -> fits (rows a) (cols a) (cols b) (entry a) (entry b) ->
  forall k i r, wf r -> rows r = rows a -> cols r = cols b -> (k + i = rows a)%nat ->
  exists r', row_loop k i r a b = Ok r' /\ wf r' /\ rows r' = rows a /\ cols r' = cols b /\
    forall i' j', (i' < rows a)%nat -> (j' < cols b)%nat -> entry r' i' j' = if Nat.leb i i' then product (cols a) (entry a) (entry b) i' j' else entry r i' j'.
Proof.
  intros WA WB E F. induction k as [|k IH]; intros i r WR R C K; cbn [row_loop].
  - exists r. split; [reflexivity|]. split; [exact WR|]. split; [exact R|]. split; [exact C|]. intros i' j' I' J'. destruct (Nat.leb_spec i i'); [lia|reflexivity].
  - rewrite C. destruct (col_ok a b i WA WB E ltac:(lia) ltac:(intros j l J L; apply F; lia) (cols b) 0 r WR R C ltac:(lia)) as (r1 & S1 & W1 & R1 & C1 & G1). rewrite S1. cbn [bind].
    destruct (IH (S i) r1 W1 R1 C1 ltac:(lia)) as (r2 & S2 & W2 & R2 & C2 & G2). exists r2. split; [exact S2|]. split; [exact W2|]. split; [exact R2|]. split; [exact C2|].
    intros i' j' I' J'. rewrite G2, G1 by assumption. change (Nat.leb 0 j') with true. rewrite andb_true_r.
    destruct (Nat.leb_spec (S i) i'); destruct (Nat.leb_spec i i'); destruct (Nat.eqb_spec i' i); subst; try lia; reflexivity.
Qed.

Lemma create_ok m n : exists r, create m n None = Ok r /\ wf r /\ rows r = m /\ cols r = n /\ forall i j, (i < m)%nat -> (j < n)%nat -> entry r i j = 0.
Proof.
  unfold create. destruct (Nat.eqb_spec m 0) as [->|M]; cbn [orb]; [eexists; split; [reflexivity|]; split; [left; cbn; lia|]; cbn; repeat split; lia|].
  destruct (Nat.eqb_spec n 0) as [->|N]; [eexists; split; [reflexivity|]; split; [left; cbn; lia|]; cbn; repeat split; lia|].
  eexists. split; [reflexivity|]. split; [right; eexists; split; [reflexivity|]; cbn [rows cols]; apply repeat_length|]. split; [reflexivity|]. split; [reflexivity|].
  intros i j I J. unfold entry, get. cbn [data cols]. destruct (nth_error _ _) as [v|] eqn:E; [|reflexivity]. apply nth_error_In, repeat_spec in E. exact E.
Qed.

Lemma copy_ok x : wf x -> exists y, copy x = Ok y /\ wf y /\ rows y = rows x /\ cols y = cols x /\
  (exists l, data y = Some l /\ length l = (rows x * cols x)%nat) /\ forall i j, (i < rows x)%nat -> (j < cols x)%nat -> entry y i j = entry x i j.
Proof.
  intros W. unfold copy, fresh_copy. destruct (rows x * cols x)%nat as [|k] eqn:E.
  - cbn [repeat bind]. eexists. split; [reflexivity|]. split; [left; exact E|]. split; [reflexivity|]. split; [reflexivity|]. split; [exists []; auto|]. intros. nia.
  - destruct W as [W|(l & D & L)]; [lia|]. rewrite D, L, E, Nat.ltb_irrefl. cbn [orb bind]. rewrite Nat.sub_diag. cbn [repeat]. rewrite app_nil_r.
    rewrite firstn_all2 by lia. eexists. split; [reflexivity|]. split; [right; exists l; cbn; auto|]. split; [reflexivity|]. split; [reflexivity|].
    split; [exists l; cbn; split; [reflexivity|lia]|]. intros i j I J. unfold entry, get. rewrite D. reflexivity.
Qed.

Lemma add_ok mine : forall k i r, (k + i = length r)%nat -> length mine = length r ->
  (forall q, (i <= q < length r)%nat -> int_range (nth q r 0 + nth q mine 0)) ->
  exists r', add_loop k i r mine = Ok r' /\ length r' = length r /\
    forall q, (q < length r)%nat -> nth q r' 0 = if Nat.leb i q then nth q r 0 + nth q mine 0 else nth q r 0.
Proof.
  induction k as [|k IH]; intros i r K L F; cbn [add_loop].
  - exists r. split; [reflexivity|]. split; [reflexivity|]. intros q Q. destruct (Nat.leb_spec i q); [lia|reflexivity].
  - rewrite (nth_error_nth' r 0) by lia. rewrite (nth_error_nth' mine 0) by lia. rewrite int_ok by (apply F; lia). cbn [bind].
    set (v := nth i r 0 + nth i mine 0). assert (Q0 : (i < length r)%nat) by lia.
    pose proof (fun q => nth_put r i v q Q0) as P. set (r1 := firstn i r ++ v :: skipn (S i) r) in *.
    assert (L1 : length r1 = length r) by apply (P 0%nat).
    assert (N1 : forall q, (q < length r)%nat -> nth q r1 0 = if Nat.eqb q i then v else nth q r 0).
    { intros q Q. destruct (P q) as [_ Pq]. rewrite (nth_error_nth' r1 0), (nth_error_nth' r 0) in Pq by lia. destruct (Nat.eqb q i); congruence. }
    destruct (IH (S i) r1) as (r2 & A & L2 & G); [lia|lia| |].
    + intros q Q. rewrite N1 by lia. destruct (Nat.eqb_spec q i) as [->|]; [lia|apply F; lia].
    + exists r2. split; [exact A|]. split; [lia|]. intros q Q. rewrite G, N1 by lia. unfold v.
      destruct (Nat.leb_spec (S i) q); destruct (Nat.leb_spec i q); destruct (Nat.eqb_spec q i); subst; try lia; reflexivity.
Qed.

Lemma entry_nth x l i j : data x = Some l -> length l = (rows x * cols x)%nat -> (i < rows x)%nat -> (j < cols x)%nat -> entry x i j = nth (cols x * i + j) l 0.
Proof. intros D L I J. unfold entry, get. rewrite D. rewrite (nth_error_nth' l 0); [reflexivity|]. rewrite L. apply idx_lt; assumption. Qed.

(** ** Algebra *)
Lemma sum_scale n f c : sum n (fun i => c * f i) = c * sum n f.
Proof. induction n as [|n IH]; cbn [sum]; [lia|]. rewrite IH. lia. Qed.
Lemma sum_plus n f g : sum n (fun i => f i + g i) = sum n f + sum n g.
Proof. induction n as [|n IH]; cbn [sum]; [lia|]. rewrite IH. lia. Qed.
Lemma sum_zero n : sum n (fun _ => 0) = 0.
Proof. induction n as [|n IH]; cbn [sum]; lia. Qed.
Lemma sum_swap n m f : sum n (fun i => sum m (fun j => f i j)) = sum m (fun j => sum n (fun i => f i j)).
Proof. induction n as [|n IH]; cbn [sum]; [symmetry; apply sum_zero|]. rewrite IH, <- sum_plus. reflexivity. Qed.
Lemma product_assoc k l a b c i j : product l (product k a b) c i j = product k a (product l b c) i j.
Proof.
  unfold product. rewrite (sum_ext l _ (fun q => sum k (fun p => a i p * (b p q * c q j)))).
  2:{ intros q _. rewrite Z.mul_comm, <- sum_scale. apply sum_ext. intros; lia. }
  rewrite sum_swap. apply sum_ext. intros p _. rewrite <- sum_scale. reflexivity.
Qed.
Lemma product_plus k a b c i j : product k a (fun x y => b x y + c x y) i j = product k a b i j + product k a c i j.
Proof. unfold product. rewrite <- sum_plus. apply sum_ext. intros; lia. Qed.
