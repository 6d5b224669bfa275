(** Proofs about sorting iterators. *)
From Verif Require Import Base BaseFacts SortSpec SortModel.
From Coq Require Import NArith ZArith Sorted Permutation Lia.
Local Open Scope N_scope.

Lemma write_at (p q : arr) c v : write (p ++ c :: q) (length p) v = Ok (p ++ Some v :: q).
Proof. induction p as [|x p IH]; cbn [app length write]; [reflexivity|]. rewrite IH. reflexivity. Qed.
Lemma copy_at : forall l r (p : arr), copy (p ++ repeat None (S r)) (length p) l r = Ok (p ++ map Some (firstn r l) ++ repeat None (S (r - length l)), (length p + length (firstn r l))%nat, (r - length l)%nat).
Proof.
  induction l as [|x l IH]; intros r p.
  - rewrite firstn_nil. cbn [copy map app length]. rewrite Nat.sub_0_r, Nat.add_0_r. reflexivity.
  - destruct r as [|r]; cbn [copy firstn map app length]; [rewrite Nat.add_0_r; reflexivity|].
    change (repeat None (S (S r))) with ((None : option N) :: repeat None (S r)). rewrite write_at. cbn [bind].
    replace (p ++ Some x :: repeat None (S r)) with ((p ++ [Some x]) ++ repeat None (S r)) by (rewrite <- app_assoc; reflexivity).
    replace (S (length p)) with (length (p ++ [Some x])) by (rewrite app_length; cbn; lia). rewrite IH, app_length, <- app_assoc. cbn [app length Nat.sub]. do 3 f_equal. lia.
Qed.
Lemma cells_at (l : list N) q : cells (map Some l ++ q) (length l) = Ok l.
Proof. induction l as [|x l IH]; cbn [map app length cells]; [destruct q; reflexivity|]. rewrite IH. reflexivity. Qed.
Lemma visit_at (l : list N) q : ~ In 0 l -> visit (map Some l ++ Some 0 :: q) = Ok l.
Proof. induction l as [|x l IH]; intros N; cbn [map app visit]; [reflexivity|]. destruct (N.eqb_spec x 0) as [->|_]; [elim N; left; reflexivity|]. rewrite IH by (intros X; apply N; right; exact X). reflexivity. Qed.
Lemma skipn_at {X} (a b : list X) n : n = length a -> skipn n (a ++ b) = b.
Proof. intros ->. induction a; [reflexivity|exact IHa]. Qed.

Section P.
Context (qsort : list N -> tree) (cmps : table) (f : nat -> N -> N -> Z) (W : lawful qsort) (K : forall c, consistent (f c))
  (H : forall c a b, a <> 0 -> b <> 0 -> computes f (cmps c a b) (f c a b)).
Notation rewind := (rewind qsort cmps).

(** Everything but the comparisons *)
Lemma rewind_S fuel g l1 l2 c : rewind (S fuel) g l1 l2 c =
  let s := firstn (length l1) l2 in
  let! (_, l) := run_tree (magic_compare cmps (rewind fuel)) (Some c) (qsort s) in
  Ok (g, Some 0 :: map Some l ++ Some 0 :: repeat None (length l1 - length l2)).
Proof.
  cbn [SortModel.rewind]. replace (length l1 + 2)%nat with (S (S (length l1))) by lia. cbn [repeat write bind].
  pose proof (copy_at l2 (length l1) [Some 0]) as E. cbn [app length repeat] in E. rewrite E. cbn [bind].
  change (Some 0 :: map Some (firstn (length l1) l2) ++ None :: repeat None (length l1 - length l2)) with ((Some 0 :: map Some (firstn (length l1) l2)) ++ None :: repeat None (length l1 - length l2)).
  replace (1 + length (firstn (length l1) l2))%nat with (length (Some 0 :: map Some (firstn (length l1) l2))) by (cbn [length]; rewrite map_length; reflexivity).
  rewrite write_at. cbn [bind app tl hd].
  assert (L : (if Nat.eqb (length l1 - length l2) 0 then length l1 else length l1 - (length l1 - length l2))%nat = length (firstn (length l1) l2)) by (rewrite firstn_length; destruct (Nat.eqb_spec (length l1 - length l2) 0); lia).
  rewrite L, cells_at. cbn [bind]. cbv zeta. destruct (run_tree _ _ _) as [[g' l]| |]; cbn [bind]; try reflexivity.
  unfold put. rewrite skipn_at by (rewrite map_length; reflexivity). reflexivity.
Qed.

Definition good fuel := forall g l1 l2 c, ~ In 0 l2 -> (exists a s, rewind fuel g l1 l2 c = Ok (g, a) /\ visited a = Ok s /\ sorted (f c) l1 l2 s) \/ rewind fuel g l1 l2 c = NoFuel.

Lemma prog_at fuel (G : good fuel) z : forall p g, computes f p z -> run_prog (rewind fuel) g p = Ok (g, z) \/ run_prog (rewind fuel) g p = NoFuel.
Proof.
  induction p as [z'|l1 l2 c k IH]; intros g C; cbn [run_prog computes] in *; [left; congruence|]. destruct C as (N & C).
  destruct (G g l1 l2 c N) as [(a & s & E & V & S)|E]; rewrite E; cbn [bind]; [|right; reflexivity]. rewrite V. cbn [bind]. apply IH, C, S.
Qed.
Lemma tree_at fuel (G : good fuel) c l : ~ In 0 l -> forall t, asks l t ->
  run_tree (magic_compare cmps (rewind fuel)) (Some c) t = Ok (Some c, eval (f c) t) \/ run_tree (magic_compare cmps (rewind fuel)) (Some c) t = NoFuel.
Proof.
  intros N. induction t as [r|a b k IH]; intros A; cbn [run_tree eval asks] in *; [left; reflexivity|]. destruct A as (Ia & Ib & A). cbn [magic_compare].
  destruct (prog_at fuel G (f c a b) (cmps c a b) (Some c)) as [E|E]; [apply H; intros ->; contradiction| |]; rewrite E; cbn [bind]; [apply IH, A|right; reflexivity].
Qed.
Lemma In_first {X} (x : X) n l : In x (firstn n l) -> In x l.
Proof. intros I. rewrite <- (firstn_skipn n l). apply in_or_app. auto. Qed.
Lemma all_good : forall fuel, good fuel.
Proof.
  induction fuel as [|fuel IH]; intros g l1 l2 c N; [right; reflexivity|]. rewrite rewind_S. cbv zeta.
  set (l := firstn (length l1) l2). assert (Nl : ~ In 0 l) by (intros X; apply N; eapply In_first; exact X).
  destruct (W l) as (A & B). destruct (B (f c) (K c)) as (P & S).
  destruct (tree_at fuel IH c l Nl (qsort l) A) as [E|E]; rewrite E; cbn [bind]; [|right; reflexivity]. left.
  eexists _, _. split; [reflexivity|]. split; [cbn [visited]; apply visit_at|split; [exact P|exact S]]. intros X. apply Nl. eapply Permutation_in; [exact P|exact X].
Qed.

Context (level : nat -> nat) (D : forall c a b, below level (level c) (cmps c a b)).
Lemma prog_ends fuel n (G : forall g l1 l2 c, (level c < n)%nat -> ~ In 0 l2 -> rewind fuel g l1 l2 c <> NoFuel) z : forall p g, below level n p -> computes f p z -> run_prog (rewind fuel) g p <> NoFuel.
Proof.
  induction p as [z'|l1 l2 c k IH]; intros g B C; cbn [run_prog computes below] in *; [discriminate|]. destruct C as (N & C). destruct B as (L & B).
  destruct (all_good fuel g l1 l2 c N) as [(a & s & E & V & S)|E]; [|elim (G _ _ _ _ L N E)]. rewrite E. cbn [bind]. rewrite V. cbn [bind]. apply IH; [apply B|apply C, S].
Qed.
Lemma ends : forall fuel g l1 l2 c, (level c < fuel)%nat -> ~ In 0 l2 -> rewind fuel g l1 l2 c <> NoFuel.
Proof.
  induction fuel as [|fuel IH]; intros g l1 l2 c L N; [lia|]. rewrite rewind_S. cbv zeta. set (l := firstn (length l1) l2). assert (Nl : ~ In 0 l) by (intros X; apply N; eapply In_first; exact X). destruct (W l) as (A & _). revert A. generalize (qsort l) as t.
  assert (T : forall t, asks l t -> run_tree (magic_compare cmps (rewind fuel)) (Some c) t <> NoFuel).
  { induction t as [r|a b k IHt]; intros A; cbn [run_tree asks] in *; [discriminate|]. destruct A as (Ia & Ib & A). cbn [magic_compare].
    assert (C : computes f (cmps c a b) (f c a b)) by (apply H; intros ->; contradiction).
    destruct (prog_at fuel (all_good fuel) (f c a b) (cmps c a b) (Some c) C) as [E|E]; [rewrite E; cbn [bind]; apply IHt, A|].
    elim (prog_ends fuel (level c)) with (z := f c a b) (p := cmps c a b) (g := Some c); [|apply D|exact C|exact E]. intros g' m1 m2 c' L' N'. apply IH; [lia|exact N']. }
  intros t A. specialize (T t A). destruct (run_tree _ _ _) as [[g' s]| |]; cbn [bind]; congruence.
Qed.
End P.

(** A qsort() that is as the standard says: insertion *)
Fixpoint ins (x : N) (l : list N) (k : list N -> tree) : tree :=
  match l with [] => k [x] | y :: r => Ask x y (fun z => if (z <=? 0)%Z then k (x :: y :: r) else ins x r (fun s => k (y :: s))) end.
Fixpoint isort (l : list N) (k : list N -> tree) : tree := match l with [] => k [] | x :: r => isort r (fun s => ins x s k) end.
Definition qins (l : list N) : tree := isort l Done.
Fixpoint pins f (x : N) (l : list N) : list N := match l with [] => [x] | y :: r => if (f x y <=? 0)%Z then x :: y :: r else y :: pins f x r end.
Lemma eval_ins f x : forall l k, eval f (ins x l k) = eval f (k (pins f x l)).
Proof. induction l as [|y r IH]; intros k; cbn [ins eval pins]; [reflexivity|]. destruct (f x y <=? 0)%Z; [reflexivity|apply IH]. Qed.
Lemma eval_isort f : forall l k, eval f (isort l k) = eval f (k (fold_right (pins f) [] l)).
Proof. induction l as [|x r IH]; intros k; cbn [isort fold_right]; [reflexivity|]. rewrite IH. apply eval_ins. Qed.
Lemma pins_perm f x l : Permutation (pins f x l) (x :: l).
Proof. induction l as [|y r IH]; cbn [pins]; [auto|]. destruct (f x y <=? 0)%Z; [auto|]. rewrite IH. apply perm_swap. Qed.
Lemma pins_sorted f x l : consistent f -> StronglySorted (le f) l -> StronglySorted (le f) (pins f x l).
Proof.
  intros (T & R). induction l as [|y r IH]; intros S; cbn [pins]; [repeat constructor|]. apply StronglySorted_inv in S as (S & F). destruct (Z.leb_spec (f x y) 0) as [L|L].
  - constructor; [constructor; assumption|]. constructor; [exact L|]. eapply Forall_impl; [|exact F]. intros a. apply R. exact L.
  - constructor; [apply IH, S|]. eapply Permutation_Forall; [symmetry; apply pins_perm|]. constructor; [|exact F]. destruct (T x y) as [X|X]; [unfold le in X; lia|exact X].
Qed.
Lemma asks_ins (l0 : list N) x : In x l0 -> forall l k, incl l l0 -> (forall s, incl s l0 -> asks l0 (k s)) -> asks l0 (ins x l k).
Proof.
  intros Ix. induction l as [|y r IH]; intros k I Hk; cbn [ins asks]; [apply Hk; intros z [<-|[]]; exact Ix|]. split; [exact Ix|]. split; [apply I; left; reflexivity|]. intros z. destruct (z <=? 0)%Z.
  - apply Hk. intros w [<-|X]; [exact Ix|apply I, X].
  - apply IH; [intros w X; apply I; right; exact X|]. intros s Is. apply Hk. intros w [<-|X]; [apply I; left; reflexivity|apply Is, X].
Qed.
Lemma asks_isort (l0 : list N) : forall l k, incl l l0 -> (forall s, incl s l0 -> asks l0 (k s)) -> asks l0 (isort l k).
Proof.
  induction l as [|x r IH]; intros k I Hk; cbn [isort]; [apply Hk; intros z []|]. apply IH; [intros w X; apply I; right; exact X|]. intros s Is. apply asks_ins; [apply I; left; reflexivity|exact Is|exact Hk].
Qed.
Lemma qins_lawful : lawful qins.
Proof.
  intros l. split; [apply asks_isort; [apply incl_refl|intros; exact I]|]. intros f C. unfold qins. rewrite eval_isort. cbn [eval]. induction l as [|x r (P & S)]; cbn [fold_right]; [split; constructor|]. split; [rewrite pins_perm; constructor; exact P|apply pins_sorted; assumption].
Qed.
