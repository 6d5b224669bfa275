(** C89: WvMatrix computes sums and products of matrices. *)
From Verif Require Import Base MatrixSpec MatrixModel MatrixProofs.
Local Open Scope Z_scope.

(** A matrix made from an array has its numbers row by row. *)
Theorem C89_create : forall m n l, (m * n <= length l)%nat -> exists x, create m n (Some l) = Ok x /\ wf x /\ rows x = m /\ cols x = n /\
  forall i j, (i < m)%nat -> (j < n)%nat -> get x i j = Ok (nth (n * i + j) l 0).
Proof.
  intros m n l L. unfold create. destruct (Nat.eqb_spec m 0) as [->|M]; cbn [orb]; [eexists; split; [reflexivity|]; split; [left; cbn; lia|]; split; [reflexivity|]; split; [reflexivity|]; lia|].
  destruct (Nat.eqb_spec n 0) as [->|N]; [eexists; split; [reflexivity|]; split; [left; cbn; lia|]; split; [reflexivity|]; split; [reflexivity|]; lia|].
  destruct (Nat.ltb_spec (length l) (m * n)); [lia|]. eexists. split; [reflexivity|].
  assert (LF : length (firstn (m * n) l) = (m * n)%nat) by (rewrite firstn_length; lia).
  split; [right; eexists; split; [reflexivity|exact LF]|]. split; [reflexivity|]. split; [reflexivity|].
  intros i j I J. unfold get. cbn [data cols]. pose proof (idx_lt _ _ _ _ I J). rewrite (nth_error_nth' _ 0) by lia. f_equal.
  rewrite <- (firstn_skipn (m * n) l) at 2. rewrite app_nth1 by lia. reflexivity.
Qed.
Print Assumptions C89_create.

(** The sum of two matrices of one shape, if no sum overflows. *)
Theorem C89_plus : forall a b, wf a -> wf b -> rows a = rows b -> cols a = cols b ->
  (forall i j, (i < rows a)%nat -> (j < cols a)%nat -> int_range (entry b i j + entry a i j)) ->
  exists c, plus a b = Ok c /\ wf c /\ rows c = rows a /\ cols c = cols a /\
    forall i j, (i < rows a)%nat -> (j < cols a)%nat -> get c i j = Ok (entry a i j + entry b i j).
Proof.
  intros a b WA WB R C F. unfold plus. destruct (copy_ok b WB) as (r & CP & WR & RR & CR & (rd & DR & LR) & G). rewrite CP. cbn [bind].
  rewrite R, C, !Nat.eqb_refl. cbn [andb negb]. rewrite DR. destruct (data a) as [td|] eqn:DA.
  - destruct WA as [WA|(l & D & L)].
    + rewrite <- R, <- C, WA. cbn [add_loop bind]. eexists. split; [reflexivity|]. cbn [rows cols]. split; [left; cbn; nia|]. split; [congruence|]. split; [congruence|]. intros; nia.
    + assert (l = td) by congruence. subst l. rewrite <- LR.
      destruct (add_ok td (length rd) 0 rd) as (d & A & LD & N); [lia|rewrite LR, L, R, C; reflexivity| |].
      * intros q [_ Q]. rewrite LR in Q. assert (NC : cols b <> 0%nat) by nia.
        set (i := (q / cols b)%nat). set (j := (q mod cols b)%nat).
        assert (E : q = (cols b * i + j)%nat) by (apply Nat.div_mod; exact NC). assert (J : (j < cols b)%nat) by (apply Nat.mod_upper_bound; exact NC).
        assert (I : (i < rows b)%nat) by (apply Nat.div_lt_upper_bound; lia). specialize (F i j ltac:(lia) ltac:(lia)).
        rewrite <- (G i j I J) in F. rewrite (entry_nth r rd i j DR) in F by (rewrite ?RR, ?CR; assumption). rewrite (entry_nth a td i j DA L) in F by lia.
        rewrite CR in F. rewrite C in F. rewrite <- E in F. exact F.
      * rewrite A. cbn [bind]. eexists. split; [reflexivity|]. cbn [rows cols].
        assert (W : wf (Matrix (rows r) (cols r) (Some d))) by (right; eexists; split; [reflexivity|]; cbn [rows cols]; rewrite LD, LR, RR, CR; reflexivity).
        split; [exact W|]. split; [congruence|]. split; [congruence|]. intros i j I J. rewrite get_ok; [|exact W|cbn; lia|cbn; lia]. f_equal.
        pose proof (idx_lt _ _ _ _ I J) as B.
        rewrite (entry_nth _ d) by (cbn [data rows cols]; try reflexivity; try lia; rewrite LD, LR, RR, CR; reflexivity). cbn [cols]. rewrite CR.
        rewrite N by (rewrite LR; nia). cbn [Nat.leb]. rewrite <- (G i j) by lia. rewrite (entry_nth r rd i j DR) by (rewrite ?RR, ?CR; (assumption || lia)).
        rewrite (entry_nth a td i j DA L) by lia. rewrite CR, C. lia.
  - destruct WA as [WA|(l & D & L)]; [|congruence]. eexists. split; [reflexivity|]. split; [exact WR|]. split; [congruence|]. split; [congruence|]. intros; nia.
Qed.
Print Assumptions C89_plus.

(** The product, if the numbers of columns and rows agree and nothing overflows. *)
Theorem C89_times : forall a b, wf a -> wf b -> cols a = rows b -> fits (rows a) (cols a) (cols b) (entry a) (entry b) ->
  exists c, times a b = Ok c /\ wf c /\ rows c = rows a /\ cols c = cols b /\
    forall i j, (i < rows a)%nat -> (j < cols b)%nat -> get c i j = Ok (product (cols a) (entry a) (entry b) i j).
Proof.
  intros a b WA WB E F. unfold times. destruct (create_ok (rows a) (cols b)) as (r & CR & WR & R & C & _). rewrite CR. cbn [bind].
  rewrite E, Nat.eqb_refl. cbn [negb]. rewrite R. rewrite <- E.
  destruct (row_ok a b WA WB E F (rows a) 0 r WR R C ltac:(lia)) as (r' & S & W' & R' & C' & G). exists r'. split; [exact S|]. split; [exact W'|]. split; [exact R'|]. split; [exact C'|].
  intros i j I J. rewrite get_ok by (assumption || lia). f_equal. apply (G i j I J).
Qed.
Print Assumptions C89_times.

(** (a b) c and a (b c) are the same matrix, if neither computation overflows. *)
Theorem C89_assoc : forall a b c ab bc x y, wf a -> wf b -> wf c -> cols a = rows b -> cols b = rows c ->
  fits (rows a) (cols a) (cols b) (entry a) (entry b) -> fits (rows b) (cols b) (cols c) (entry b) (entry c) ->
  times a b = Ok ab -> times b c = Ok bc ->
  fits (rows a) (cols b) (cols c) (entry ab) (entry c) -> fits (rows a) (cols a) (cols c) (entry a) (entry bc) ->
  times ab c = Ok x -> times a bc = Ok y ->
  rows x = rows y /\ cols x = cols y /\ forall i j, (i < rows a)%nat -> (j < cols c)%nat -> get x i j = get y i j.
Proof.
  intros a b c ab bc x y WA WB WC E1 E2 F1 F2 T1 T2 F3 F4 T3 T4.
  destruct (C89_times a b WA WB E1 F1) as (ab' & Q1 & W1 & R1 & C1 & G1). assert (ab' = ab) by congruence. subst ab'.
  destruct (C89_times b c WB WC E2 F2) as (bc' & Q2 & W2 & R2 & C2 & G2). assert (bc' = bc) by congruence. subst bc'.
  destruct (C89_times ab c W1 WC) as (x' & Q3 & W3 & R3 & C3 & G3); [congruence|rewrite R1, C1; exact F3|]. assert (x' = x) by congruence. subst x'.
  destruct (C89_times a bc WA W2) as (y' & Q4 & W4 & R4 & C4 & G4); [congruence|rewrite C2; exact F4|]. assert (y' = y) by congruence. subst y'.
  split; [congruence|]. split; [congruence|]. intros i j I J. rewrite G3 by lia. rewrite G4 by lia. f_equal.
  transitivity (product (cols b) (product (cols a) (entry a) (entry b)) (entry c) i j).
  - rewrite C1. apply sum_ext. intros l L. f_equal. unfold entry at 1. rewrite G1 by lia. reflexivity.
  - rewrite product_assoc. apply sum_ext. intros l L. f_equal. symmetry. unfold entry at 1. rewrite G2 by lia. reflexivity.
Qed.
Print Assumptions C89_assoc.

(** Shapes that do not go together: the sum is the right one, the product is zero. *)
Theorem C89_shapes : forall a b, wf a -> wf b ->
  (rows a <> rows b \/ cols a <> cols b -> exists c, plus a b = Ok c /\ rows c = rows b /\ cols c = cols b /\ forall i j, (i < rows b)%nat -> (j < cols b)%nat -> get c i j = Ok (entry b i j)) /\
  (cols a <> rows b -> exists c, times a b = Ok c /\ rows c = rows a /\ cols c = cols b /\ forall i j, (i < rows a)%nat -> (j < cols b)%nat -> get c i j = Ok 0).
Proof.
  intros a b WA WB. split.
  - intros N. unfold plus. destruct (copy_ok b WB) as (r & CP & WR & RR & CR & _ & G). rewrite CP. cbn [bind].
    assert (X : negb (Nat.eqb (rows a) (rows b) && Nat.eqb (cols a) (cols b)) = true) by (destruct (Nat.eqb_spec (rows a) (rows b)); destruct (Nat.eqb_spec (cols a) (cols b)); cbn; try reflexivity; lia).
    rewrite X. exists r. split; [reflexivity|]. split; [exact RR|]. split; [exact CR|]. intros i j I J. rewrite get_ok by (assumption || lia). rewrite G by assumption. reflexivity.
  - intros N. unfold times. destruct (create_ok (rows a) (cols b)) as (r & CR & WR & R & C & G). rewrite CR. cbn [bind].
    destruct (Nat.eqb_spec (cols a) (rows b)); [contradiction|]. exists r. split; [reflexivity|]. split; [exact R|]. split; [exact C|].
    intros i j I J. rewrite get_ok by (assumption || lia). rewrite G by assumption. reflexivity.
Qed.
Print Assumptions C89_shapes.

(** A copy is the same matrix, and so is an assigned one if the old matrix was
    at least as large. *)
Theorem C89_copy : forall x, wf x -> exists y, copy x = Ok y /\ wf y /\ rows y = rows x /\ cols y = cols x /\
  forall i j, (i < rows x)%nat -> (j < cols x)%nat -> get y i j = Ok (entry x i j).
Proof.
  intros x W. destruct (copy_ok x W) as (y & C & WY & R & CC & _ & G). exists y. split; [exact C|]. split; [exact WY|]. split; [exact R|]. split; [exact CC|].
  intros i j I J. rewrite get_ok by (assumption || lia). rewrite G by assumption. reflexivity.
Qed.
Print Assumptions C89_copy.

Theorem C89_assign_partial : forall this x, wf x -> (rows x * cols x <= rows this * cols this)%nat ->
  exists y, assign this x = Ok y /\ rows y = rows x /\ cols y = cols x /\
  forall i j, (i < rows x)%nat -> (j < cols x)%nat -> get y i j = Ok (entry x i j).
Proof.
  intros this x W L. unfold assign, fresh_copy. destruct (rows x * cols x)%nat as [|k] eqn:E.
  - cbn [bind]. eexists. split; [reflexivity|]. split; [reflexivity|]. split; [reflexivity|]. intros; nia.
  - destruct W as [W|(l & D & LL)]; [lia|]. rewrite D, LL, E, Nat.ltb_irrefl. destruct (Nat.ltb_spec (rows this * cols this) (S k)); [lia|]. cbn [orb bind].
    eexists. split; [reflexivity|]. split; [reflexivity|]. split; [reflexivity|]. intros i j I J. unfold entry, get. cbn [data cols]. rewrite D.
    pose proof (idx_lt _ _ _ _ I J). rewrite firstn_all2 by lia. rewrite nth_error_app1 by lia. rewrite (nth_error_nth' l 0) by lia. reflexivity.
Qed.
Print Assumptions C89_assign_partial.

(** Assigning a larger matrix writes past the end of the new array, always. *)
Theorem C89_assign_refuted : forall this x, wf x -> (rows this * cols this < rows x * cols x)%nat -> assign this x = Fault.
Proof.
  intros this x W L. unfold assign, fresh_copy. destruct (rows x * cols x)%nat as [|k] eqn:E; [lia|]. destruct W as [W|(l & D & LL)]; [lia|].
  rewrite D, LL, E, Nat.ltb_irrefl. destruct (Nat.ltb_spec (rows this * cols this) (S k)); [reflexivity|lia].
Qed.
Print Assumptions C89_assign_refuted.

Example C89_ex :
  exists a b c d, create 2 3 (Some [1; 2; 3; 4; 5; 6]) = Ok a /\ create 3 2 (Some [7; 8; 9; 10; 11; 12]) = Ok b /\
    times a b = Ok c /\ c = Matrix 2 2 (Some [58; 64; 139; 154]) /\ times b a = Ok d /\
    rows d = 3%nat /\ get d 2 1 = Ok (11 * 2 + 12 * 5) /\ plus a a = Ok (Matrix 2 3 (Some [2; 4; 6; 8; 10; 12])) /\
    assign c d = Fault.
Proof. do 4 eexists. split; [vm_compute; reflexivity|]. split; [vm_compute; reflexivity|]. split; [vm_compute; reflexivity|]. split; [reflexivity|]. split; [vm_compute; reflexivity|]. vm_compute. auto. Qed.

Example C89_ex_fits : let x := Matrix 2 2 (Some [1; 2; 3; 4]) in wf x /\ fits 2 2 2 (entry x) (entry x).
Proof.
  cbn zeta. split; [right; eexists; split; reflexivity|]. intros i j l I J L.
  assert (D : forall k, (k < 2)%nat -> k = 0%nat \/ k = 1%nat) by lia.
  destruct (D i I) as [->| ->]; destruct (D j J) as [->| ->]; destruct (D l L) as [->| ->]; unfold int_range; cbn; lia.
Qed.
