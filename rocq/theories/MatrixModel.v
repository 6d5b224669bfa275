(** Model of utils/wvmatrix.cc.  [data] is the allocated array; an access outside
    of it is a Fault, and so is an int that overflows. *)
From Verif Require Import Base.
Local Open Scope Z_scope.

(** include/wvmatrix.h:8-13; None is a NULL pointer *)
Record matrix := Matrix { rows : nat; cols : nat; data : option (list Z) }.

Definition int (x : Z) : res Z := if (- 2 ^ 31 <=? x) && (x <? 2 ^ 31) then Ok x else Fault.

(** utils/wvmatrix.cc:3-19: the constructor.  [init] is the caller's array *)
Definition create (m n : nat) (init : option (list Z)) : res matrix :=
  if (Nat.eqb m 0 || Nat.eqb n 0)%bool then Ok (Matrix m n None)
  else match init with
  | Some l => if Nat.ltb (length l) (m * n) then Fault else Ok (Matrix m n (Some (firstn (m * n) l)))
  | None => Ok (Matrix m n (Some (repeat 0 (m * n))))
  end.

(** memcpy(dst, src, k ints) into a fresh array of [size] ints; copying nothing
    from a NULL pointer is let pass *)
Definition fresh_copy (size k : nat) (src : option (list Z)) : res (list Z) :=
  match k with
  | O => Ok (repeat 0 size)
  | _ => match src with
    | None => Fault
    | Some l => if (Nat.ltb (length l) k || Nat.ltb size k)%bool then Fault else Ok (firstn k l ++ repeat 0 (size - k))
    end
  end.

(** utils/wvmatrix.cc:28-33: the copy constructor *)
Definition copy (x : matrix) : res matrix :=
  let! d := fresh_copy (rows x * cols x) (rows x * cols x) (data x) in Ok (Matrix (rows x) (cols x) (Some d)).

(** utils/wvmatrix.cc:36-47: operator=.  The array is allocated before the sizes
    are taken over; assigning to itself reads what was just freed *)
Definition assign (this : matrix) (x : matrix) : res matrix :=
  let! d := fresh_copy (rows this * cols this) (rows x * cols x) (data x) in Ok (Matrix (rows x) (cols x) (Some d)).

(** include/wvmatrix.h:21-24: operator() *)
Definition get (x : matrix) (row col : nat) : res Z :=
  match data x with None => Fault | Some l => match nth_error l (cols x * row + col) with Some v => Ok v | None => Fault end end.
Definition set (x : matrix) (row col : nat) (v : Z) : res matrix :=
  match data x with
  | None => Fault
  | Some l => let k := (cols x * row + col)%nat in
      if Nat.ltb k (length l) then Ok (Matrix (rows x) (cols x) (Some (firstn k l ++ v :: skipn (S k) l))) else Fault
  end.

(** utils/wvmatrix.cc:50-61: operator+ *)
Fixpoint add_loop (k i : nat) (res_data mine : list Z) : res (list Z) :=
  match k with
  | O => Ok res_data
  | S k =>
      match nth_error res_data i, nth_error mine i with
      | Some a, Some b => let! s := int (a + b) in add_loop k (S i) (firstn i res_data ++ s :: skipn (S i) res_data) mine
      | _, _ => Fault
      end
  end.
Definition plus (this rhs : matrix) : res matrix :=
  let! r := copy rhs in
  if negb (Nat.eqb (rows this) (rows rhs) && Nat.eqb (cols this) (cols rhs)) then Ok r
  else match data r, data this with
  | Some rd, Some td => let! d := add_loop (rows this * cols this) 0 rd td in Ok (Matrix (rows r) (cols r) (Some d))
  | _, _ => Ok r
  end.

(** utils/wvmatrix.cc:64-84: operator* *)
Fixpoint dot (k l : nat) (c : Z) (this rhs : matrix) (i j : nat) : res Z :=
  match k with
  | O => Ok c
  | S k => let! a := get this i l in let! b := get rhs l j in let! p := int (a * b) in let! c := int (c + p) in dot k (S l) c this rhs i j
  end.
Fixpoint col_loop (k j : nat) (r this rhs : matrix) (i : nat) : res matrix :=
  match k with
  | O => Ok r
  | S k => let! c := dot (cols this) 0 0 this rhs i j in let! r := set r i j c in col_loop k (S j) r this rhs i
  end.
Fixpoint row_loop (k i : nat) (r this rhs : matrix) : res matrix :=
  match k with
  | O => Ok r
  | S k => let! r := col_loop (cols r) 0 r this rhs i in row_loop k (S i) r this rhs
  end.
Definition times (this rhs : matrix) : res matrix :=
  let! r := create (rows this) (cols rhs) None in
  if negb (Nat.eqb (cols this) (rows rhs)) then Ok r else row_loop (rows r) 0 r this rhs.

(** What every matrix made by the above is: the array has the size of the shape
    unless there is none. *)
Definition wf (x : matrix) : Prop := (rows x * cols x = 0)%nat \/ exists l, data x = Some l /\ length l = (rows x * cols x)%nat.
(** What operator() reads. *)
Definition entry (x : matrix) (i j : nat) : Z := match get x i j with Ok v => v | _ => 0 end.
