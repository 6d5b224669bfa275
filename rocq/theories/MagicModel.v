(** Model of utils/wvmagiccircle.cc and include/wvmagiccircle.h: a circular
    queue in memory shared by two processes.  One step of the model is one
    access to shared memory (a read or write of head or tail, or of one byte of
    the circle); local computation happens between two accesses.  Memory is
    sequentially consistent.  The order of the two reads in "tail - head" and
    the order in which memcpy touches bytes are unspecified and chosen by the
    schedule.  Simplification: isok() (a per-object error flag) is true. *)
From Verif Require Import Base.

Record shared := Sh { s_head : nat; s_tail : nat; s_circle : mem }.

(** Calls of the public API; the argument of get and skip is [len]. *)
Inductive call := CPut (data : bytes) | CGet (len : nat) | CSkip (len : nat) | CUsed | CLeft.

(** Events seen by the callers. *)
Inductive event :=
| ECall (who : bool) (c : call)
| ERet (who : bool) (c : call) (n : nat) (out : bytes).

(** Where used() is: nothing read, tail read, head read. *)
Inductive uphase := U0 | UT (t : nat) | UH (h : nat).

Inductive proc :=
| Idle
| InUsed (c : call) (u : uphase)
| AtChunk (c : call) (len : nat)
| AtCopy (c : call) (len chunk1 : nat)
| Copying (c : call) (len : nat) (now later : list (nat * nat)) (buf : bytes)
| AtUpdate (c : call) (len : nat) (buf : bytes)
| AtStore (c : call) (len : nat) (buf : bytes) (value : nat).

(** utils/wvmagiccircle.cc:36-46: used(), once both values are read *)
Definition used_value (size t h : nat) : res nat :=
  let x := (Z.of_nat t - Z.of_nat h)%Z in
  let x := if (x <? 0)%Z then (x + Z.of_nat size)%Z else x in
  if (0 <=? x)%Z && (x <? Z.of_nat size)%Z then Ok (Z.to_nat x) else Fault.

(** Which index a call moves: put 49-73 the tail, get 76-94 and skip 97-107 the
    head. *)
Definition own (c : call) (s : shared) : nat :=
  match c with CPut _ => s_tail s | _ => s_head s end.

(** memcpy of [n] bytes between offset [a] of the caller's buffer and offset
    [b] of the circle: pairs (caller, circle) still to do. *)
Definition copies (a b n : nat) : list (nat * nat) :=
  map (fun i => (a + i, b + i)) (seq 0 n).

Definition take_out {A} (l : list A) (k : nat) : list A := firstn k l ++ skipn (S k) l.

(** What happens when used() has returned [u]: include/wvmagiccircle.h:36-37
    (left), utils/wvmagiccircle.cc:51-56, 78-82, 99-102 *)
Definition after_used (who : bool) (size : nat) (c : call) (u : nat) : proc * list event :=
  match c with
  | CUsed => (Idle, [ERet who c u []])
  | CLeft => (Idle, [ERet who c (size - u - 1) []])
  | CPut data => (AtChunk c (min (length data) (size - u - 1)), [])
  | CGet len => (AtChunk c (min len u), [])
  | CSkip len => (AtUpdate c (min len u) [], [])
  end.

(** One access by process [who]; [ch] resolves the unspecified choices and [new]
    is the call made by an idle process. *)
Definition pstep (size : nat) (who : bool) (ch : nat) (new : call) (s : shared) (p : proc)
  : res (shared * proc * list event) :=
  match p with
  | Idle => Ok (s, InUsed new U0, [ECall who new])
  | InUsed c U0 =>
      if Nat.even ch then Ok (s, InUsed c (UT (s_tail s)), [])
      else Ok (s, InUsed c (UH (s_head s)), [])
  | InUsed c (UT t) =>
      let! u := used_value size t (s_head s) in
      let (p, es) := after_used who size c u in Ok (s, p, es)
  | InUsed c (UH h) =>
      let! u := used_value size (s_tail s) h in
      let (p, es) := after_used who size c u in Ok (s, p, es)
  | AtChunk c len => Ok (s, AtCopy c len (min len (size - own c s)), [])
  | AtCopy c len chunk1 =>
      Ok (s, Copying c len (copies 0 (own c s) chunk1) (copies chunk1 0 (len - chunk1))
               (match c with CPut _ => [] | _ => calloc len end), [])
  | Copying c len [] [] buf => Ok (s, AtUpdate c len buf, [])
  | Copying c len [] later buf => Ok (s, Copying c len later [] buf, [])
  | Copying c len (x :: l) later buf =>
      let k := ch mod length (x :: l) in
      let (i, a) := nth k (x :: l) x in
      let rest := take_out (x :: l) k in
      match c with
      | CPut data =>
          let! b := of_opt (nth_error data i) in
          let! m := of_opt (store (s_circle s) a b) in
          Ok (Sh (s_head s) (s_tail s) m, Copying c len rest later buf, [])
      | _ =>
          let! b := of_opt (nth_error (s_circle s) a) in
          let! buf := of_opt (store buf i b) in
          Ok (s, Copying c len rest later buf, [])
      end
  | AtUpdate c len buf =>
      if size =? 0 then Fault else Ok (s, AtStore c len buf ((own c s + len) mod size), [])
  | AtStore c len buf v =>
      Ok (match c with
          | CPut _ => Sh (s_head s) v (s_circle s)
          | _ => Sh v (s_tail s) (s_circle s)
          end, Idle, [ERet who c len buf])
  end.

(** The system: [true] is the writing process, [false] the reading one. *)
Record sys := Sys { y_sh : shared; y_w : proc; y_r : proc; y_log : list event }.
Record act := Act { a_who : bool; a_choice : nat; a_call : call }.

Definition sys_step (size : nat) (y : sys) (a : act) : res sys :=
  if a_who a then
    let! (s, p, es) := pstep size true (a_choice a) (a_call a) (y_sh y) (y_w y) in
    Ok (Sys s p (y_r y) (y_log y ++ es))
  else
    let! (s, p, es) := pstep size false (a_choice a) (a_call a) (y_sh y) (y_r y) in
    Ok (Sys s (y_w y) p (y_log y ++ es)).

Fixpoint sys_run (size : nat) (y : sys) (l : list act) : res sys :=
  match l with
  | [] => Ok y
  | a :: r => let! y := sys_step size y a in sys_run size y r
  end.

(** utils/wvmagiccircle.cc:11-27: the constructor; one extra byte *)
Definition magic_new (capacity : nat) : sys :=
  Sys (Sh 0 0 (calloc (capacity + 1))) Idle Idle [].
Definition magic_run (capacity : nat) (l : list act) : res sys :=
  if capacity =? 0 then Fault else sys_run (capacity + 1) (magic_new capacity) l.
