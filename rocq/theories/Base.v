(** Shared definitions: bytes, C strings and bounds-checked memory. *)
From Coq Require Export String Ascii.
From Coq Require Export Arith ZArith Lia Bool List.
Export ListNotations.
Open Scope list_scope.
Open Scope nat_scope.

Notation byte := Ascii.ascii (only parsing).
Notation bytes := (list Ascii.ascii) (only parsing).

(** A literal as a list of bytes. *)
Definition B (s : string) : bytes := list_ascii_of_string s.

Definition nul : byte := Ascii.zero.
Definition newline : byte := ascii_of_nat 10.

(** The part of a byte array a C program sees through a [char *]:
    everything before the first NUL. *)
Fixpoint cstr (l : bytes) : bytes :=
  match l with
  | [] => []
  | c :: r => if Ascii.eqb c nul then [] else c :: cstr r
  end.

(** A C string contains no NUL. *)
Definition nul_free (l : bytes) : Prop := ~ In nul l.

(** Bounds-checked memory: a block of bytes; storing outside the block is an
    explicit failure ([None]). *)
Definition mem := list Ascii.ascii.

Fixpoint store (m : mem) (i : nat) (c : byte) : option mem :=
  match m, i with
  | [], _ => None
  | _ :: r, O => Some (c :: r)
  | x :: r, S i' => match store r i' c with
                    | Some r' => Some (x :: r')
                    | None => None
                    end
  end.

(** Stores at consecutive addresses [i], [i+1], ... *)
Fixpoint store_seq (m : mem) (i : nat) (l : bytes) : option mem :=
  match l with
  | [] => Some m
  | c :: r => match store m i c with
              | Some m' => store_seq m' (S i) r
              | None => None
              end
  end.

(** A freshly allocated block (calloc). *)
Definition calloc (n : nat) : mem := repeat nul n.

(** utils/wvstring.cc:266-301 (alloc, newbuf) with WVSTRING_EXTRA = 1
    (include/wvstring.h): [setsize i] yields a block with at least i+1 usable
    bytes.  Simplification: the rounding "| 3" that may add up to 3 more bytes
    is left out, so the model is stricter than the code. *)
Definition setsize (i : nat) : mem := calloc (S i).

(** Result of running code that may hit undefined behaviour ([Fault]) or, for
    loops given explicit fuel, fail to finish ([NoFuel]). *)
Inductive res (A : Type) : Type :=
| Ok (a : A)
| Fault
| NoFuel.
Arguments Ok {A} a.
Arguments Fault {A}.
Arguments NoFuel {A}.

Definition bind {A C} (x : res A) (f : A -> res C) : res C :=
  match x with Ok a => f a | Fault => Fault | NoFuel => NoFuel end.
Definition of_opt {A} (x : option A) : res A :=
  match x with Some a => Ok a | None => Fault end.
Notation "'let!' x := a 'in' b" := (bind a (fun x => b))
  (at level 200, x pattern, right associativity).
