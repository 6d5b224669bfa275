(** What a hexadecimal dump looks like. *)
From Verif Require Import Base.
Local Open Scope char_scope.

Definition digits16 : bytes := B "0123456789ABCDEF".
Definition digit (n : nat) : byte := nth n digits16 "?".
(** A byte in two digits, and as a character if it can be printed. *)
Definition hex2 (b : byte) : bytes := [digit (nat_of_ascii b / 16); digit (nat_of_ascii b mod 16)].
Definition shown (b : byte) : byte := if (Nat.leb 32 (nat_of_ascii b) && Nat.leb (nat_of_ascii b) 126)%bool then b else ".".

(** An address: at least three digits, without needless zeros. *)
Fixpoint number (acc : Z) (ds : list nat) : Z := match ds with [] => acc | d :: ds => number (16 * acc + Z.of_nat d) ds end.
Definition address (off : nat) (s : bytes) : Prop :=
  exists ds, s = map digit ds /\ Forall (fun d => d < 16) ds /\ number 0 ds = (Z.of_nat off mod 2 ^ 32)%Z /\
    3 <= length ds /\ (3 < length ds -> hd 0 ds <> 0).

(** Groups of four. *)
Fixpoint fours {A} (l : list A) : list (list A) :=
  match l with
  | [] => []
  | a :: b :: c :: d :: r => [a; b; c; d] :: fours r
  | l => [l]
  end.
Fixpoint join (sep : byte) (l : list bytes) : bytes := match l with [] => [] | [x] => x | x :: l => x ++ sep :: join sep l end.
Definition ljust (n : nat) (s : bytes) : bytes := s ++ repeat " " (n - length s).

Definition a_line (off : nat) (chunk : bytes) (chars : bool) (text : bytes) : Prop :=
  exists addr, address off addr /\
    text = "[" :: addr ++ B "] " ++
      ljust 35 (join " " (map (fun g => concat (map hex2 g)) (fours chunk))) ++ [" "] ++
      (if chars then concat (map (fun g => " " :: map shown g) (fours chunk)) else []) ++ ["010"].

(** Sixteen bytes on every line but the last. *)
Inductive dump (chars : bool) : nat -> bytes -> bytes -> Prop :=
| dump_end off : dump chars off [] []
| dump_line off chunk rest t text :
    chunk <> [] -> length chunk <= 16 -> (rest <> [] -> length chunk = 16) ->
    a_line off chunk chars t -> dump chars (off + 16) rest text -> dump chars off (chunk ++ rest) (t ++ text).
