(** The <ctype.h> predicates in the C locale, for bytes passed as char.
    Environment assumption: glibc, where the tables cover -128..255 and answer
    "no" for bytes >= 0x80. *)
From Verif Require Import Base.

Definition cc (c : byte) : nat := nat_of_ascii c.
Definition isspace (c : byte) : bool :=
  (cc c =? 32) || ((9 <=? cc c) && (cc c <=? 13)).
Definition isdigit (c : byte) : bool := (48 <=? cc c) && (cc c <=? 57).
Definition isupper (c : byte) : bool := (65 <=? cc c) && (cc c <=? 90).
Definition islower (c : byte) : bool := (97 <=? cc c) && (cc c <=? 122).
Definition isalpha (c : byte) : bool := isupper c || islower c.
Definition isalnum (c : byte) : bool := isalpha c || isdigit c.
Definition isprint (c : byte) : bool := (32 <=? cc c) && (cc c <=? 126).
Definition toupper (c : byte) : byte := if islower c then ascii_of_nat (cc c - 32) else c.
Definition tolower (c : byte) : byte := if isupper c then ascii_of_nat (cc c + 32) else c.

(** strchr(s, c): index of the first occurrence; a NUL argument finds the
    terminator. *)
Fixpoint strchr (s : bytes) (c : byte) : option nat :=
  match s with
  | [] => if Ascii.eqb c nul then Some 0 else None
  | x :: r => if Ascii.eqb x c then Some 0
              else match strchr r c with Some i => Some (S i) | None => None end
  end.
