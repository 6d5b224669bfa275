(** RFC 4648 base64, independent of the model. *)
From Verif Require Import Base.

Definition b64_digits : bytes :=
  B "ABCDEFGHIJKLMNOPQRSTUVWXYZabcdefghijklmnopqrstuvwxyz0123456789+/".
Definition b64_digit (n : nat) : byte := nth n b64_digits nul.
Definition val (c : byte) : nat := nat_of_ascii c.

(** Each group of three bytes, read as one 24-bit number, becomes four 6-bit
    digits; a final group of one or two bytes is padded with zero bits and '='. *)
Fixpoint b64 (l : bytes) : bytes :=
  match l with
  | a :: b :: c :: r =>
      b64_digit (val a / 4) ::
      b64_digit ((val a mod 4) * 16 + val b / 16) ::
      b64_digit ((val b mod 16) * 4 + val c / 64) ::
      b64_digit (val c mod 64) :: b64 r
  | [a; b] =>
      [b64_digit (val a / 4); b64_digit ((val a mod 4) * 16 + val b / 16);
       b64_digit ((val b mod 16) * 4); "="%char]
  | [a] => [b64_digit (val a / 4); b64_digit ((val a mod 4) * 16); "="%char; "="%char]
  | [] => []
  end.

Definition b64_white : bytes :=
  [" "%char; ascii_of_nat 9; ascii_of_nat 10; ascii_of_nat 11; ascii_of_nat 12; ascii_of_nat 13].

(** [spaced t u]: [u] is [t] with white space inserted anywhere. *)
Inductive spaced : bytes -> bytes -> Prop :=
| sp_nil : spaced [] []
| sp_ws c t u : In c b64_white -> spaced t u -> spaced t (c :: u)
| sp_keep c t u : spaced t u -> spaced (c :: t) (c :: u).

(** A character that has no business in base64 text. *)
Definition b64_bad (c : byte) : Prop := ~ In c b64_digits /\ c <> "="%char /\ ~ In c b64_white.
