(** C-style backslash escapes, independent of the model. *)
From Verif Require Import Base.

Definition named : list (nat * byte) :=
  [(7, "a"%char); (8, "b"%char); (12, "f"%char); (10, "n"%char); (13, "r"%char); (9, "t"%char); (11, "v"%char)].
Definition lhex (n : nat) : byte := nth n (B "0123456789abcdef") nul.

(** The escape of one byte: nasty characters get a backslash, control
    characters their C name, printable ones stay, the rest is \xHH. *)
Definition bs_esc (nasties : bytes) (c : byte) : bytes :=
  let n := nat_of_ascii c in
  if existsb (Ascii.eqb c) nasties && negb (n =? 0) then ["\"%char; c]
  else match find (fun p => fst p =? n) named with
       | Some (_, l) => ["\"%char; l]
       | None => if (32 <=? n) && (n <=? 126) then [c]
                 else ["\"%char; "x"%char; lhex (n / 16); lhex (n mod 16)]
       end.

Definition bs_text (nasties d : bytes) : bytes := flat_map (bs_esc nasties) d.

(** Sets of nasty characters that can be decoded again: the backslash is in the
    set, and no character that means something else after a backslash is. *)
Definition decodable (nasties : bytes) : Prop :=
  In "\"%char nasties /\ (forall c, In c nasties -> ~ In c (B "0123xabfnrtv")).

(** The escapes documented in include/wvbackslash.h:41-60, except the line
    continuation. *)
Inductive doc_token : bytes -> byte -> Prop :=
| tk_plain c : c <> "\"%char -> doc_token [c] c
| tk_named n l : In (n, l) named -> doc_token ["\"%char; l] (ascii_of_nat n)
| tk_octal x y z a b c : In (a, x) (combine (seq 0 8) (B "01234567")) ->
    In (b, y) (combine (seq 0 8) (B "01234567")) -> In (c, z) (combine (seq 0 8) (B "01234567")) ->
    doc_token ["\"%char; "0"%char; x; y; z] (ascii_of_nat ((a * 64 + b * 8 + c) mod 256))
| tk_hex x y a b : In (a, x) (combine (seq 0 16 ++ seq 10 6) (B "0123456789abcdefABCDEF")) ->
    In (b, y) (combine (seq 0 16 ++ seq 10 6) (B "0123456789abcdefABCDEF")) ->
    doc_token ["\"%char; "x"%char; x; y] (ascii_of_nat (a * 16 + b))
| tk_other c : ~ In c (B "0123xabfnrtv") -> c <> nul -> doc_token ["\"%char; c] c.

Inductive doc_text : bytes -> bytes -> Prop :=
| dt_nil : doc_text [] []
| dt_cons t c l d : doc_token t c -> doc_text l d -> doc_text (t ++ l) (c :: d).
