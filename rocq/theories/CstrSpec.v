(** C string literals, independent of the model. *)
From Verif Require Import Base.

Definition quote : byte := ascii_of_nat 34.
Definition bslash : byte := ascii_of_nat 92.

Definition HEX : bytes := B "0123456789ABCDEF".
Definition hexd (n : nat) : byte := nth n HEX nul.

(** The escape the documentation (include/wvstrutils.h:551-568) gives for a
    byte: named escapes, printable characters as they are, \xHH for the rest. *)
Definition c_esc (c : byte) : bytes :=
  let n := nat_of_ascii c in
  if n =? 0 then B "\0" else if n =? 7 then B "\a" else if n =? 8 then B "\b"
  else if n =? 9 then B "\t" else if n =? 10 then B "\n" else if n =? 11 then B "\v"
  else if n =? 13 then B "\r" else if n =? 34 then [bslash; quote]
  else if n =? 92 then [bslash; bslash]
  else if (32 <=? n) && (n <=? 126) then [c]
  else [bslash; "x"%char; hexd (n / 16); hexd (n mod 16)].

(** With extra escapes: the first entry for the byte wins. *)
Definition esc_with (ex : list (byte * bytes)) (c : byte) : bytes :=
  match find (fun p => Ascii.eqb (fst p) c) ex with
  | Some (_, e) => e
  | None => c_esc c
  end.

Definition literal (ex : list (byte * bytes)) (d : bytes) : bytes :=
  quote :: flat_map (esc_with ex) d ++ [quote].

Definition c_white : bytes :=
  [" "%char; ascii_of_nat 9; ascii_of_nat 10; ascii_of_nat 11; ascii_of_nat 12; ascii_of_nat 13].

(** [c_text ex d t]: [t] is a sequence of literals with white space around
    them, denoting [d]. *)
Inductive c_text (ex : list (byte * bytes)) : bytes -> bytes -> Prop :=
| ct_nil : c_text ex [] []
| ct_ws c d t : In c c_white -> c_text ex d t -> c_text ex d (c :: t)
| ct_lit d d' t : c_text ex d' t -> c_text ex (d ++ d') (literal ex d ++ t).

Definition prefix (a b : bytes) : Prop := exists r, b = a ++ r.

(** Tables of extra escapes that are usable at all: one to four characters, not
    starting with the closing quote, and no escape a prefix of the text used
    for another byte. *)
Record usable (ex : list (byte * bytes)) : Prop := {
  us_len : forall c e, In (c, e) ex -> 1 <= length e <= 4;
  us_nul : forall c e, In (c, e) ex -> ~ In nul e;
  us_quote : forall c e, In (c, e) ex -> hd nul e <> quote;
  us_prefix : forall c e b, In (c, e) ex ->
     prefix e (esc_with ex b) \/ prefix (esc_with ex b) e -> c = b }.
