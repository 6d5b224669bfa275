(** Format strings as lists of items, and what they expand to. *)
From Verif Require Import Base DecSpec.
Local Open Scope Z_scope.

Inductive conv := Text | Char | Literal.   (* %s, %c, %% *)
(** A plain character, or a directive: minus flag, width digits (a leading zero
    asks for zero padding), precision digits after a dot, argument digits after a
    dollar sign *)
Inductive item :=
| Plain (c : byte)
| Dir (minus : bool) (width : bytes) (prec : option bytes) (arg : option bytes) (cv : conv).

Definition ch (n : nat) : byte := ascii_of_nat n.
(** How an item is written in the format string *)
Definition written (i : item) : bytes :=
  match i with
  | Plain c => [c]
  | Dir minus width prec arg cv =>
      [ch 37] ++ (if minus then [ch 45] else []) ++ width ++
      match prec with None => [] | Some p => ch 46 :: p end ++
      match arg with None => [] | Some a => ch 36 :: a end ++
      [match cv with Text => ch 115 | Char => ch 99 | Literal => ch 37 end]
  end.
Definition format_of (items : list item) : bytes := concat (map written items).

Definition number (s : bytes) : Prop := Forall digit s /\ value s < 2 ^ 31.
Definition opt_value (s : option bytes) : Z := match s with None => 0 | Some s => value s end.
(** Items a format may contain; when there is a precision, it is at least the width *)
Definition well_formed (i : item) : Prop :=
  match i with
  | Plain c => c <> ch 37 /\ c <> nul
  | Dir minus width prec arg cv =>
      number width /\ (forall p, prec = Some p -> number p) /\ (forall a, arg = Some a -> number a) /\
      (cv = Text -> opt_value prec = 0 \/ value width <= opt_value prec)
  end.

(** The text of an argument, "(nil)" when it is missing *)
Definition shown (a : option bytes) : bytes := match a with None => B "(nil)" | Some a => a end.
Definition cut (prec : Z) (s : bytes) : bytes := if 0 <? prec then firstn (Z.to_nat prec) s else s.
Definition padded (minus : bool) (width : bytes) (s : bytes) : bytes :=
  let n := (Z.to_nat (value width) - length s)%nat in
  if minus then s ++ repeat (ch 32) n
  else repeat (if Ascii.eqb (hd nul width) (ch 48) then ch 48 else ch 32) n ++ s.
(** The character printed by %c: the argument is the decimal code, a missing or
    empty argument is code 0 *)
Definition char_code (a : option bytes) : option Z :=
  match a with
  | None | Some [] => Some 0
  | Some a => if forallb (fun c => (48 <=? nat_of_ascii c)%nat && (nat_of_ascii c <=? 57)%nat) a && (value a <? 256)
              then Some (value a) else None
  end.

(** Which argument a directive uses, counting from 0: the [$] number, or the next one *)
Definition which (arg : option bytes) (next : nat) : nat :=
  if 0 <? opt_value arg then Z.to_nat (opt_value arg - 1) else next.
Definition advance (arg : option bytes) (next : nat) : nat := if 0 <? opt_value arg then next else S next.

(** The expansion; [None] when an argument beyond the [args] is used or a %c
    argument is not a character code *)
Fixpoint expansion (args : list (option bytes)) (next : nat) (items : list item) : option bytes :=
  match items with
  | [] => Some []
  | Plain c :: r => match expansion args next r with Some t => Some (c :: t) | None => None end
  | Dir _ _ _ _ Literal :: r => match expansion args next r with Some t => Some (ch 37 :: t) | None => None end
  | Dir minus width prec arg Text :: r =>
      match nth_error args (which arg next), expansion args (advance arg next) r with
      | Some a, Some t => Some (padded minus width (cut (opt_value prec) (shown a)) ++ t)
      | _, _ => None
      end
  | Dir _ _ _ arg Char :: r =>
      match nth_error args (which arg next), expansion args (advance arg next) r with
      | Some a, Some t =>
          match char_code a with Some n => Some (ch (Z.to_nat n) :: t) | None => None end
      | _, _ => None
      end
  end.
