(** What a user expects of a log: lines, and the newest of each kind. *)
From Verif Require Import Base Ctype.
Local Open Scope Z_scope.

(** A piece of text logged under a source and a level. *)
Record piece := { src : option bytes; lvl : Z; txt : bytes }.
Definition src_dec (a b : option bytes) : {a = b} + {a <> b}.
Proof. decide equality. apply (list_eq_dec Ascii.ascii_dec). Defined.
(** Two pieces have the same header. *)
Definition same_head (a b : piece) : bool := (if src_dec (src a) (src b) then true else false) && (lvl a =? lvl b).

(** The pieces logged, in order; [None] is an explicit end of line.  Neighbours
    with the same header are one text (unless each piece is to be on its own line). *)
Definition join (same : piece -> bool) (p : piece) (next : option piece) (ts : list piece) : list piece :=
  match next, ts with
  | Some q, t :: rest => if same q then {| src := src p; lvl := lvl p; txt := txt p ++ txt t |} :: rest else p :: ts
  | _, _ => p :: ts
  end.
Fixpoint texts (split : bool) (l : list (option piece)) : list piece :=
  match l with
  | [] => []
  | None :: r => texts split r
  | Some p :: r => join (fun q => negb split && same_head p q) p (hd None r) (texts split r)
  end.

(** The lines of a text: the stretches between newlines and carriage returns that
    are not empty. *)
Definition is_break (c : byte) : bool := (nat_of_ascii c =? 10)%nat || (nat_of_ascii c =? 13)%nat.
Fixpoint fields (t : bytes) : list bytes :=
  match t with
  | [] => [[]]
  | c :: r => if is_break c then [] :: fields r else match fields r with f :: fs => (c :: f) :: fs | [] => [[c]] end
  end.
Definition nonempty (f : bytes) : bool := match f with [] => false | _ => true end.
(** How a byte is shown: a tab as a space, other control characters in hex. *)
Definition digit_char (n : nat) : byte := nth n (B "0123456789abcdef") nul.
Definition show (c : byte) : bytes :=
  let n := nat_of_ascii c in
  if (n =? 9)%nat then B " "
  else if ((n <? 32) || (n =? 127))%nat then B "[" ++ [digit_char (n / 16); digit_char (n mod 16)] ++ B "]"
  else [c].
Definition lines_of (p : piece) : list piece :=
  map (fun f => {| src := src p; lvl := lvl p; txt := flat_map show f |}) (filter nonempty (fields (txt p))).
Definition lines (split : bool) (l : list (option piece)) : list piece := flat_map lines_of (texts split l).

(** Messages of one kind: the same source (a missing one is "(nil)") and level. *)
Definition name_of (s : option bytes) : bytes := match s with Some x => x | None => B "(nil)" end.
Definition same_kind (a b : piece) : bool :=
  (if list_eq_dec Ascii.ascii_dec (name_of (src a)) (name_of (src b)) then true else false) && (lvl a =? lvl b).
(** The newest [k] of each kind, in order: a message stays if fewer than [k] of its
    kind come after it. *)
Fixpoint newest (k : Z) (l : list piece) : list piece :=
  match l with
  | [] => []
  | m :: r => if Z.of_nat (length (filter (same_kind m) r)) <? k then m :: newest k r else newest k r
  end.

(** White space removed at both ends. *)
Definition blank (c : byte) : bool := let n := nat_of_ascii c in (n =? 32)%nat || ((9 <=? n) && (n <=? 13))%nat.
Definition trimmed (s t : bytes) : Prop :=
  exists a b, s = a ++ t ++ b /\ forallb blank a = true /\ forallb blank b = true /\
    match t with [] => True | c :: _ => blank c = false end /\ match rev t with [] => True | c :: _ => blank c = false end.

(** The level up to which a source is heard: that of the first rule whose name
    occurs in the source's name, ignoring the case of the latter; else the maximum. *)
Definition contains (s sub : bytes) : Prop := exists a b, s = a ++ sub ++ b.
Inductive limit (max : Z) : list (bytes * Z) -> option bytes -> Z -> Prop :=
| limit_none s : limit max [] s max
| limit_hit sub l r n : contains (map tolower n) sub -> limit max ((sub, l) :: r) (Some n) l
| limit_miss sub l r n th : ~ contains (map tolower n) sub -> limit max r (Some n) th -> limit max ((sub, l) :: r) (Some n) th.
(** The pieces heard among those said. *)
Inductive heard (rules : list (bytes * Z)) (max : Z) : list (option piece) -> list (option piece) -> Prop :=
| heard_nil : heard rules max [] []
| heard_break l h : heard rules max l h -> heard rules max (None :: l) (None :: h)
| heard_yes p th l h : limit max rules (src p) th -> lvl p <= th -> heard rules max l h -> heard rules max (Some p :: l) (Some p :: h)
| heard_no p th l h : limit max rules (src p) th -> th < lvl p -> heard rules max l h -> heard rules max (Some p :: l) h.
(** Only the levels from Critical to Debug5 exist. *)
Definition proper (o : option piece) : Prop := match o with Some p => 0 <= lvl p < 10 | None => True end.
