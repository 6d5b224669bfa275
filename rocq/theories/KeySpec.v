(** What keys, their order and patterns mean. *)
From Verif Require Import Base Ctype.
Local Open Scope nat_scope.

(** The pieces between slashes, empty ones included. *)
Fixpoint chunks (s : bytes) : list bytes :=
  match s with
  | [] => [[]]
  | c :: r => if Ascii.eqb c "/" then [] :: chunks r
              else match chunks r with h :: t => (c :: h) :: t | [] => [[c]] end
  end.
Definition not_empty (p : bytes) : bool := match p with [] => false | _ => true end.
(** The segments a path names, and whether it ends with a slash after some
    segment, which is kept as an empty last segment. *)
Definition segments (s : bytes) : list bytes := filter not_empty (chunks s).
Definition path_key (s : bytes) : list bytes :=
  if Ascii.eqb (last s nul) "/" && negb (length (segments s) =? 0)
  then segments s ++ [[]] else segments s.

(** A well-formed key: segments are not empty and contain neither slashes nor
    NULs; only the last of several segments may be empty (a trailing slash). *)
Definition plain (p : bytes) : Prop := p <> [] /\ ~ In "/"%char p /\ nul_free p.
Definition canonical (k : list bytes) : Prop :=
  Forall plain k \/ exists k', k' <> [] /\ Forall plain k' /\ k = k' ++ [[]].

(** Equality of texts and keys up to letter case. *)
Definition same_text (a b : bytes) : Prop := map tolower a = map tolower b.
Definition same_key (a b : list bytes) : Prop := Forall2 same_text a b.

(** Lexicographic order. *)
Inductive lex {A} (less same : A -> A -> Prop) : list A -> list A -> Prop :=
| lex_end y m : lex less same [] (y :: m)
| lex_here x y l m : less x y -> lex less same (x :: l) (y :: m)
| lex_next x y l m : same x y -> lex less same l m -> lex less same (x :: l) (y :: m).
Definition text_less : bytes -> bytes -> Prop :=
  lex (fun c d => cc (tolower c) < cc (tolower d)) (fun c d => tolower c = tolower d).
Definition key_less : list bytes -> list bytes -> Prop := lex text_less same_text.

(** Pattern matching as documented (include/uniconfkey.h:403-412): a segment "*"
    stands for one segment, "..." for any number of them, any other segment for
    itself. *)
Definition star : bytes := B "*".
Definition dots : bytes := B "...".
Definition literal (p : bytes) : Prop := p <> star /\ p <> dots.
Inductive Matches : list bytes -> list bytes -> Prop :=
| M_nil : Matches [] []
| M_lit p s ps ks : literal p -> same_text s p -> Matches ps ks -> Matches (p :: ps) (s :: ks)
| M_star s ps ks : Matches ps ks -> Matches (star :: ps) (s :: ks)
| M_dots skipped ps ks : Matches ps ks -> Matches (dots :: ps) (skipped ++ ks).
(** Patterns whose wildcards all come before the other segments. *)
Inductive wild_first : list bytes -> Prop :=
| W_literals ps : Forall literal ps -> wild_first ps
| W_star ps : wild_first ps -> wild_first (star :: ps)
| W_dots ps : wild_first ps -> wild_first (dots :: ps).

(** The segments a key names (the empty one of a trailing slash left out), and
    keys with fewer than 2^31 segments. *)
Definition named (k : list bytes) : list bytes := filter not_empty k.
Definition short (k : list bytes) : Prop := (Z.of_nat (length k) <= 2 ^ 31 - 1)%Z.
