(** What splitting and joining mean. *)
From Verif Require Import Base.

(** The pieces with the separator between neighbours. *)
Fixpoint joined (sep : bytes) (l : list bytes) : bytes :=
  match l with
  | [] => []
  | [p] => p
  | p :: r => p ++ sep ++ joined sep r
  end.

(** [l] interleaved with the gaps [g]: p0 g1 p1 g2 p2 ... *)
Fixpoint interleaved (l g : list bytes) : bytes :=
  match l, g with
  | p :: r, d :: g' => p ++ d ++ interleaved r g'
  | p :: _, [] => p
  | [], _ => []
  end.

(** No character of the delimiter set occurs in [p]. *)
Definition free_of (set p : bytes) : Prop := forall c, In c p -> ~ In c set.

(** [p] does not begin with a delimiter. *)
Definition starts_free (set p : bytes) : Prop :=
  match p with [] => True | c :: _ => ~ In c set end.

(** [limit > 0] bounds the number of pieces and is reached. *)
Definition at_limit (limit : Z) (l : list bytes) : Prop :=
  (0 < limit)%Z /\ Z.of_nat (length l) = limit.
Definition within (limit : Z) (l : list bytes) : Prop :=
  (0 < limit)%Z -> (Z.of_nat (length l) <= limit)%Z.

(** A strict split: the text is the pieces with exactly one delimiter character
    between neighbours; no piece contains a delimiter, except the last one when
    the limit was reached. *)
Definition strict_fields (set : bytes) (limit : Z) (s : bytes) (l : list bytes) : Prop :=
  l <> [] /\ within limit l /\
  (exists g, S (length g) = length l /\ s = interleaved l g /\
             Forall (fun d => exists c, d = [c] /\ In c set) g) /\
  Forall (free_of set) (removelast l) /\
  (free_of set (last l []) \/ at_limit limit l).

(** A split: the text is the pieces with a run of one or more delimiter
    characters between neighbours; pieces contain no delimiter, pieces strictly
    between the first and the last are not empty, and the last piece, which may
    contain delimiters when the limit was reached, does not begin with one
    unless it is the only one. *)
Definition run_fields (set : bytes) (limit : Z) (s : bytes) (l : list bytes) : Prop :=
  l <> [] /\ within limit l /\
  (exists g, S (length g) = length l /\ s = interleaved l g /\
             Forall (fun d => d <> [] /\ forall c, In c d -> In c set) g) /\
  Forall (free_of set) (removelast l) /\
  Forall (fun p => p <> []) (removelast (tl l)) /\
  (tl l <> [] -> starts_free set (last l [])) /\
  (free_of set (last l []) \/ at_limit limit l).

(** What a split keeps of the fields of a strict split: the first and the last
    field, and those in between that are not empty. *)
Definition kept (f : list bytes) : list bytes :=
  match f with
  | [] => []
  | [p] => [p]
  | p :: r => p :: filter (fun q => match q with [] => false | _ => true end) (removelast r)
                ++ [last r []]
  end.

(** Total length of the pieces and of the separators between them. *)
Definition size_of (sep : bytes) (l : list bytes) : nat :=
  fold_right (fun p n => length p + length sep + n) 0 l.
