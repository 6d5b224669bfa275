(** The effect of the list operations on a list of objects with their autofree
    flags, and on the trace of released objects. *)
From Verif Require Import Base ListModel.

Notation elem := (nat * bool)%type.
Definition released (destroy : bool) (l : list elem) : list nat :=
  if destroy then map fst (filter snd l) else [].

Definition list_spec (s : list elem * list nat) (o : list_op) : list elem * list nat :=
  let (l, freed) := s in
  match o with
  | LAppend d a => (l ++ [(d, a)], freed)
  | LPrepend d a => ((d, a) :: l, freed)
  | LInsert k d a => (firstn k l ++ (d, a) :: skipn k l, freed)
  | LUnlink d => (filter (fun e => negb (fst e =? d)) l,
                  freed ++ released true (filter (fun e => fst e =? d) l))
  | LUnlinkFirst => (tl l, freed ++ released true (firstn 1 l))
  | LReverse => (rev l, freed)
  | LZap b => ([], freed ++ released b l)
  | LSweep p b | LPurge p b => (filter (fun e => negb (p (fst e))) l,
                                freed ++ released b (filter (fun e => p (fst e)) l))
  end.
(** Inserting after the k-th element needs that many elements. *)
Definition list_ok (l : list elem) (o : list_op) : Prop :=
  match o with LInsert k _ _ => k <= length l | _ => True end.
Fixpoint list_ops_ok (s : list elem * list nat) (ops : list list_op) : Prop :=
  match ops with [] => True | o :: r => list_ok (fst s) o /\ list_ops_ok (list_spec s o) r end.

(** What the observers say about a list that should contain [l]. *)
Definition list_observes (w : wlist) (l : list elem) : Prop :=
  l_count w = Ok (length l) /\ l_isempty w = Ok (match l with [] => true | _ => false end) /\
  l_walk w = Ok (map fst l) /\
  (forall d r, l = d :: r -> l_first w = Ok (fst d)) /\
  (forall d r, l = r ++ [d] -> l_last w = Ok (fst d)) /\
  (forall d, exists i, i_find w d = Ok i /\ (it_link i = None <-> ~ In d (map fst l)) /\
     (forall a, it_link i = Some a -> exists k, lread w a = Ok k /\ k_data k = d)).
