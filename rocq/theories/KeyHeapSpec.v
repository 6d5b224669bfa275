(** Keys as plain values: what a program that keeps its keys in variables sees. *)
From Verif Require Import Base CowModel KeySpec KeyHeapModel.
Local Open Scope nat_scope.

(** A variable holds a list of segments, and a note on how it was made: it is
    [Whole] when built from text or other whole keys, [Front] when it is the
    beginning of another key, [Rest] when it is any other part of a key, or had
    something popped from it. *)
Inductive shape := Whole | Front | Rest.
Record aval := { val : list bytes; cut : shape }.
Definition aenv := list (option aval).
Definition aget (e : aenv) (x : nat) : option aval := match nth_error e x with Some v => v | None => None end.
Definition afree (e : aenv) (x : nat) : bool := match nth_error e x with Some None => true | _ => false end.

(** A lone empty segment is the empty key. *)
Definition root_or (k : list bytes) : list bytes := match k with [[]] => [] | _ => k end.
Definition ends_in_slash (k : list bytes) : bool := negb (length k =? 0) && negb (not_empty (last k (B "x"))).
(** [y] put after [x]: a trailing slash if [y] has one or is empty. *)
Definition joined_keys (x y : list bytes) : list bytes :=
  root_or (named x ++ named y ++ (if (length y =? 0) || ends_in_slash y then [[]] else [])).
(** The segments from number [i] up to but not including number [j]. *)
Definition part (i j : Z) (k : list bytes) : list bytes :=
  root_or (skipn (Z.to_nat i) (firstn (Z.to_nat j) k)).

Definition is_rest (c : shape) : bool := match c with Rest => true | _ => false end.
Definition is_whole (c : shape) : bool := match c with Whole => true | _ => false end.
(** The shape of the segments from [i] on of a key of shape [c]. *)
Definition range_shape (c : shape) (i : Z) : shape :=
  if is_rest c || (0 <? i)%Z then Rest else Front.
Definition aput (e : aenv) (x : nat) (v : list bytes) (c : shape) : option aenv :=
  Some (setnth e x (Some {| val := v; cut := c |})).
(** The meaning of each operation on values; [None] for the programs that the
    theorem says nothing about: those that use variables wrongly, that assign,
    append or prepend a key to itself, that append to a [Rest] key or to one that
    ends in a slash, or prepend to a key that is not [Whole]. *)
Definition ameaning (e : aenv) (o : kop) : option aenv :=
  match o with
  | KEmpty x => if afree e x then aput e x [] Whole else None
  | KParse x s => if afree e x then aput e x (path_key s) Whole else None
  | KCopy x y =>
      if afree e x then match aget e y with Some v => aput e x (val v) (cut v) | None => None end else None
  | KConcat x y z =>
      if afree e x then
        match aget e y, aget e z with
        | Some v, Some w => aput e x (joined_keys (val v) (val w)) Whole
        | _, _ => None
        end
      else None
  | KRange x y i j =>
      if afree e x then match aget e y with Some v => aput e x (part i j (val v)) (range_shape (cut v) i) | None => None end else None
  | KPop x y n =>
      if afree e x then
        match aget e y with
        | Some v => aput (setnth e y (Some {| val := root_or (skipn (Z.to_nat n) (val v)); cut := Rest |}))
                         x (root_or (firstn (Z.to_nat n) (val v))) Rest
        | None => None
        end
      else None
  | KAssign x y =>
      if x =? y then None else
      match aget e x, aget e y with Some _, Some v => aput e x (val v) (cut v) | _, _ => None end
  | KAppend x y =>
      if x =? y then None else
      match aget e x, aget e y with
      | Some v, Some w =>
          if is_rest (cut v) || ends_in_slash (val v) then None else aput e x (joined_keys (val v) (val w)) (cut v)
      | _, _ => None
      end
  | KPrepend x y =>
      if x =? y then None else
      match aget e x, aget e y with
      | Some v, Some w => if is_whole (cut v) then aput e x (root_or (named (val w) ++ val v)) Whole else None
      | _, _ => None
      end
  | KDestroy x => match aget e x with Some _ => Some (setnth e x None) | None => None end
  end.
Fixpoint arun (e : aenv) (ops : list kop) : option aenv :=
  match ops with
  | [] => Some e
  | o :: r => match ameaning e o with Some e => arun e r | None => None end
  end.
(** Strings handed to the parser are C strings. *)
Definition kc_string (o : kop) : Prop := match o with KParse _ s => nul_free s | _ => True end.
