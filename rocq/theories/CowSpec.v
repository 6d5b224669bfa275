(** Strings as independent values: each variable holds NULL or its own text. *)
From Verif Require Import Base CowModel.
Local Open Scope nat_scope.

(** [None]: not constructed; [Some None]: a null string; [Some (Some t)]: text [t] *)
Definition values := list (option (option bytes)).
Definition get (e : values) (x : nat) : option (option bytes) :=
  match nth_error e x with Some v => v | None => None end.
Definition is_fresh (e : values) (x : nat) : bool := match nth_error e x with Some None => true | _ => false end.
Definition is_live (e : values) (x : nat) : bool := match get e x with Some _ => true | _ => false end.
Definition drop (i : nat) (t : option bytes) : option bytes :=
  match t with None => None | Some t => Some (skipn i t) end.
Definition put (e : values) (x : nat) (v : option bytes) : values := setnth e x (Some v).

(** The meaning of each statement; [None]: the statement may not be used here
    (a dead variable, an index outside the text, a text that does not fit) *)
Definition meaning (e : values) (o : op) : option values :=
  let fresh x v := if is_fresh e x then match v with Some v => Some (put e x v) | None => None end else None in
  let live x v := if is_live e x then match v with Some v => Some (put e x v) | None => None end else None in
  match o with
  | New x => fresh x (Some None)
  | NewC x s => fresh x (Some s)
  | NewCopy x y => fresh x (get e y)
  | NewOffset x y i => fresh x (match get e y with Some t => Some (drop i t) | None => None end)
  | Destroy x => if is_live e x then Some (setnth e x None) else None
  | Assign x y => live x (get e y)
  | AssignC x s _ => live x (Some s)
  | AssignIn x y i _ =>
      live x (match get e y with
              | Some (Some t) => if i <=? length t then Some (Some (skipn i t)) else None
              | _ => None end)
  | AssignOffset x y i => live x (match get e y with Some t => Some (drop i t) | None => None end)
  | Poke x i c =>
      match get e x with
      | Some (Some t) => if i <? length t
                         then Some (put e x (Some (cstr (firstn i t ++ c :: skipn (S i) t)))) else None
      | _ => None
      end
  | Fill x n s => if length s <=? n then live x (Some (Some s)) else None
  | Append x y =>
      match get e x, get e y with
      | Some u, Some None => Some (put e x u)
      | Some None, Some (Some t) => Some (put e x (Some t))
      | Some (Some u), Some (Some t) => Some (put e x (Some (u ++ t)))
      | _, _ => None
      end
  end.
Fixpoint meanings (e : values) (ops : list op) : option values :=
  match ops with
  | [] => Some e
  | o :: ops => match meaning e o with Some e => meanings e ops | None => None end
  end.

(** C strings do not contain zero bytes *)
Definition c_string (o : op) : Prop :=
  match o with
  | NewC _ (Some s) | AssignC _ (Some s) _ | Fill _ _ s => nul_free s
  | _ => True
  end.
(** the C string assigned does not start just after the target's buffer *)
Definition far (o : op) : Prop :=
  match o with AssignC _ _ (Some _) | AssignIn _ _ _ (Some _) => False | _ => True end.
Definition uses_offset (o : op) : bool := match o with NewOffset _ _ _ | AssignOffset _ _ _ => true | _ => false end.
Definition own_tail (o : op) : bool := match o with AssignIn x y _ _ => x =? y | _ => false end.
