(** What a table of attributes holds after a history of assignments. *)
From Verif Require Import Base.

(** A null or empty string. *)
Definition blank (s : option bytes) : bool := match s with None | Some [] => true | _ => false end.

(** A C string, or null. *)
Definition cs (s : option bytes) : Prop := match s with Some s => nul_free s | None => True end.

(** What an assignment does to the value of one name: a null or empty name
    changes nothing, a null or empty value deletes. *)
Definition assigned (name : bytes) (cur : option bytes) (p : option bytes * option bytes) : option bytes :=
  let '(n, v) := p in
  match n with
  | Some ((_ :: _) as m) => if list_eq_dec Ascii.ascii_dec m name then (if blank v then None else v) else cur
  | _ => cur
  end.

(** The value of a name after a history, the oldest assignment first. *)
Definition holds (h : list (option bytes * option bytes)) (name : bytes) : option bytes :=
  fold_left (assigned name) h None.
