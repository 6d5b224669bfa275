(** What an error object should remember. *)
From Verif Require Import Base.
Local Open Scope Z_scope.

(** Another error object, as seen from outside: isok(), geterr(), and the text
    if it was given one. *)
Record other := Other { o_ok : bool; o_num : Z; o_text : option bytes }.
Inductive op :=
| SetNum (n : Z) | SetText (t : bytes) | SetBoth (n : Z) (t : bytes) | SetFrom (e : other) | SetPrefix (p : bytes) (e : other)
| Assign (e : other) | Clear.

(** An error: a number, and the text if one was given. *)
Definition error := (Z * option bytes)%type.
Definition some_error (n : Z) (t : option bytes) : option error := if n =? 0 then None else Some (n, t).
Definition message (strerror : Z -> bytes) (n : Z) (t : option bytes) : bytes := match t with Some t => t | None => strerror n end.

(** The error that a call reports. *)
Definition reports (strerror : Z -> bytes) (o : op) : option error :=
  match o with
  | SetNum n => some_error n None
  | SetText t => Some (-1, Some t)
  | SetBoth n t => some_error n (Some t)
  | SetFrom e | Assign e => some_error (o_num e) (o_text e)
  | SetPrefix p e => if o_ok e then None else some_error (o_num e) (Some (p ++ B ": " ++ message strerror (o_num e) (o_text e)))
  | Clear => None
  end.
(** Does the call forget what was before? *)
Definition forgets (o : op) : bool := match o with Assign _ | Clear => true | _ => false end.

(** The error after the calls: the first one reported since the last that forgets;
    [cur] is the one at the start.  [told] are the ones the callback gets. *)
Fixpoint original (strerror : Z -> bytes) (ops : list op) (cur : option error) : option error :=
  match ops with
  | [] => cur
  | o :: ops => original strerror ops (match (if forgets o then None else cur) with Some e => Some e | None => reports strerror o end)
  end.
Fixpoint told (strerror : Z -> bytes) (ops : list op) (cur : option error) : list error :=
  match ops with
  | [] => []
  | o :: ops =>
      match (if forgets o then None else cur), reports strerror o with
      | None, Some e => e :: told strerror ops (Some e)
      | None, None => told strerror ops None
      | Some c, _ => told strerror ops (Some c)
      end
  end.

(** Calls that keep to the rules: texts are not empty; -1 and other negative numbers
    come with a text; a text comes with an error; objects that are not isok() have an
    error number. *)
Definition full (t : bytes) : Prop := t <> [].
Definition sound (e : other) : Prop :=
  (o_num e < 0 -> o_text e <> None) /\ (o_num e = 0 -> o_text e = None) /\ (forall t, o_text e = Some t -> full t).
Definition proper (o : op) : Prop :=
  match o with
  | SetNum n => 0 <= n
  | SetText t => full t
  | SetBoth n t => n <> 0 /\ full t
  | SetFrom e | Assign e => sound e
  | SetPrefix _ e => sound e /\ (o_ok e = false -> o_num e <> 0)
  | Clear => True
  end.
