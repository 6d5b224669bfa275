(** What a refresh should do and tell.  Independent of the model. *)
From Verif Require Import Base KeySpec TempSpec.
Local Open Scope nat_scope.

(** [n] tells how the contents went from [m] to [m']: every notification is true now
    and was not before; every key that changed is notified; no value is notified
    twice. *)
Record tells_change (m m' : contents) (n : list (list bytes * option bytes)) : Prop := {
  tc_true : forall k v, In (k, v) n -> Forall plain k /\ m' k = v /\ m k <> v;
  tc_all : forall k, Forall plain k -> m k <> m' k -> exists k0 v, In (k0, v) n /\ same k0 k = true;
  tc_once : forall l k v l' k' v', n = l ++ (k, Some v) :: l' -> In (k', v') (l ++ l') -> same k k' = false }.
