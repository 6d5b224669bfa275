(** Words for file systems without links. *)
From Verif Require Import Base KeySpec.

(** A name in a directory *)
Definition name (s : bytes) : Prop := plain s /\ s <> B "." /\ s <> B "..".
(** [p] is at or below [d]. *)
Definition inside (d p : list bytes) : Prop := exists r, p = d ++ r.
