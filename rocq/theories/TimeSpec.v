(** Times as integers. *)
From Verif Require Import Base TimeModel.
Local Open Scope Z_scope.

(** The moment meant, in microseconds. *)
Definition us (t : wvtime) : Z := sec t * 1000000 + usec t.
(** The one representation of a moment with its microseconds below a second. *)
Definition normal (t : wvtime) : Prop := 0 <= usec t < 1000000.
(** Within about 285000 years of 1970, so that microseconds fit 64 bits. *)
Definition sane (t : wvtime) : Prop := - 2 ^ 43 <= sec t <= 2 ^ 43.
