(** Making a stream of samples come out at another rate: every sample is
    repeated some number of times. *)
From Verif Require Import Base.
Local Open Scope Z_scope.

(** Every sample as often as its number says, in the same order. *)
Fixpoint stretched (ks : list nat) (samples : list bytes) : bytes :=
  match ks, samples with
  | k :: ks, s :: samples => concat (repeat s k) ++ stretched ks samples
  | _, _ => []
  end.

(** How many samples come out for the first [j]. *)
Definition out_after (j : nat) (ks : list nat) : Z := Z.of_nat (list_sum (firstn j ks)).
