(** When an event that comes [num] times a day, evenly from [hour] on, is due.
    Times are seconds; [off] is how far the local time is ahead of UTC. *)
From Coq Require Import ZArith.
From Verif Require Import Base TimeModel TimeSpec.
Local Open Scope Z_scope.

(** The k-th event of the local day [d] (a number of days since 1970-01-01). *)
Definition slot_of (off hour num d k : Z) : Z := d * 86400 - off + hour * 3600 + k * (86400 / num).

(** [t] is one of the [num] events of a day. *)
Definition slot (off hour num t : Z) : Prop := exists d k, 0 <= k < num /\ t = slot_of off hour num d k.

(** [t] is the first event after [prev], and not before [from]. *)
Definition first_slot (off hour num prev from t : Z) : Prop :=
  slot off hour num t /\ prev < t /\ from <= t /\
  forall t', slot off hour num t' -> prev < t' -> from <= t' -> t <= t'.

(** A time_t for the next 270000 years. *)
Definition small (z : Z) : Prop := 0 <= z <= 2 ^ 43.

(** A round of the main loop that begins before the second [t] and ends not
    after it: the stepped time in seconds and the clock. *)
Definition early (t : Z) (r : Z * wvtime) : Prop :=
  small (fst r) /\ small (sec (snd r)) /\ 0 <= usec (snd r) < 1000000 /\ fst r < t /\ us (snd r) <= t * 1000000.
