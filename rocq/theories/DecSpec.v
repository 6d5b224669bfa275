(** Decimal notation. *)
From Verif Require Import Base.
Local Open Scope Z_scope.

Definition digit (c : byte) : Prop := (48 <= nat_of_ascii c <= 57)%nat.
Definition digit_value (c : byte) : Z := Z.of_nat (nat_of_ascii c) - 48.
(** The number written by a string of digits *)
Definition value (s : bytes) : Z := fold_left (fun a c => 10 * a + digit_value c) s 0.
(** [s] is the usual decimal notation of [n]: digits only, the right value, and
    no needless leading zero *)
Definition is_decimal (n : Z) (s : bytes) : Prop :=
  s <> [] /\ Forall digit s /\ value s = n /\ (hd nul s = ascii_of_nat 48 -> s = [ascii_of_nat 48]).
Definition is_signed_decimal (n : Z) (s : bytes) : Prop :=
  if n <? 0 then exists t, s = ascii_of_nat 45 :: t /\ is_decimal (- n) t else is_decimal n s.
