(** What formatted sizes, times and numbers mean.  Independent of the model, but for the
    names of the rounding methods. *)
From Verif Require Import Base DecSpec NumFmtModel.
From Coq Require Import ZArith.
Local Open Scope Z_scope.

(** [q] is [n / d], rounded. *)
Definition rounded (m : rounding) (n d q : Z) : Prop :=
  match m with
  | ROUND_DOWN => q * d <= n < (q + 1) * d
  | ROUND_UP => (q - 1) * d < n <= q * d
  | ROUND_UP_AT_POINT_FIVE => 2 * q * d - d <= 2 * n < 2 * q * d + d
  | ROUND_DOWN_AT_POINT_FIVE => 2 * q * d - d < 2 * n <= 2 * q * d + d
  end.
Definition si_names : list bytes := [[]; B "k"; B "M"; B "G"; B "T"; B "P"; B "E"; B "Z"; B "Y"].
Definition iec_names : list bytes := [[]; B "Ki"; B "Mi"; B "Gi"; B "Ti"; B "Pi"; B "Ei"; B "Zi"; B "Yi"].
(** [s] shows [n] bytes: tenths [q] of the unit [g ^ k], rounded; the unit is the first, from
    [lo] on, of which there are fewer than [g]. *)
Definition shows (g : Z) (names : list bytes) (m : rounding) (lo : nat) (n : Z) (s : bytes) : Prop :=
  exists (k : nat) (q : Z) (a b name : bytes),
    (lo <= k)%nat /\ nth_error names k = Some name /\ is_decimal (q / 10) a /\ is_decimal (q mod 10) b /\
    s = a ++ B "." ++ b ++ B " " ++ name ++ B "B" /\
    rounded m (10 * n) (g ^ Z.of_nat k) q /\ q < 10 * g /\
    forall j q', (lo <= j < k)%nat -> rounded m (10 * n) (g ^ Z.of_nat j) q' -> 10 * g <= q'.

(** Times in words *)
Definition amount (n : Z) (unit s : bytes) : Prop := exists a, is_decimal n a /\ s = a ++ B " " ++ unit ++ (if n =? 1 then [] else B "s").
Definition listing (l : list bytes) : bytes :=
  match l with [] => [] | [a] => a | [a; b] => a ++ B " and " ++ b | a :: b :: c :: _ => a ++ B ", " ++ b ++ B " and " ++ c end.
