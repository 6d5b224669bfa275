(** The number that digits mean. *)
From Verif Require Import Base.
From Coq Require Import NArith.
Local Open Scope N_scope.

Definition digits (l : list N) : Prop := Forall (fun d => d < 16) l.
Definition value (l : list N) : N := fold_left (fun n d => 16 * n + d) l 0.
(** Digits after a point, in units of 1/65536; only four count. *)
Definition fraction (l : list N) : N := value (firstn 4 l) * 16 ^ (4 - N.of_nat (length (firstn 4 l))).
(** As text, in lower case. *)
Definition hexch (d : N) : ascii := nth (N.to_nat d) (B "0123456789abcdef") "0"%char.
Definition text (l : list N) : bytes := map hexch l.
