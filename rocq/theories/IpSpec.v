(** Addresses as numbers, networks as sets. *)
From Verif Require Import Base IpModel.
Local Open Scope N_scope.

(** Each byte is one. *)
Definition ok_ip (a : ipaddr) : Prop := b0 a < 256 /\ b1 a < 256 /\ b2 a < 256 /\ b3 a < 256.
Definition ok_net (n : ipnet) : Prop := ok_ip (base n) /\ ok_ip (mask n).
(** The 32-bit number of an address, most significant byte first. *)
Definition number (a : ipaddr) : N := b0 a * 2 ^ 24 + b1 a * 2 ^ 16 + b2 a * 2 ^ 8 + b3 a.
(** The addresses of a network: they agree with its base wherever the mask is 1. *)
Definition member (n : ipnet) (x : ipaddr) : Prop :=
  forall i, N.testbit (number (mask n)) i = true -> N.testbit (number x) i = N.testbit (number (base n)) i.
(** The mask is [k] ones and then zeros. *)
Definition prefix_mask (m : ipaddr) (k : N) : Prop := k <= 32 /\ number m = 2 ^ 32 - 2 ^ (32 - k).
