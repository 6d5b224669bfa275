(** What the checksums are, after their definitions. *)
From Verif Require Import Base.
From Coq Require Import NArith.
Local Open Scope N_scope.

Definition num (b : ascii) : N := N_of_ascii b.
(** Adler-32 (RFC 1950): the sum of the bytes and one, and the sum of these sums. *)
Fixpoint sum (l : bytes) : N := match l with [] => 0 | b :: l => num b + sum l end.
Fixpoint weighted (l : bytes) : N := match l with [] => 0 | b :: l => N.of_nat (S (length l)) * num b + weighted l end.
Definition adler (l : bytes) : N := ((N.of_nat (length l) + weighted l) mod 65521) * 65536 + (1 + sum l) mod 65521.
(** Four bytes, most significant first. *)
Definition be32 (n : N) : bytes := map ascii_of_N [n / 2 ^ 24 mod 256; n / 2 ^ 16 mod 256; n / 2 ^ 8 mod 256; n mod 256].
(** CRC-32 (ISO 3309, as in PNG and zip): the bits, of each byte the least significant first,
    go through a shift register that starts with ones; it is inverted in the end. *)
Definition shift (c : N) (bit : bool) : N := if xorb (N.odd c) bit then N.lxor (N.div2 c) 3988292384 else N.div2 c.
Definition bits (b : ascii) : list bool := let n := num b in map (N.testbit n) [0; 1; 2; 3; 4; 5; 6; 7].
Definition register (l : bytes) : N := fold_left shift (flat_map bits l) 4294967295.
Definition crc (l : bytes) : N := N.lxor (register l) 4294967295.

(** A history of calls, and what comes out of it: [h] of all data since the last reset, at
    the first finish after that. *)
Inductive op := Encode (inbuf : list bytes) (flush fin : bool) | Finish | Reset.
Fixpoint expect (h : bytes -> bytes) (l : list op) (d : bytes) (done : bool) : bytes :=
  match l with
  | [] => []
  | Encode i _ fin :: l =>
      if done then expect h l d true
      else if fin then h (d ++ concat i) ++ expect h l (d ++ concat i) true
      else expect h l (d ++ concat i) false
  | Finish :: l => if done then expect h l d true else h d ++ expect h l d true
  | Reset :: l => expect h l [] false
  end.
