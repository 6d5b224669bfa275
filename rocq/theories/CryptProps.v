(** C10: XOR and counter-mode encoders. *)
From Verif Require Import Base EncoderModel CryptModel CryptSpec CryptProofs.

(** Whatever the pieces and flushes, byte [i] of the stream is combined with
    byte [i mod length key] of the key. *)
Theorem C10_xor_stream : forall key calls, key <> [] ->
  exists s bs, feed (XOREncoder key) (est_init _) [] calls = Ok (s, [], xor_text key (fed calls), bs).
Proof. exact xor_feed. Qed.
Print Assumptions C10_xor_stream.

(** A second encoder with the same key gives the data back, however the
    encrypted stream is cut. *)
Theorem C10_xor_inverse : forall key calls s e bs calls', key <> [] ->
  feed (XOREncoder key) (est_init _) [] calls = Ok (s, [], e, bs) -> fed calls' = e ->
  exists s' bs', feed (XOREncoder key) (est_init _) [] calls' = Ok (s', [], fed calls, bs').
Proof. exact xor_inverse. Qed.
Print Assumptions C10_xor_inverse.

(** The counter takes all 256^n values before it repeats. *)
Theorem C10_counter_period : forall c i j,
  Nat.iter i incrcounter c = Nat.iter j incrcounter c <->
  (N.of_nat i mod 256 ^ N.of_nat (length c) = N.of_nat j mod 256 ^ N.of_nat (length c))%N.
Proof. exact counter_period. Qed.
Print Assumptions C10_counter_period.

(** Counter mode over any block function [K] on [n]-byte blocks: each flushed
    segment is encrypted from a fresh block; after the last flush only whole
    blocks come out and the rest waits in the input buffer. *)
Theorem C10_ctr_stream : forall keycrypt K n, 0 < n ->
  (forall b, length b = n -> keycrypt b = Some (K b)) -> (forall b, length b = n -> length (K b) = n) ->
  forall counter calls, length counter = n ->
  exists s bs,
  let '(segs, last) := segments [] calls in
  feed (CounterModeEncoder keycrypt counter) (est_init _) [] calls =
  Ok (s, skipn (length last / n * n) last,
      ctr_segments K n (le_val counter) (segs ++ [firstn (length last / n * n) last]), bs).
Proof. exact ctr_feed. Qed.
Print Assumptions C10_ctr_stream.

(** Decrypting with the same key and initial counter, flushing at the same
    places but cutting the stream anywhere else, gives the data back. *)
Theorem C10_ctr_inverse : forall keycrypt K n, 0 < n ->
  (forall b, length b = n -> keycrypt b = Some (K b)) -> (forall b, length b = n -> length (K b) = n) ->
  forall counter calls segs s rest e bs calls2 segs2, length counter = n ->
  segments [] calls = (segs, []) ->
  feed (CounterModeEncoder keycrypt counter) (est_init _) [] calls = Ok (s, rest, e, bs) ->
  segments [] calls2 = (segs2, []) -> map (@length _) segs2 = map (@length _) segs -> fed calls2 = e ->
  exists s2 bs2, feed (CounterModeEncoder keycrypt counter) (est_init _) [] calls2 = Ok (s2, [], fed calls, bs2).
Proof. exact ctr_inverse. Qed.
Print Assumptions C10_ctr_inverse.

(** The edge cases the hypotheses exclude: an empty key or counter. *)
Theorem C10_empty_key_refuted : forall c l f r,
  feed (XOREncoder []) (est_init _) [] ((c :: l, f) :: r) = Fault.
Proof. intros. reflexivity. Qed.
Print Assumptions C10_empty_key_refuted.

Theorem C10_empty_counter_refuted : forall keycrypt c l, (forall b, keycrypt b <> None) ->
  ctr_encode keycrypt [] (c :: l) false = NoFuel.
Proof.
  intros keycrypt c l H.
  assert (G : forall f len, keystream keycrypt f [] len = NoFuel).
  { induction f as [|f IH]; intros len; [reflexivity|]. cbn [keystream length Nat.ltb Nat.leb incrcounter].
    destruct (keycrypt []) eqn:E; [|destruct (H _ E)]. rewrite IH. reflexivity. }
  unfold ctr_encode. rewrite G. reflexivity.
Qed.
Print Assumptions C10_empty_counter_refuted.

(** A toy block function on 2-byte blocks. *)
Definition toyK (b : bytes) : bytes := match b with [x; y] => [y; x] | _ => b end.
Example C10_ex_hyp : (forall b, length b = 2 -> Some (toyK b) = Some (toyK b)) /\ (forall b, length b = 2 -> length (toyK b) = 2).
Proof. split; [reflexivity|]. intros [|x [|y [|z b]]]; cbn; congruence. Qed.
Example C10_ex_ctr :
  exists e s bs, feed (CounterModeEncoder (fun b => Some (toyK b)) (B "az")) (est_init _) []
     [(B "hel", false); (B "lo", true); (B "x", true)] = Ok (s, [], e, bs) /\ length e = 6 /\
  exists s2 bs2, feed (CounterModeEncoder (fun b => Some (toyK b)) (B "az")) (est_init _) []
     [(firstn 5 e, true); ([], false); (skipn 5 e, true)] = Ok (s2, [], B "hellox", bs2).
Proof. do 3 eexists. split; [vm_compute; reflexivity|]. split; [reflexivity|]. do 2 eexists. vm_compute. reflexivity. Qed.
Example C10_ex_xor : exists s bs,
  feed (XOREncoder (B "k2!")) (est_init _) [] [(B "ab", false); (B "cd", true)] = Ok (s, [], xor_text (B "k2!") (B "abcd"), bs)
  /\ xor_text (B "k2!") (B "abcd") <> B "abcd".
Proof. do 2 eexists. split; vm_compute; [reflexivity|discriminate]. Qed.
