(** Model of crypto/wvdigest.cc: the digests, and of WvEncoder's encode, finish and reset
    around them.  OpenSSL's hash functions are a function of all the data since the last
    Init; zlib's two checksums are given. *)
From Verif Require Import Base DigSpec.
From Coq Require Import NArith.
Local Open Scope N_scope.

(** What a digest keeps, starts with, does with a piece of data, and gives in the end *)
Record algo := Algo { state : Type; init : state; update : state -> bytes -> state; final : state -> bytes }.

(** crypto/wvdigest.cc:16-166: WvEVPMDDigest and WvHMACDigest; [h] is the hash function, or HMAC with the key *)
Definition evp (h : bytes -> bytes) : algo := Algo bytes [] (fun s d => s ++ d) h.

(** zlib's crc32(crc, buf, len), bit by bit *)
Definition crc_bit (c : N) : N := if N.odd c then N.lxor (N.shiftr c 1) 3988292384 else N.shiftr c 1.
Definition crc_byte (c : N) (b : ascii) : N := N.iter 8 crc_bit (N.lxor c (N_of_ascii b)).
Definition flip (c : N) : N := N.lxor c 4294967295.
Definition zcrc32 (c : N) (d : bytes) : N := flip (fold_left crc_byte d (flip c)).
(** zlib's adler32(adler, buf, len) *)
Definition adler_byte (s : N * N) (b : ascii) : N * N := let a := (fst s + N_of_ascii b) mod 65521 in (a, (snd s + a) mod 65521).
Definition zadler32 (c : N) (d : bytes) : N := let '(a, b) := fold_left adler_byte d (c mod 65536, c / 65536) in b * 65536 + a.
(** wv_serialize() of a uint32_t: network order *)
Definition serialize (c : N) : bytes := map ascii_of_N [c / 2 ^ 24 mod 256; c / 2 ^ 16 mod 256; c / 2 ^ 8 mod 256; c mod 256].
(** crypto/wvdigest.cc:169-202: WvCrc32Digest; crc32(0, NULL, 0) is 0 *)
Definition crc32 : algo := Algo N 0 zcrc32 serialize.
(** crypto/wvdigest.cc:205-239: WvAdler32Digest; adler32(0, NULL, 0) is 1 *)
Definition adler32 : algo := Algo N 1 zadler32 serialize.

(** include/wvencoder.h:70-71, include/wvdigest.h:50 *)
Record enc (A : algo) := Enc { okay : bool; finished : bool; active : bool; cur : state A }.
Arguments Enc {A}. Arguments okay {A}. Arguments finished {A}. Arguments active {A}. Arguments cur {A}.
Definition new (A : algo) : enc A := Enc true false true (init A).
(** The loop of _encode: the input buffer is taken in pieces, as it happens to be stored *)
Definition _encode {A} (e : enc A) (inbuf : list bytes) : enc A := Enc (okay e) (finished e) (active e) (fold_left (update A) inbuf (cur e)).
(** _finish; a digest that was finished may not be again *)
Definition _finish {A} (e : enc A) : res (enc A * bytes) := if active e then Ok (Enc (okay e) (finished e) false (cur e), final A (cur e)) else Fault.
(** utils/wvencoder.cc:52-61: finish; what comes out *)
Definition finish {A} (e : enc A) : res (enc A * bool * bytes) :=
  let success := (okay e && negb (finished e))%bool in
  let! (e, out) := if success then _finish e else Ok (e, []) in
  Ok (Enc (okay e) true (active e) (cur e), success, out).
(** utils/wvencoder.cc:37-49: encode; also what is left of the input *)
Definition encode {A} (e : enc A) (inbuf : list bytes) (flush fin : bool) : res (enc A * bool * list bytes * bytes) :=
  let success := (okay e && negb (finished e) && (negb (Nat.eqb (length (concat inbuf)) 0) || flush))%bool in
  let '(e, left_) := if success then (_encode e inbuf, []) else (e, inbuf) in
  if fin then let! (e, ok, out) := finish e in Ok (e, (ok && success)%bool, left_, out)
  else Ok (e, success, left_, []).
(** utils/wvencoder.cc:64-77 and the digests' _reset *)
Definition reset {A} (e : enc A) : enc A := Enc true false true (init A).

(** a call *)
Definition step {A} (e : enc A) (o : op) : res (enc A * bytes) :=
  match o with
  | Encode i f n => let! (e, _, _, out) := encode e i f n in Ok (e, out)
  | Finish => let! (e, _, out) := finish e in Ok (e, out)
  | Reset => Ok (reset e, [])
  end.
Fixpoint run {A} (e : enc A) (l : list op) : res (enc A * bytes) :=
  match l with [] => Ok (e, []) | o :: l => let! (e, a) := step e o in let! (e, b) := run e l in Ok (e, a ++ b) end.
