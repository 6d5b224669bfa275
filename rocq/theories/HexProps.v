(** Theorems about the hex codec (utils/wvhex.cc). *)
From Verif Require Import Base EncoderModel HexModel HexSpec HexProofs.

(** C05: in whatever pieces the input comes (and whether or not flush is
    requested in each call), the encoder's output is the hex text of the whole. *)
Theorem C05_hex_encoder_any_chunking : forall (upper : bool) (calls : list (bytes * bool)),
  exists s bs, feed (HexEncoder upper) (est_init _) [] calls =
    Ok (s, [], hex_text (if upper then digits_upper else digits_lower) (fed calls), bs).
Proof. exact hex_encoder_feed. Qed.
Print Assumptions C05_hex_encoder_any_chunking.

(** C05: in whatever pieces it comes, text that spells [l] decodes to [l], and
    the decoder stays ok. *)
Theorem C05_hex_decoder_any_chunking : forall (calls : list (bytes * bool)) (l : bytes),
  hex_reads (fed calls) l ->
  exists f bs, feed HexDecoder (est_init _) [] calls =
    Ok (@Est HexDecoder true false (HexSt false f), [], l, bs).
Proof. exact hex_decoder_feed. Qed.
Print Assumptions C05_hex_decoder_any_chunking.

(** C05: round trip with independent chunkings on both sides. *)
Theorem C05_hex_roundtrip :
  forall upper calls s rest e bs calls',
  feed (HexEncoder upper) (est_init _) [] calls = Ok (s, rest, e, bs) ->
  fed calls' = e ->
  exists f bs', feed HexDecoder (est_init _) [] calls' =
    Ok (@Est HexDecoder true false (HexSt false f), [], fed calls, bs').
Proof. exact hex_roundtrip. Qed.
Print Assumptions C05_hex_roundtrip.

(** C05: hexify writes the hex text and a NUL, and nothing else; unhexify stays
    inside a block of strlen/2 bytes for every text and inverts it. *)
Theorem C05_hexify : forall (obuf : mem) (ibuf : bytes),
  2 * length ibuf + 1 <= length obuf ->
  hexify obuf ibuf = Ok (hex_text digits_lower ibuf ++ nul :: skipn (2 * length ibuf + 1) obuf).
Proof. exact hexify_spec. Qed.
Print Assumptions C05_hexify.
Theorem C05_unhexify_safe : forall (obuf : mem) (ibuf : bytes),
  length ibuf / 2 <= length obuf ->
  exists m, unhexify obuf ibuf = Ok m /\ length m = length obuf.
Proof. exact unhexify_safe. Qed.
Print Assumptions C05_unhexify_safe.
Theorem C05_unhexify : forall (obuf : mem) (ibuf l : bytes),
  hex_reads ibuf l -> length ibuf / 2 <= length obuf ->
  unhexify obuf ibuf = Ok (l ++ skipn (length l) obuf).
Proof. exact unhexify_reads. Qed.
Print Assumptions C05_unhexify.

Example C05_example :
  hex_text digits_lower [ascii_of_nat 255; nul; "A"%char] = B "ff0041" /\
  hex_reads (B "fF 0 0
41") [ascii_of_nat 255; nul; "A"%char] /\
  fed [(B "fF 0", true); (B " 0", false); ([], true)] = B "fF 0 0".
Proof.
  split; [vm_compute; reflexivity|]. split; [|vm_compute; reflexivity].
  change (B "fF 0 0
41") with ("f"%char :: [] ++ "F"%char :: " "%char :: "0"%char :: [" "%char] ++ "0"%char ::
    newline :: "4"%char :: [] ++ "1"%char :: []).
  constructor; [split; [vm_compute; lia|vm_compute; auto]|split; [vm_compute; lia|vm_compute; auto]|intros x []|].
  apply hr_space; [vm_compute; auto|].
  constructor; [split; [vm_compute; lia|vm_compute; auto]|split; [vm_compute; lia|vm_compute; auto]|
    intros x [<-|[]]; vm_compute; auto|].
  apply hr_space; [vm_compute; tauto|].
  constructor; [split; [vm_compute; lia|vm_compute; auto]|split; [vm_compute; lia|vm_compute; auto]|intros x []|].
  constructor.
Qed.
