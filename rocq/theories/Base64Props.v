(** C06: base64. *)
From Verif Require Import Base EncoderModel Base64Model Base64Spec Base64Proofs.

(** Feeding bytes in any pieces, with any flush flags, and finishing yields
    exactly the RFC 4648 text of all bytes fed. *)
Theorem C06_base64_encoder : forall calls,
  feed_finish Base64Encoder calls = Ok ([], b64 (fed calls)).
Proof. exact b64_encoder_feed. Qed.
Print Assumptions C06_base64_encoder.

(** Decoding RFC 4648 text, with white space anywhere and in any pieces,
    outputs exactly the original bytes and no error. *)
Theorem C06_base64_decoder : forall calls l,
  spaced (b64 l) (fed calls) ->
  exists s rest bs, feed Base64Decoder (est_init _) [] calls = Ok (s, rest, l, bs)
    /\ okay s = true.
Proof. exact b64_decoder_feed. Qed.
Print Assumptions C06_base64_decoder.

(** In one flushing call the decoder also reports success and leaves nothing. *)
Theorem C06_base64_decoder_once : forall l t, spaced (b64 l) t ->
  exists s, enc_do_encode Base64Decoder (est_init _) t true false = Ok (s, [], l, true)
    /\ okay s = true.
Proof. exact b64_decoder_once. Qed.
Print Assumptions C06_base64_decoder_once.

(** Round trip, both sides chunked arbitrarily. *)
Theorem C06_base64_roundtrip : forall calls e calls',
  feed_finish Base64Encoder calls = Ok ([], e) -> fed calls' = e ->
  exists s rest bs, feed Base64Decoder (est_init _) [] calls' = Ok (s, rest, fed calls, bs)
    /\ okay s = true.
Proof. exact b64_roundtrip. Qed.
Print Assumptions C06_base64_roundtrip.

(** Text holding a foreign character is reported as an error. *)
Theorem C06_base64_rejects : forall c t flush, b64_bad c -> In c t ->
  exists s rest out,
    enc_do_encode Base64Decoder (est_init _) t flush false = Ok (s, rest, out, false)
    /\ okay s = false.
Proof. exact b64_decoder_rejects. Qed.
Print Assumptions C06_base64_rejects.

Example C06_ex_enc :
  feed_finish Base64Encoder [(B "Ma", false); (B "ny", true); (B "", true)] = Ok ([], B "TWFueQ==").
Proof. vm_compute. reflexivity. Qed.
Example C06_ex_spaced : spaced (b64 (B "Many")) (B "TWF ueQ =="%string).
Proof. vm_compute. repeat first [apply sp_keep | apply sp_ws; [cbn; tauto|] | apply sp_nil]. Qed.
Example C06_ex_dec :
  feed Base64Decoder (est_init _) [] [(B "TW", false); (B "F ueQ=", false); (B "=", true)]
  = Ok (@Est Base64Decoder true true (B64D DPAD 0), B "=", B "Many", [true; true; false]).
Proof. vm_compute. reflexivity. Qed.
Example C06_ex_bad : b64_bad "*"%char.
Proof. split; [|split]; cbn; intuition discriminate. Qed.
