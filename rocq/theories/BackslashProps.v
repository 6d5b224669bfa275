(** C09, C48: backslash encoder and decoder. *)
From Verif Require Import Base EncoderModel BackslashModel BackslashSpec BackslashProofs.

(** Writing to a growing buffer: whatever the chunking and flush flags, the
    output is the escaped text of everything fed. *)
Theorem C09_encoder_any_chunking : forall nasties calls,
  exists s bs, feed (BackslashEncoder nasties) (est_init _) [] calls
    = Ok (s, [], bs_text nasties (fed calls), bs).
Proof. exact encoder_feed. Qed.
Print Assumptions C09_encoder_any_chunking.

(** Decoding that text in any pieces gives the bytes back.  (A flush in the
    middle of an escape ends the escape, so flushing is only allowed at the end.) *)
Theorem C09_decoder_any_chunking : forall nasties calls d, decodable nasties ->
  Forall (fun c => snd c = false) calls -> fed calls = bs_text nasties d ->
  exists bs, feed BackslashDecoder (est_init _) [] calls = Ok (est_init _, [], d, bs).
Proof. exact decoder_feed. Qed.
Print Assumptions C09_decoder_any_chunking.

(** Limited output.  Missing from the property: what happens when the output
    does not fit (see the refutations below). *)
Theorem C09_encoder_room_partial : forall nasties flush unread k d,
  length (bs_text nasties d) <= k ->
  bs_encode nasties flush unread (Some k) d = Ok (BsOut (bs_text nasties d) 0 true).
Proof.
  intros. apply encode_fits. apply Nat.leb_le. assumption.
Qed.
Print Assumptions C09_encoder_room_partial.

Theorem C09_decoder_room_partial : forall nasties d f flush, decodable nasties -> length d < f ->
  bs_decode bdec_reset (bs_text nasties d) (Some f) flush =
    Ok (bdec_reset, Some (f - length d), [], d, true).
Proof. exact decode_room. Qed.
Print Assumptions C09_decoder_room_partial.

(** The property fails whenever the encoder's output does not fit: with a fresh
    output buffer an assertion fails; otherwise already consumed output
    reappears and the rest of the input is gone. *)
Theorem C09_encoder_short_refuted : forall nasties flush k d,
  k < length (bs_text nasties d) ->
  bs_encode nasties flush 0 (Some k) d = Fault /\
  forall unread o, bs_encode nasties flush unread (Some k) d = Ok o -> 0 < bs_rewound o.
Proof.
  intros nasties flush k d H. split.
  - exact (encode_short_fresh nasties flush k d H).
  - intros unread o E. exact (proj1 (proj1 (encode_short nasties flush unread k d o H E))).
Qed.
Print Assumptions C09_encoder_short_refuted.

(** The decoder already fails on an exact fit. *)
Theorem C09_decoder_exact_fit_refuted : exists d f, length d = f /\
  bs_decode bdec_reset (bs_text (B "\") d) (Some f) false = Fault.
Proof. exists (B "ab"), 2. split; vm_compute; reflexivity. Qed.
Print Assumptions C09_decoder_exact_fit_refuted.

(** C48: the decoder implements the documented escapes, in any pieces. *)
Theorem C48_documented_escapes_partial : forall calls d,
  Forall (fun c => snd c = false) calls -> doc_text (fed calls) d ->
  exists bs, feed BackslashDecoder (est_init _) [] calls = Ok (est_init _, [], d, bs).
Proof. exact decoder_doc. Qed.
Print Assumptions C48_documented_escapes_partial.

(** ... except the line continuation, documented to give a space. *)
Theorem C48_line_continuation_refuted : exists bs,
  feed BackslashDecoder (est_init _) [] [("\"%char :: newline :: [], false)]
  = Ok (est_init _, [], [newline], bs).
Proof. eexists. vm_compute. reflexivity. Qed.
Print Assumptions C48_line_continuation_refuted.

(** The default set of nasty characters is decodable. *)
Example C09_ex_default : decodable (B "\""").
Proof.
  split; [cbn; tauto|]. intros c [<-|[<-|[]]]; cbn; intuition discriminate.
Qed.
Example C09_ex_enc :
  feed (BackslashEncoder (B "\""")) (est_init _) [] [(B "a\", true); (newline :: nul :: B """", false)]
  = Ok (est_init _, [], B "a\\\n\x00\""", [true; true]).
Proof. vm_compute. reflexivity. Qed.
Example C09_ex_dec :
  feed BackslashDecoder (est_init _) [] [(B "a\", false); (B "\\n\x", false); (B "00\""", false)]
  = Ok (est_init _, [], B "a\" ++ newline :: nul :: B """", [true; true; true]).
Proof. vm_compute. reflexivity. Qed.
Example C48_ex : doc_text (B "a\0101\q") (B "aAq").
Proof.
  apply (dt_cons (B "a") "a"%char (B "\0101\q") (B "Aq")); [apply tk_plain; discriminate|].
  apply (dt_cons (B "\0101") "A"%char (B "\q") (B "q")); [|apply (dt_cons (B "\q") "q"%char [] []); [|apply dt_nil]].
  - apply (tk_octal "1" "0" "1" 1 0 1); cbn; tauto.
  - apply tk_other; [cbn; intuition discriminate|discriminate].
Qed.
