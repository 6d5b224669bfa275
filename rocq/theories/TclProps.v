(** Theorems about Tcl-style strings and lists (utils/wvtclstring.cc). *)
From Verif Require Import Base TclModel TclSpec TclProofs.
Local Open Scope char_scope.
Local Open Scope list_scope.

(** C01: escaping any string under any nasties mask and unescaping gives the
    string back. *)
Theorem C01_tcl_escape_lossless : forall (nasties : mask) (s : bytes), nul_free s ->
  exists e, wvtcl_escape nasties (Some s) = Ok (Some e) /\
            wvtcl_unescape (Some e) = Ok (Some s).
Proof. exact unescape_escape. Qed.
Print Assumptions C01_tcl_escape_lossless.

Example C01_example :
  nul_free (B "a } b\") /\
  wvtcl_escape WVTCL_NASTY_SPACES (Some (B "a } b\")) = Ok (Some (B "a\ \}\ b\\")).
Proof. split; [unfold nul_free; cbn; intuition discriminate | vm_compute; reflexivity]. Qed.

(** C45: the source says "NULL strings remain such"; in fact the null string
    escapes to the empty string, which is not null. *)
Theorem C45_tcl_escape_null_refuted :
  exists nasties, wvtcl_escape nasties None = Ok (Some []).
Proof. exists WVTCL_NASTY_SPACES. vm_compute. reflexivity. Qed.
Print Assumptions C45_tcl_escape_null_refuted.
Theorem C45_tcl_unescape_null : wvtcl_unescape None = Ok None.
Proof. reflexivity. Qed.
Print Assumptions C45_tcl_unescape_null.

(** C02: a list survives encoding and decoding, except for the one shape
    [lost_last]. *)
Theorem C02_tcl_list_roundtrip_partial :
  forall (nasties split : mask) (l : list bytes),
  usable_separators (mset nasties) (mset split) ->
  mset split (mfirst split) = true -> mfirst split <> nul ->
  Forall nul_free l ->
  ~ lost_last (mset nasties) l ->
  exists e, wvtcl_encode nasties split (map Some l) = Ok e /\
            wvtcl_decode split true e = Ok l.
Proof. exact decode_encode. Qed.
Print Assumptions C02_tcl_list_roundtrip_partial.

(** ... and in that shape exactly the last element is dropped. *)
Theorem C02_tcl_list_lost_last :
  forall (nasties split : mask) (l : list bytes),
  usable_separators (mset nasties) (mset split) ->
  mset split (mfirst split) = true -> mfirst split <> nul ->
  Forall nul_free l ->
  lost_last (mset nasties) l ->
  exists e, wvtcl_encode nasties split (map Some l) = Ok e /\
            wvtcl_decode split true e = Ok (removelast l).
Proof. exact decode_encode_lost. Qed.
Print Assumptions C02_tcl_list_lost_last.

(** With the default masks the two-element list  x , "}\n"  loses an element. *)
Theorem C02_tcl_list_roundtrip_refuted :
  exists l e, wvtcl_encode WVTCL_NASTY_SPACES WVTCL_SPLITCHARS (map Some l) = Ok e /\
              wvtcl_decode WVTCL_SPLITCHARS true e <> Ok l.
Proof.
  exists [B "x"; ["}"; newline]]. eexists. split; [vm_compute; reflexivity|].
  vm_compute. discriminate.
Qed.
Print Assumptions C02_tcl_list_roundtrip_refuted.

Lemma default_masks_usable :
  usable_separators (mset WVTCL_NASTY_SPACES) (mset WVTCL_SPLITCHARS).
Proof. split; [intros c H; left; exact H | split; reflexivity]. Qed.

Example C02_example :
  usable_separators (mset WVTCL_NASTY_SPACES) (mset WVTCL_SPLITCHARS) /\
  mset WVTCL_SPLITCHARS (mfirst WVTCL_SPLITCHARS) = true /\
  ~ lost_last (mset WVTCL_NASTY_SPACES) [B "foo"; []; B "a b"; B "x } y"; B "\"] /\
  wvtcl_encode WVTCL_NASTY_SPACES WVTCL_SPLITCHARS
    (map Some [B "foo"; []; B "a b"; B "x } y"; B "\"]) = Ok (B "foo {} {a b} x\ \}\ y \\").
Proof.
  split; [exact default_masks_usable|]. split; [reflexivity|]. split.
  - intros (l' & x & H & _). apply (f_equal (@rev _)) in H. rewrite rev_app_distr in H.
    cbn in H. inversion H as [[H1 H2]]. apply (f_equal (fun z => last z nul)) in H1.
    rewrite last_snoc in H1. discriminate H1.
  - vm_compute. reflexivity.
Qed.

(** C03: reading a word removes separators and one raw word from the front and
    nothing else; a null result leaves the buffer alone; never undefined. *)
Theorem C03_tcl_getword_framing : forall (split : mask) (u : bool) (buf : bytes),
  wvtcl_getword split u buf = Ok (None, buf) \/
  exists pre raw rest w, wvtcl_getword split u buf = Ok (Some w, rest) /\
    buf = pre ++ raw ++ rest /\ Forall (fun c => mset split c = true) pre /\ raw <> [] /\
    match rest with [] => True | c :: _ => mset split c = true end /\
    (if u then wvtcl_unescape (Some raw) = Ok (Some w) else w = cstr raw).
Proof. exact getword_framing. Qed.
Print Assumptions C03_tcl_getword_framing.

(** C03: once a word is followed by something, more input never changes it. *)
Theorem C03_tcl_getword_stable :
  forall (split : mask) (u : bool) (buf more w : bytes) (c : byte) (rest : bytes),
  wvtcl_getword split u buf = Ok (Some w, c :: rest) ->
  wvtcl_getword split u (buf ++ more) = Ok (Some w, c :: rest ++ more).
Proof. intros. apply getword_stable. assumption. Qed.
Print Assumptions C03_tcl_getword_stable.

Example C03_example :
  wvtcl_getword WVTCL_SPLITCHARS true (B "  {a b} c") = Ok (Some (B "a b"), B " c").
Proof. vm_compute. reflexivity. Qed.

(** C04: memory safety and termination. *)
Theorem C04_tcl_escape_safe : forall (nasties : mask) (s : option bytes),
  exists r, wvtcl_escape nasties s = Ok r.
Proof. exact escape_safe. Qed.
Print Assumptions C04_tcl_escape_safe.

Theorem C04_tcl_escape_two_pass : forall (nasties : mask) (s : option bytes) m off,
  off + fst (escape_size nasties s) <= length m ->
  exists out, escape_write nasties m off s =
    Ok (firstn off m ++ out ++ skipn (off + length out) m, length out) /\
    length out = fst (escape_size nasties s).
Proof. exact escape_two_pass. Qed.
Print Assumptions C04_tcl_escape_two_pass.

Theorem C04_tcl_decode_total : forall (split : mask) (u : bool) (s : bytes),
  exists l, wvtcl_decode split u s = Ok l.
Proof. exact decode_total. Qed.
Print Assumptions C04_tcl_decode_total.

(** Unescaping directly is safe for every string except the lone quote. *)
Theorem C04_tcl_unescape_safe_iff_partial : forall s,
  (exists r, wvtcl_unescape (Some s) = Ok r) <-> s <> [""""].
Proof. exact unescape_safe_iff. Qed.
Print Assumptions C04_tcl_unescape_safe_iff_partial.

Theorem C04_tcl_unescape_safe_refuted : exists s, wvtcl_unescape (Some s) = Fault.
Proof. exists [""""]. reflexivity. Qed.
Print Assumptions C04_tcl_unescape_safe_refuted.

(** C46: include/wvtclstring.h:26-27 documents that a three-element list may
    contain a quoted element; the decoder stops at the quote. *)
Theorem C46_tcl_quoted_word_refuted :
  exists s, s = B "x1 {} ""element 3""" /\
    wvtcl_decode WVTCL_SPLITCHARS true s = Ok [B "x1"; []].
Proof. eexists. split; [reflexivity|]. vm_compute. reflexivity. Qed.
Print Assumptions C46_tcl_quoted_word_refuted.

(** C47: a mask built from ASCII text answers membership; any byte >= 0x80
    indexes outside the table. *)
Theorem C47_mask_membership_partial : forall s,
  Forall (fun c => nat_of_ascii c < 128) s ->
  exists m, mask_of (Some s) = Ok m /\ mfirst m = hd nul s /\
    forall c, mset m c = true <-> In c s.
Proof. exact mask_of_spec. Qed.
Print Assumptions C47_mask_membership_partial.
Theorem C47_mask_set_char_partial : forall m c v, nat_of_ascii c < 128 ->
  exists m', mask_set_char m c v = Ok m' /\
    (forall x, mset m' x = if Ascii.eqb x c then v else mset m x) /\
    (mfirst m <> nul -> mfirst m' = mfirst m) /\ (mfirst m = nul -> mfirst m' = c).
Proof. exact mask_set_char_spec. Qed.
Print Assumptions C47_mask_set_char_partial.
Theorem C47_mask_high_byte_refuted : forall s,
  Exists (fun c => 128 <= nat_of_ascii c) s -> mask_of (Some s) = Fault.
Proof. exact mask_of_high. Qed.
Print Assumptions C47_mask_high_byte_refuted.
Example C47_example : Forall (fun c => nat_of_ascii c < 128) spaces /\
  exists m, mask_of (Some spaces) = Ok m.
Proof. split; [repeat constructor; vm_compute; lia | eexists; vm_compute; reflexivity]. Qed.
