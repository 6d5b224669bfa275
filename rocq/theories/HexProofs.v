From Coq Require Import ZifyBool ZifyNat ZifyN.
From Verif Require Import Base BaseFacts EncoderModel EncoderProofs HexModel HexSpec.

(** ** Encoder *)
Definition digits (upper : bool) : bytes := if upper then digits_upper else digits_lower.

Lemma hex_encode_byte upper c :
  tohex (N.shiftr (asc c) 4) (alphabase upper) = nth (nat_of_ascii c / 16) (digits upper) nul /\
  tohex (N.land (asc c) 15) (alphabase upper) = nth (nat_of_ascii c mod 16) (digits upper) nul.
Proof.
  assert (H : forallb (fun c => forallb (fun u =>
     Ascii.eqb (tohex (N.shiftr (asc c) 4) (alphabase u)) (nth (nat_of_ascii c / 16) (digits u) nul)
     && Ascii.eqb (tohex (N.land (asc c) 15) (alphabase u)) (nth (nat_of_ascii c mod 16) (digits u) nul))
     [true; false]) all_bytes = true) by (vm_compute; reflexivity).
  pose proof (byte_sweep _ H c) as Hc. cbn beta in Hc. rewrite forallb_forall in Hc.
  specialize (Hc upper). rewrite andb_true_iff, !Ascii.eqb_eq in Hc.
  apply Hc. destruct upper; cbn; auto.
Qed.

Lemma hex_encode_loop_spec upper l : hex_encode_loop (alphabase upper) l = hex_text (digits upper) l.
Proof.
  induction l as [|c l IH]; [reflexivity|].
  destruct (hex_encode_byte upper c) as [H1 H2].
  cbn [hex_encode_loop hex_text flat_map app]. unfold hex_text in IH. rewrite H1, H2, IH. reflexivity.
Qed.

Lemma hex_text_app d a b : hex_text d (a ++ b) = hex_text d a ++ hex_text d b.
Proof. unfold hex_text. apply flat_map_app. Qed.

Theorem hex_encoder_feed upper calls :
  exists s bs, feed (HexEncoder upper) (est_init _) [] calls =
               Ok (s, [], hex_text (digits upper) (fed calls), bs).
Proof.
  destruct (feed_run (HexEncoder upper)
    (fun s inp => Some (s, hex_text (digits upper) inp))) with
    (calls := calls) (s := tt) (s' := tt) (out := hex_text (digits upper) (fed calls))
    as (bs & H).
  - intros s inp flush s' out H. inversion H; subst. destruct s'. exists true.
    cbn. rewrite hex_encode_loop_spec. reflexivity.
  - intros s. reflexivity.
  - intros s a b s' out H. inversion H; subst. exists s', (hex_text (digits upper) a), (hex_text (digits upper) b).
    repeat split. apply hex_text_app.
  - reflexivity.
  - eexists. exists bs. exact H.
Qed.

(** ** Decoder *)
Definition hex_run (s : hexst) (inp : bytes) : option (hexst * bytes) :=
  let '(s', rest, out, b) := hex_decode_loop s inp in if b then Some (s', out) else None.

Lemma hex_loop_rest inp : forall s s' rest out,
  hex_decode_loop s inp = (s', rest, out, true) -> rest = [].
Proof.
  induction inp as [|c inp IH]; intros s s' rest out H; cbn [hex_decode_loop] in H.
  - inversion H; reflexivity.
  - destruct (isxdigit c).
    + destruct (negb (issecond s)).
      * eapply IH; eassumption.
      * destruct (hex_decode_loop _ inp) as [[[s1 r1] o1] b1] eqn:E. inversion H; subst.
        eapply IH; eassumption.
    + destruct (isspace c); [eapply IH; eassumption|discriminate].
Qed.

Lemma hex_run_app s a : forall b s' out, hex_run s (a ++ b) = Some (s', out) ->
  exists s1 o1 o2, hex_run s a = Some (s1, o1) /\ hex_run s1 b = Some (s', o2) /\ out = o1 ++ o2.
Proof.
  revert s. induction a as [|c a IH]; intros s b s' out H.
  - exists s, [], out. cbn. auto.
  - unfold hex_run in *. cbn [app hex_decode_loop] in *. destruct (isxdigit c).
    + destruct (negb (issecond s)).
      * apply IH. assumption.
      * destruct (hex_decode_loop (HexSt false (first s)) (a ++ b)) as [[[s1 r1] o1] b1] eqn:E.
        destruct b1; [|discriminate]. inversion H; subst.
        destruct (IH (HexSt false (first s)) b s' o1) as (s2 & p1 & p2 & H1 & H2 & ->).
        { rewrite E. reflexivity. }
        destruct (hex_decode_loop (HexSt false (first s)) a) as [[[s3 r3] o3] b3] eqn:E3.
        destruct b3; [|discriminate]. inversion H1; subst.
        eexists _, _, _. split; [reflexivity|]. split; [exact H2|]. reflexivity.
    + destruct (isspace c); [|discriminate]. apply IH. assumption.
Qed.

Lemma white_spec c : In c white -> isxdigit c = false /\ isspace c = true.
Proof.
  unfold white. cbn [In]. intros H.
  repeat (destruct H as [<-|H]; [split; vm_compute; reflexivity|]). contradiction.
Qed.

Lemma denotes_spec d v : denotes d v -> isxdigit d = true /\ fromhex d = N.of_nat v.
Proof.
  intros [Hv Hd].
  assert (H : forallb (fun v => forallb (fun d => isxdigit d && N.eqb (fromhex d) (N.of_nat v))
     [nth v digits_lower nul; nth v digits_upper nul]) (seq 0 16) = true) by (vm_compute; reflexivity).
  rewrite forallb_forall in H. specialize (H v). rewrite forallb_forall in H.
  specialize (H ltac:(apply in_seq; lia) d). rewrite andb_true_iff, N.eqb_eq in H. apply H.
  destruct Hd as [->| ->]; cbn; auto.
Qed.

Lemma join_nibbles c :
  ascii_of_N (N.lor (N.shiftl (N.of_nat (nat_of_ascii c / 16)) 4) (N.of_nat (nat_of_ascii c mod 16))) = c.
Proof.
  assert (H : forallb (fun c => Ascii.eqb
    (ascii_of_N (N.lor (N.shiftl (N.of_nat (nat_of_ascii c / 16)) 4) (N.of_nat (nat_of_ascii c mod 16)))) c)
    all_bytes = true) by (vm_compute; reflexivity).
  apply Ascii.eqb_eq. apply (byte_sweep _ H c).
Qed.

Lemma hex_loop_skip_white ws : forall s t, (forall x, In x ws -> In x white) ->
  hex_decode_loop s (ws ++ t) = hex_decode_loop s t.
Proof.
  induction ws as [|c ws IH]; intros s t H; [reflexivity|].
  cbn [app hex_decode_loop]. destruct (white_spec c) as [-> ->]; [apply H; left; reflexivity|].
  apply IH. intros x Hx. apply H. right. assumption.
Qed.

Lemma hex_reads_run t l : hex_reads t l -> forall f,
  exists f', hex_run (HexSt false f) t = Some (HexSt false f', l).
Proof.
  induction 1 as [|c t l Hc Ht IH|d1 ws d2 t c l H1 H2 Hws Ht IH]; intros f; unfold hex_run in *.
  - cbn. eauto.
  - cbn [hex_decode_loop]. destruct (white_spec c Hc) as [-> ->]. apply IH.
  - cbn [hex_decode_loop]. destruct (denotes_spec _ _ H1) as [-> ->].
    cbn [issecond negb]. rewrite hex_loop_skip_white by assumption.
    cbn [hex_decode_loop]. destruct (denotes_spec _ _ H2) as [-> ->].
    cbn [issecond negb first].
    destruct (IH (N.of_nat (nat_of_ascii c / 16))) as (f' & H').
    destruct (hex_decode_loop _ t) as [[[s' r'] o'] b'].
    destruct b'; [|discriminate]. inversion H'; subst. rewrite join_nibbles. eauto.
Qed.

Theorem hex_decoder_feed calls l : hex_reads (fed calls) l ->
  exists f bs, feed HexDecoder (est_init _) [] calls =
    Ok (@Est HexDecoder true false (HexSt false f), [], l, bs).
Proof.
  intros H. destruct (hex_reads_run _ _ H 0%N) as (f & Hf). exists f.
  apply (feed_run HexDecoder hex_run).
  - intros s inp flush s' out Hr. unfold hex_run in Hr. cbn.
    destruct (hex_decode_loop s inp) as [[[s1 r1] o1] b1] eqn:E. destruct b1; [|discriminate].
    inversion Hr; subst. apply hex_loop_rest in E. subst. eauto.
  - intros s. reflexivity.
  - intros s a b s' out Hr. apply hex_run_app. assumption.
  - exact Hf.
Qed.

Lemma hex_text_reads upper l : hex_reads (hex_text (digits upper) l) l.
Proof.
  induction l as [|c l IH]; [constructor|].
  change (hex_text (digits upper) (c :: l)) with
    (nth (nat_of_ascii c / 16) (digits upper) nul :: [] ++ nth (nat_of_ascii c mod 16) (digits upper) nul :: hex_text (digits upper) l).
  pose proof (nat_ascii_bounded c) as Hb.
  constructor; [| |intros x []|assumption]; (split; [|destruct upper; auto]).
  - apply Nat.div_lt_upper_bound; lia.
  - apply Nat.mod_upper_bound. lia.
Qed.

Theorem hex_roundtrip upper calls s rest e bs calls' :
  feed (HexEncoder upper) (est_init _) [] calls = Ok (s, rest, e, bs) ->
  fed calls' = e ->
  exists f bs', feed HexDecoder (est_init _) [] calls' =
    Ok (@Est HexDecoder true false (HexSt false f), [], fed calls, bs').
Proof.
  intros H1 H2. destruct (hex_encoder_feed upper calls) as (s' & bs0 & H).
  assert (He : e = hex_text (digits upper) (fed calls)) by congruence.
  apply hex_decoder_feed. rewrite H2, He. apply hex_text_reads.
Qed.

(** ** The compatibility functions *)
Lemma hex_text_length d l : length (hex_text d l) = 2 * length l.
Proof. induction l as [|c l IH]; [reflexivity|]. cbn [hex_text flat_map app length] in *. unfold hex_text in IH. lia. Qed.

Theorem hexify_spec obuf ibuf : 2 * length ibuf + 1 <= length obuf ->
  hexify obuf ibuf = Ok (hex_text digits_lower ibuf ++ nul :: skipn (2 * length ibuf + 1) obuf).
Proof.
  intros H. unfold hexify, enc_do_encode. cbn [okay finished est_init negb andb].
  rewrite orb_true_r. cbn [HexEncoder enc_encode bind o_err o_fin o_st o_rest o_out o_ret].
  rewrite hex_encode_loop_spec. cbn [digits].
  rewrite hex_text_length.
  destruct (Nat.ltb_spec (length ibuf * 2 + 1) (2 * length ibuf)); [lia|].
  rewrite store_seq_some by (rewrite hex_text_length; lia).
  rewrite hex_text_length. cbn [of_opt bind firstn app Nat.add].
  rewrite store_some by (rewrite app_length, skipn_length, hex_text_length; lia).
  rewrite firstn_app_len by (rewrite hex_text_length; lia).
  rewrite (skipn_app_len _ _ _ 1) by (rewrite hex_text_length; lia).
  rewrite skipn_skipn_add. cbn [of_opt]. do 4 f_equal. lia.
Qed.

Lemma hex_loop_out_length inp : forall s s' rest out b,
  hex_decode_loop s inp = (s', rest, out, b) ->
  2 * length out <= length inp + (if issecond s then 1 else 0).
Proof.
  induction inp as [|c inp IH]; intros s s' rest out b H; cbn [hex_decode_loop] in H.
  - inversion H; subst. cbn. lia.
  - destruct (isxdigit c).
    + destruct (issecond s) eqn:Es; cbn [negb] in H.
      * destruct (hex_decode_loop _ inp) as [[[s1 r1] o1] b1] eqn:E. inversion H; subst.
        apply IH in E. cbn [issecond length] in *. lia.
      * apply IH in H. cbn [issecond length] in *. lia.
    + destruct (isspace c).
      * apply IH in H. cbn [length]. lia.
      * inversion H; subst. cbn. lia.
Qed.

Lemma hex_decode_once inp :
  enc_do_encode HexDecoder (est_init _) inp true false =
  let '(s', rest, out, b) := hex_decode_loop (HexSt false 0) inp in
  Ok (@Est HexDecoder b false s', rest, out, b && negb (issecond s')).
Proof.
  unfold enc_do_encode. cbn [okay finished est_init negb andb]. rewrite orb_true_r.
  change (st (est_init HexDecoder)) with (HexSt false 0).
  cbn [HexDecoder enc_encode enc_init st].
  destruct (hex_decode_loop (HexSt false 0) inp) as [[[s1 r1] o1] b1]. destruct b1; reflexivity.
Qed.

Theorem unhexify_safe obuf ibuf : length ibuf / 2 <= length obuf ->
  exists m, unhexify obuf ibuf = Ok m /\ length m = length obuf.
Proof.
  intros H. unfold unhexify. rewrite hex_decode_once.
  destruct (hex_decode_loop (HexSt false 0) ibuf) as [[[s1 r1] o1] b1] eqn:E.
  pose proof (hex_loop_out_length _ _ _ _ _ _ E) as Hl. cbn [issecond] in Hl.
  assert (Hd : length o1 <= length ibuf / 2) by (apply Nat.div_le_lower_bound; lia).
  cbn [bind]. destruct (Nat.ltb_spec (length ibuf / 2) (length o1)); [lia|].
  rewrite store_seq_some by lia. cbn. eexists. split; [reflexivity|].
  rewrite app_length, skipn_length. lia.
Qed.

Theorem unhexify_reads obuf ibuf l : hex_reads ibuf l -> length ibuf / 2 <= length obuf ->
  unhexify obuf ibuf = Ok (l ++ skipn (length l) obuf).
Proof.
  intros Hr H. destruct (hex_reads_run _ _ Hr 0%N) as (f & Hf). unfold hex_run in Hf.
  unfold unhexify. rewrite hex_decode_once.
  destruct (hex_decode_loop (HexSt false 0) ibuf) as [[[s1 r1] o1] b1] eqn:E.
  destruct b1; [|discriminate]. inversion Hf; subst.
  pose proof (hex_loop_out_length _ _ _ _ _ _ E) as Hl. cbn [issecond] in Hl.
  assert (Hd : length l <= length ibuf / 2) by (apply Nat.div_le_lower_bound; lia).
  cbn [bind]. destruct (Nat.ltb_spec (length ibuf / 2) (length l)); [lia|].
  rewrite store_seq_some by lia. reflexivity.
Qed.
