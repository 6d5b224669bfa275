(** C73: the word wrapping encoder. *)
From Verif Require Import Base EncoderModel WrapModel WrapSpec WrapProofs WrapProofs2 WrapProofs3.
Local Open Scope nat_scope.

(** All that an encoder gives for some calls, with a flush at the end; no call leaves the line
    buffer, and all input is taken. *)
Definition outputs (m : nat) (calls : list (bytes * bool)) (out : bytes) : Prop :=
  exists s bs, feed (wrap m) (est_init _) [] (calls ++ [([], true)]) = Ok (s, [], out, bs).
Lemma outputs_laid m calls : 1 <= m -> exists out, outputs m calls out /\ all_laid m 0 (texts [] calls) out.
Proof.
  intros M. destruct (feed_laid m M calls 0 [] wreset [] eq_refl) as (s & out & bs & F & A). exists out. split; [exists s, bs; exact F|exact A].
Qed.
Lemma outputs_fun m calls a b : outputs m calls a -> outputs m calls b -> a = b.
Proof. intros (s & bs & E) (s' & bs' & E'). congruence. Qed.
Lemma all_laid_fun m ts : 1 <= m -> forall col a b, all_laid m col ts a -> all_laid m col ts b -> a = b.
Proof.
  intros M. induction ts as [|t ts IH]; intros col a b H1 H2; inversion H1; inversion H2; subst; [reflexivity|].
  match goal with L1 : laid _ _ _ _ _, L2 : laid _ _ _ _ _ |- _ => destruct (laid_fun m M (length t) t (le_n _) col _ _ _ _ L1 L2) as [-> ->] end. f_equal. eauto.
Qed.
(** The output is the layout of the texts between the flushes, each set where the last ended. *)
Theorem C73_layout m calls out : 1 <= m -> outputs m calls out <-> all_laid m 0 (texts [] calls) out.
Proof.
  intros M. destruct (outputs_laid m calls M) as (o & H & L). split; intros X.
  - rewrite (outputs_fun m calls out o X H). exact L.
  - rewrite (all_laid_fun m _ M 0 out o X L). exact H.
Qed.
Theorem C73_total m calls : 1 <= m -> exists out, outputs m calls out.
Proof. intros M. destruct (outputs_laid m calls M) as (o & H & L). eauto. Qed.
Theorem C73_zero_refuted : exists calls, feed (wrap 0) (est_init _) [] calls = Fault.
Proof. exists [(B "a", false)]. vm_compute. reflexivity. Qed.
(** Without flushes it does not matter how the text was cut. *)
Theorem C73_cuts m calls calls' out : 1 <= m -> Forall (fun c => snd c = false) calls -> Forall (fun c => snd c = false) calls' -> fed calls = fed calls' ->
  outputs m calls out -> outputs m calls' out.
Proof. intros M F F' E H. apply C73_layout; [exact M|]. apply C73_layout in H; [|exact M]. rewrite texts_plain in * by assumption. rewrite <- E. exact H. Qed.
(** No line is wider than the given width, with or without flushes, and nothing but blanks and
    ends of lines is lost, added or moved. *)
Theorem C73_width m calls out : 1 <= m -> outputs m calls out -> fits m out /\ ink out = ink (fed calls).
Proof.
  intros M H. apply C73_layout in H; [|exact M]. split.
  - intros a b E. exact (all_laid_fits m 0 _ out H 0 ltac:(lia) ltac:(auto) a b E).
  - rewrite (all_laid_ink m 0 _ out H). apply (texts_ink calls []).
Qed.
Lemma plain_laid m calls out : 1 <= m -> Forall (fun c => snd c = false) calls -> outputs m calls out -> exists col, laid m 0 (fed calls) out col.
Proof.
  intros M F H. apply C73_layout in H; [|exact M]. rewrite texts_plain in H by exact F. cbn [app] in H. inversion H as [|c t ts o o' col' L A]; subst. inversion A; subst. rewrite app_nil_r. eauto.
Qed.
(** Without flushes, the words of the output are those of the input, cut into pieces of the width
    where they are longer than a line; no line ends with a blank. *)
Theorem C73_words m calls out ws : 1 <= m -> Forall (fun c => snd c = false) calls -> outputs m calls out -> words (fed calls) ws ->
  exists pss, Forall2 (pieces m) ws pss /\ words out (concat pss).
Proof.
  intros M F H W. destruct (plain_laid m calls out M F H) as (col & L). destruct (laid_words m 0 _ out col M L (or_introl eq_refl)) as (ws' & pss & W1 & W2 & W3).
  rewrite (words_fun _ _ W _ W1). eauto.
Qed.
Theorem C73_short_words m calls out ws : 1 <= m -> Forall (fun c => snd c = false) calls -> outputs m calls out -> words (fed calls) ws ->
  Forall (fun w => length w <= m) ws -> words out ws.
Proof.
  intros M F H W S. destruct (C73_words m calls out ws M F H W) as (pss & P & O). assert (E : concat pss = ws); [|rewrite <- E; exact O]. clear W O.
  induction P as [|w ps ws pss P1 P2 IH]; [reflexivity|]. inversion S as [|x y S1 S2]; subst. cbn. rewrite (IH S2). replace ps with [w]; [reflexivity|]. apply (pieces_fun m w); [exact M| |exact P1].
  split; [cbn; apply app_nil_r|]. exists [], w. split; [reflexivity|]. split; [constructor|]. split; [|exact S1]. destruct w as [|c w]; [|cbn; lia]. exfalso. destruct P1 as (E & a & b & -> & _ & Bl). apply (f_equal (@length _)) in E. rewrite concat_app, app_length in E. cbn in E. rewrite app_nil_r in E. lia.
Qed.
Theorem C73_no_trailing m calls out : 1 <= m -> Forall (fun c => snd c = false) calls -> outputs m calls out -> no_trailing out.
Proof. intros M F H. destruct (plain_laid m calls out M F H) as (col & L). eapply laid_nt. exact L. Qed.
(** Text that fits is not changed; so wrapping what was wrapped changes nothing. *)
Theorem C73_same m calls out : 1 <= m -> Forall (fun c => snd c = false) calls -> outputs m calls out -> fits m (fed calls) -> no_trailing (fed calls) -> out = fed calls.
Proof. intros M F H W N. destruct (plain_laid m calls out M F H) as (col & L). eapply laid_same; eassumption. Qed.
Theorem C73_again m calls out out' : 1 <= m -> Forall (fun c => snd c = false) calls -> outputs m calls out -> outputs m [(out, false)] out' -> out' = out.
Proof.
  intros M F H H'. assert (E : fed [(out, false)] = out) by (unfold fed; cbn; apply app_nil_r). refine (eq_trans (C73_same m [(out, false)] out' M ltac:(repeat constructor) H' _ _) E); rewrite E.
  - apply (C73_width m calls out M H).
  - apply (C73_no_trailing m calls out M F H).
Qed.
(** A flush inside a word that would fit on a line cuts it; a flush after blanks keeps them at
    the end of a line; finish() without a flush drops what is held. *)
Theorem C73_flush_refuted : exists m calls out w, outputs m calls out /\ words (fed calls) [B "a"; w] /\ length w <= m /\ out = B "a bc" ++ [newline] ++ B "d" /\ w = B "bcd".
Proof.
  exists 4, [(B "a b", true); (B "cd", false)]. eexists _, (B "bcd"). split; [eexists _, _; vm_compute; reflexivity|]. split; [|vm_compute; split; [lia|auto]].
  change (fed [(B "a b", true); (B "cd", false)]) with (B "a" ++ (" "%char :: B "bcd" ++ [])). assert (X : forall w : bytes, forallb (fun c => negb (is_sep c)) w = true -> forall c, In c w -> is_sep c = false). { intros w E c I. rewrite forallb_forall in E. specialize (E c I). destruct (is_sep c); [discriminate|reflexivity]. }
  apply W_word; [split; [discriminate|apply X; reflexivity]|reflexivity|]. apply W_sep; [reflexivity|]. apply W_word; [split; [discriminate|apply X; reflexivity]|exact I|constructor].
Qed.
Theorem C73_trailing_refuted : exists m calls out, outputs m calls out /\ ~ no_trailing out.
Proof.
  exists 4, [(B "a ", true); ([newline], false)]. eexists. split; [eexists _, _; vm_compute; reflexivity|]. intros H. specialize (H (B "a") " "%char [] eq_refl). discriminate.
Qed.
Theorem C73_finish_refuted : exists m t, t <> [] /\ feed_finish (wrap m) [(t, false)] = Ok ([], []).
Proof. exists 10, (B "word"). split; [discriminate|vm_compute; reflexivity]. Qed.

Example C73_example : outputs 10 [(B "The quick  br", false); (B "own fox" ++ [newline] ++ B "jumps	over unwrappable-text ", false)]
  (B "The quick" ++ [newline] ++ B "brown fox" ++ [newline] ++ B "jumps" ++ [newline] ++ B "over" ++ [newline] ++ B "unwrappabl" ++ [newline] ++ B "e-text ").
Proof. eexists _, _. vm_compute. reflexivity. Qed.
Print Assumptions C73_layout.
Print Assumptions C73_width.
Print Assumptions C73_words.
Print Assumptions C73_again.
