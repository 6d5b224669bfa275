(** Output of a stream. *)
From Verif Require Import Base BaseFacts StreamModel StreamSpec.
Local Open Scope Z_scope.

Lemma sent_snoc t e : sent (t ++ [e]) = sent t ++ match e with Sent b => b | _ => [] end.
Proof. unfold sent. rewrite flat_map_app. cbn. rewrite app_nil_r. reflexivity. Qed.
Lemma accepted_snoc t e : accepted (t ++ [e]) = accepted t ++ match e with Wrote b n => firstn n b | _ => [] end.
Proof. unfold accepted. rewrite flat_map_app. cbn. rewrite app_nil_r. reflexivity. Qed.
Definition good (s : st) : Prop := errors_named (env s).
(** The limit holds as long as the stream is open. *)
Definition within (s : st) : Prop := isok s = true -> limit s = 0 \/ (Z.of_nat (length (out s)) <= limit s < 2 ^ 64).
Definition lim (s s' : st) : Prop := exists t, tr s' = tr s ++ t /\ (sane_limits t -> within s -> within s').
Lemma lim_trans a b c : lim a b -> lim b c -> lim a c.
Proof. intros (t & T & I) (t' & T' & I'). exists (t ++ t'). rewrite T', T, app_assoc. split; [reflexivity|]. intros S. apply Forall_app in S. destruct S. auto. Qed.
Lemma lim_keep s s' t : tr s' = tr s ++ t -> (isok s' = true -> isok s = true /\ (length (out s') <= length (out s))%nat /\ limit s' = limit s) -> lim s s'.
Proof. intros T K. exists t. split; [exact T|]. intros _ W Q. destruct (K Q) as (Q0 & L & ->). specialize (W Q0). lia. Qed.
(** What any call does to the output. *)
Definition G (s s' : st) : Prop := lim s s' /\ exists w d rest,
  accepted (tr s') = accepted (tr s) ++ w /\ sent (tr s') = sent (tr s) ++ d /\ out s ++ w = d ++ rest /\
  (isok s' = true -> out s' = rest) /\ (isok s = false -> w = [] /\ d = [] /\ isok s' = false).
Lemma G_trans a b c : G a b -> G b c -> G a c.
Proof.
  intros (L & w & d & r & A & S & E & O & N) (L' & w' & d' & r' & A' & S' & E' & O' & N'). split; [exact (lim_trans _ _ _ L L')|]. destruct (isok b) eqn:K.
  - rewrite (O eq_refl) in E'. exists (w ++ w'), (d ++ d'), r'. rewrite A', A, S', S, !app_assoc. split; [reflexivity|]. split; [reflexivity|]. split; [rewrite E, <- !app_assoc, E'; reflexivity|]. split; [exact O'|]. intros Q. destruct (N Q) as (_ & _ & Q'). discriminate.
  - destruct (N' eq_refl) as (-> & -> & N2). exists w, d, r. rewrite app_nil_r in A', S'. rewrite A', S'. split; [exact A|]. split; [exact S|]. split; [exact E|]. split; [congruence|]. intros Q. destruct (N Q) as (-> & -> & _). auto.
Qed.
Lemma G_gen s s' t : lim s s' -> tr s' = tr s ++ t -> accepted t = [] -> sent t = [] -> (isok s' = true -> isok s = true /\ out s' = out s) -> G s s'.
Proof.
  intros L T A S K. split; [exact L|]. exists [], [], (out s). rewrite T. unfold accepted, sent in *. rewrite !flat_map_app, A, S, !app_nil_r. repeat split; try reflexivity; try (intros; apply K; assumption). destruct (isok s') eqn:Q; [|reflexivity]. destruct (K eq_refl). congruence.
Qed.
Lemma G_same s s' : tr s' = tr s -> (isok s' = true -> isok s = true /\ out s' = out s /\ limit s' = limit s) -> G s s'.
Proof.
  intros T K. assert (T' : tr s' = tr s ++ []) by (rewrite app_nil_r; exact T). apply (G_gen s s' []); [|exact T'|reflexivity|reflexivity|intros Q; destruct (K Q) as (? & ? & ?); auto].
  apply (lim_keep _ _ _ T'). intros Q. destruct (K Q) as (? & -> & ?). auto.
Qed.
Lemma G_snoc s s' e : tr s' = tr s ++ [e] -> accepted [e] = [] -> sent [e] = [] -> (isok s' = true -> isok s = true /\ out s' = out s /\ limit s' = limit s) -> G s s'.
Proof.
  intros T A S K. apply (G_gen s s' [e]); [|exact T|exact A|exact S|intros Q; destruct (K Q) as (? & ? & ?); auto].
  apply (lim_keep _ _ _ T). intros Q. destruct (K Q) as (? & -> & ?). auto.
Qed.
Lemma G_refl s : G s s. Proof. apply G_same; auto. Qed.

(** What is known of the calls a body makes. *)
Definition extra (c : cmd) (s s' : st) (b : bool) : Prop :=
  match c with
  | DoClose => isok s' = false
  | DoErr e => e <> 0 -> isok s' = false /\ sent (tr s') = sent (tr s) /\ accepted (tr s') = accepted (tr s)
  | DoFlush _ | DoFlushOut _ => b = true -> isok s' = true -> out s' = []
  | DoAuto => isok s' = true -> s' = s
  | _ => True
  end.
Definition meets (call : cmd -> st -> res (st * bool)) : Prop :=
  forall c s s' b, good s -> call c s = Ok (s', b) -> G s s' /\ good s' /\ extra c s s' b.

Lemma ask_ok s s' a : ask s = Ok (s', a) -> s' = set_env (env s') s /\ env s = a :: env s'.
Proof. unfold ask. destruct (env s) as [|x r] eqn:E; [discriminate|]. intros Q. injection Q as <- <-. auto. Qed.
Lemma ask_good s s' a : ask s = Ok (s', a) -> good s -> good s' /\ wfail a <> Some 0.
Proof. intros Q H. destruct (ask_ok _ _ _ Q) as [_ E]. unfold good, errors_named in *. rewrite E in H. split; [exact (Forall_inv_tail H)|exact (Forall_inv H)]. Qed.
Lemma ask_G s s' a : ask s = Ok (s', a) -> G s s' /\ tr s' = tr s /\ out s' = out s /\ isok s' = isok s.
Proof. intros Q. destruct (ask_ok _ _ _ Q) as [-> _]. split; [apply G_same; auto|auto]. Qed.

Section Body.
Variable call : cmd -> st -> res (st * bool).
Hypothesis C : meets call.

Lemma uwrite_ok blk s s' n : good s -> uwrite call blk s = Ok (s', n) ->
  (n <= length blk)%nat /\ accepted (tr s') = accepted (tr s) /\ sent (tr s') = sent (tr s) ++ firstn n blk /\ good s' /\
  (isok s' = true -> isok s = true /\ out s' = out s /\ limit s' = limit s) /\ (isok s = false -> n = 0%nat /\ s' = s) /\ exists t, tr s' = tr s ++ t.
Proof.
  intros H. unfold uwrite. destruct (isok s) eqn:K; cbn [negb].
  - destruct (ask s) as [[s1 a]| |] eqn:Q; try discriminate. cbn [bind]. destruct (ask_good _ _ _ Q H) as [H1 Wf]. destruct (ask_G _ _ _ Q) as (_ & T & O & K1). set (m := Nat.min (take a) (length blk)). assert (Hm : (m <= length blk)%nat) by (unfold m; lia).
    assert (A1 : accepted (tr (emit (Sent (firstn m blk)) s1)) = accepted (tr s)) by (cbn; rewrite accepted_snoc, app_nil_r, T; reflexivity).
    assert (S1 : sent (tr (emit (Sent (firstn m blk)) s1)) = sent (tr s) ++ firstn m blk) by (cbn; rewrite sent_snoc, T; reflexivity).
    destruct (wfail a) as [e|] eqn:W.
    + destruct (call (DoErr e) _) as [[s2 b2]| |] eqn:E; try discriminate. cbn [bind]. intros R. injection R as <- <-. destruct (C (DoErr e) (emit (Sent (firstn m blk)) s1) _ _ H1 E) as (((t & T2 & _) & _) & H2 & X). cbn [extra] in X. destruct X as (X1 & X2 & X3); [congruence|]. split; [exact Hm|]. split; [congruence|]. split; [congruence|]. split; [exact H2|]. split; [congruence|]. split; [congruence|]. rewrite T2. cbn [tr emit set_tr]. rewrite T, <- app_assoc. eexists. reflexivity.
    + intros R. injection R as <- <-. split; [exact Hm|]. split; [exact A1|]. split; [exact S1|]. split; [exact H1|]. split; [|split; [congruence|cbn; rewrite T; eexists; reflexivity]]. intros _. split; [reflexivity|]. split; [exact O|]. destruct (ask_ok _ _ _ Q) as [-> _]. reflexivity.
  - intros R. injection R as <- <-. split; [lia|]. split; [reflexivity|]. split; [cbn; rewrite app_nil_r; reflexivity|]. split; [exact H|]. split; [congruence|]. split; [auto|]. exists []. rewrite app_nil_r. reflexivity.
Qed.
Lemma is_nil_iff b : is_nil b = true <-> b = []. Proof. destruct b; split; cbn; congruence. Qed.
Lemma loop_ok fuel : forall msec s used s' u, good s -> (used = false -> out s = []) -> flush_loop call fuel msec s used = Ok (s', u) -> G s s' /\ good s' /\ (u = false -> isok s' = true -> out s' = []).
Proof.
  induction fuel as [|fuel IH]; intros msec s used s' u H U; cbn [flush_loop]; [discriminate|].
  destruct (used && isok s) eqn:K; cbn [negb]; [|intros R; injection R as <- <-; split; [apply G_refl|]; split; [exact H|]; auto].
  apply andb_true_iff in K. destruct K as [-> K]. destruct (ask s) as [[s1 a]| |] eqn:Q; try discriminate. cbn [bind]. destruct (ask_good _ _ _ Q H) as [H1 _]. destruct (ask_G _ _ _ Q) as (G1 & T1 & O1 & K1).
  set (n := Nat.max 1 (Nat.min (chunk a) (length (out s1)))). set (blk := firstn n (out s1)).
  destruct (uwrite call blk (set_out (skipn n (out s1)) s1)) as [[s2 real]| |] eqn:W; try discriminate. cbn [bind].
  destruct (uwrite_ok blk (set_out (skipn n (out s1)) s1) s2 real H1 W) as (Lr & A2 & S2 & H2 & K2 & _ & t2 & T2). cbn [tr set_out] in A2, S2, T2.
  set (s3 := if isok s2 && (real <? length blk)%nat then set_out (skipn real blk ++ out s2) s2 else s2).
  assert (T3 : tr s3 = tr s2 /\ isok s3 = isok s2 /\ env s3 = env s2) by (unfold s3; destruct (isok s2 && (real <? length blk)%nat); repeat split).
  destruct T3 as (T3 & K3 & E3). assert (H3 : good s3) by (unfold good; rewrite E3; exact H2).
  assert (G3 : G s s3).
  { apply (G_trans _ _ _ G1). split; [apply (lim_keep _ _ t2); [rewrite T3; exact T2|]; rewrite K3; intros Q3; destruct (K2 Q3) as (Q2 & O2 & M2); split; [exact Q2|]; cbn [out limit set_out] in O2, M2; unfold s3; rewrite Q3; cbn [andb]; destruct (real <? length blk)%nat; cbn [out limit set_out]; (split; [|exact M2]); rewrite O2, ?app_length, ?skipn_length; unfold blk; rewrite ?firstn_length; lia|]. exists [], (firstn real blk), (skipn real blk ++ skipn n (out s1)). rewrite T3, A2, S2, !app_nil_r. split; [reflexivity|]. split; [reflexivity|]. split; [rewrite app_assoc, firstn_skipn; unfold blk; rewrite firstn_skipn; reflexivity|]. split; [|rewrite K1; congruence].
    rewrite K3. intros Q3. destruct (K2 Q3) as (_ & O2 & _). cbn [out set_out] in O2. unfold s3. rewrite Q3. cbn [andb]. destruct (Nat.ltb_spec real (length blk)) as [Lt|Ge]; cbn [out set_out]; rewrite O2; [reflexivity|]. rewrite (skipn_all2 blk) by lia. reflexivity. }
  clearbody s3. clear T3 K3 E3.
  assert (Next : forall s4, G s s4 -> good s4 -> flush_loop call fuel msec s4 (negb (is_nil (out s4))) = Ok (s', u) -> G s s' /\ good s' /\ (u = false -> isok s' = true -> out s' = [])).
  { intros s4 G4 H4 R. assert (Uo : negb (is_nil (out s4)) = false -> out s4 = []) by (intros Z; apply negb_false_iff in Z; apply is_nil_iff, Z). destruct (IH msec s4 _ s' u H4 Uo R) as (G5 & H5 & X). split; [exact (G_trans _ _ _ G4 G5)|auto]. }
  destruct (msec =? 0); [intros R; injection R as <- <-; split; [exact G3|split; [exact H3|discriminate]]|].
  destruct (0 <=? msec); [|apply Next; assumption].
  destruct (ask s3) as [[s4 a']| |] eqn:Q4; try discriminate. cbn [bind]. destruct (ask_good _ _ _ Q4 H3) as [H4 _]. destruct (ask_G _ _ _ Q4) as (G4 & _). pose proof (G_trans _ _ _ G3 G4) as G34.
  destruct (late a'); [intros R; injection R as <- <-; split; [exact G34|split; [exact H4|discriminate]]|].
  destruct (call (DoSelect false) s4) as [[s5 b5]| |] eqn:Sl; try discriminate. cbn [bind]. destruct (C _ _ _ _ H4 Sl) as (G5 & H5 & _). pose proof (G_trans _ _ _ G34 G5) as G35.
  destruct b5; cbn [negb]; [apply Next; assumption|]. intros R. injection R as <- <-. split; [exact G35|split; [exact H5|discriminate]].
Qed.
Lemma flush_outbuf_ok msec s s' b : good s -> flush_outbuf call msec s = Ok (s', b) -> G s s' /\ good s' /\ (b = true -> isok s' = true -> out s' = []).
Proof.
  intros H. unfold flush_outbuf. destruct (negb (negb (is_nil (out s))) && negb (autoclose s) && negb (delayed s)) eqn:Sh.
  - destruct (call DoAuto s) as [[s1 b1]| |] eqn:E; try discriminate. cbn [bind]. intros R. injection R as <- <-. destruct (C _ _ _ _ H E) as (G1 & H1 & X). cbn [extra] in X. split; [exact G1|]. split; [exact H1|]. intros _ K. rewrite (X K). apply andb_true_iff in Sh. destruct Sh as [Sh _]. apply andb_true_iff in Sh. destruct Sh as [Sh _]. rewrite negb_involutive in Sh. apply is_nil_iff, Sh.
  - destruct (flush_loop call (S (length (env s))) msec s (negb (is_nil (out s)))) as [[s1 u]| |] eqn:L; try discriminate. cbn [bind].
    assert (Uo : negb (is_nil (out s)) = false -> out s = []) by (intros Z; apply negb_false_iff in Z; apply is_nil_iff, Z). destruct (loop_ok _ msec s _ s1 u H Uo L) as (G1 & H1 & X1).
    match goal with |- context [bind ?m ?k] => destruct m as [s2| |] eqn:Ac; try discriminate end. cbn [bind].
    assert (G2 : G s1 s2 /\ good s2 /\ (u = false -> isok s2 = true -> out s2 = [])).
    { destruct (autoclose s1 && isok s1) eqn:Ak; [|injection Ac as <-; split; [apply G_refl|]; auto].
      destruct (ask s1) as [[s3 a]| |] eqn:Q; try discriminate. cbn [bind] in Ac. destruct (ask_good _ _ _ Q H1) as [H3 _]. destruct (ask_G _ _ _ Q) as (G3 & _ & O3 & K3).
      destruct (is_nil (out s3) || late a).
      - destruct (call DoClose (set_autoclose false s3)) as [[s4 b4]| |] eqn:E; try discriminate. cbn [bind] in Ac. injection Ac as <-. destruct (C DoClose (set_autoclose false s3) _ _ H3 E) as (G4 & H4 & X). cbn [extra] in X. split; [|split; [exact H4|congruence]]. apply (G_trans _ _ _ G3). apply (G_trans _ (set_autoclose false s3)); [apply G_same; auto|exact G4].
      - injection Ac as <-. split; [exact G3|]. split; [exact H3|]. rewrite O3, K3. exact X1. }
    destruct G2 as (G2 & H2 & X2). cbv zeta.
    set (s3 := if delayed s2 && negb u then set_want false s2 else s2).
    assert (G3 : G s2 s3 /\ good s3 /\ out s3 = out s2 /\ isok s3 = isok s2) by (unfold s3; destruct (delayed s2 && negb u); [split; [apply G_same; auto|]; auto|split; [apply G_refl|]; auto]).
    destruct G3 as (G3 & H3 & O3 & K3). clearbody s3.
    set (s4 := if u && negb (isok s3) then set_out [] s3 else s3).
    assert (G4 : G s3 s4 /\ good s4 /\ isok s4 = isok s3 /\ (u = false -> out s4 = out s3)). { unfold s4. destruct u; cbn [andb]; [|split; [apply G_refl|]; auto]. destruct (isok s3) eqn:K; cbn [negb]; [split; [apply G_refl|]; auto|]. split; [apply G_same; auto; change (isok (set_out [] s3)) with (isok s3); congruence|]. split; [exact H3|]. split; [exact K|]. discriminate. }
    destruct G4 as (G4 & H4 & K4 & O4). clearbody s4.
    destruct (call DoAuto s4) as [[s5 b5]| |] eqn:E; try discriminate. cbn [bind]. intros R. injection R as <- <-. destruct (C _ _ _ _ H4 E) as (G5 & H5 & X). cbn [extra] in X.
    split; [eauto using G_trans|]. split; [exact H5|]. intros B K. specialize (X K). subst s5. apply negb_true_iff in B. rewrite (O4 B), O3. apply X2; [exact B|congruence].
Qed.
Lemma flush_ok msec s s' b : good s -> flush call msec s = Ok (s', b) -> G s s' /\ good s' /\ (b = true -> isok s' = true -> out s' = []).
Proof.
  intros H. unfold flush. destruct (flushing s); [intros R; injection R as <- <-; split; [apply G_refl|]; split; [exact H|discriminate]|].
  destruct (call (DoFlushOut msec) _) as [[s1 b1]| |] eqn:E; try discriminate. cbn [bind]. intros R. injection R as <- <-. destruct (C (DoFlushOut msec) (set_want true (set_flushing true s)) _ _ H E) as (G1 & H1 & X). cbn [extra] in X.
  split; [|split; [exact H1|exact X]]. eapply G_trans; [apply (G_same s (set_want true (set_flushing true s))); auto|]. eapply G_trans; [exact G1|]. apply G_same; auto.
Qed.
Lemma close_ok s s' b : good s -> close call s = Ok (s', b) -> G s s' /\ good s' /\ isok s' = false.
Proof.
  intros H. unfold close. destruct (call (DoFlush 2000) s) as [[s1 b1]| |] eqn:E; try discriminate. cbn [bind]. destruct (C _ _ _ _ H E) as (G1 & H1 & _).
  set (s2 := emit Closed (set_closed true s1)). assert (K2 : isok s2 = false) by reflexivity.
  assert (G2 : G s s2). { apply (G_trans _ _ _ G1). apply (G_snoc s1 s2 Closed); [reflexivity..|congruence]. }
  destruct (closecb s2) as [cb|].
  - intros E2. destruct (C (DoCall cb) (set_closecb None s2) _ _ H1 E2) as (G3 & H3 & _). assert (G3' : G s2 s'). { eapply G_trans; [apply (G_same s2 (set_closecb None s2)); auto|exact G3]. }
    split; [exact (G_trans _ _ _ G2 G3')|]. split; [exact H3|]. destruct G3' as (_ & w & d & r & _ & _ & _ & _ & N). apply N, K2.
  - intros R. injection R as <- <-. split; [exact G2|]. split; [exact H1|exact K2].
Qed.
Lemma auto_ok s s' b : good s -> maybe_autoclose call s = Ok (s', b) -> G s s' /\ good s' /\ (isok s' = true -> s' = s).
Proof.
  intros H. unfold maybe_autoclose. destruct (_ && negb (closed s)).
  - intros E. destruct (C _ _ _ _ H E) as (G1 & H1 & X). cbn [extra] in X. split; [exact G1|]. split; [exact H1|congruence].
  - intros R. injection R as <- <-. split; [apply G_refl|]. auto.
Qed.
Lemma not_ok_G s s' : G s s' -> isok s = false -> isok s' = false /\ sent (tr s') = sent (tr s) /\ accepted (tr s') = accepted (tr s).
Proof. intros (_ & w & d & r & A & S & _ & _ & N) K. destruct (N K) as (-> & -> & K'). rewrite A, S, !app_nil_r. auto. Qed.
Lemma err_ok e s s' b : good s -> seterr call e s = Ok (s', b) -> G s s' /\ good s' /\ (e <> 0 -> isok s' = false /\ sent (tr s') = sent (tr s) /\ accepted (tr s') = accepted (tr s)).
Proof.
  intros H. unfold seterr. destruct (err s =? 0) eqn:Z.
  - intros E. destruct (C DoClose (set_err e s) _ _ H E) as (G1 & H1 & X). cbn [extra] in X. split; [|split; [exact H1|]].
    + apply Z.eqb_eq in Z. destruct (Z.eq_dec e 0) as [->|N].
      * eapply G_trans; [|exact G1]. apply G_same; auto. unfold isok. cbn. rewrite Z. auto.
      * eapply G_trans; [|exact G1]. apply G_same; auto. unfold isok. cbn. apply Z.eqb_neq in N. rewrite N, andb_false_r. discriminate.
    + intros N. apply (not_ok_G (set_err e s) s'); [exact G1|]. unfold isok. cbn. apply Z.eqb_neq in N. rewrite N, andb_false_r. reflexivity.
  - intros R. injection R as <- <-. split; [apply G_refl|]. split; [exact H|]. intros _. unfold isok. rewrite Z, andb_false_r. auto.
Qed.
Lemma select_ok rd s s' b : good s -> select call rd s = Ok (s', b) -> G s s' /\ good s'.
Proof.
  intros H. unfold select. destruct (call DoAuto s) as [[s1 b1]| |] eqn:E1; try discriminate. cbn [bind]. destruct (C _ _ _ _ H E1) as (G1 & H1 & _).
  destruct (ask s1) as [[s2 a]| |] eqn:Q; try discriminate. cbn [bind]. destruct (ask_good _ _ _ Q H1) as [H2 _]. destruct (ask_G _ _ _ Q) as (G2 & _). pose proof (G_trans _ _ _ G1 G2) as G12.
  destruct (sfail a) as [e|].
  - destruct (call (DoErr e) s2) as [[s3 b3]| |] eqn:E3; try discriminate. cbn [bind]. intros R. injection R as <- <-. destruct (C _ _ _ _ H2 E3) as (G3 & H3 & _). split; [exact (G_trans _ _ _ G12 G3)|exact H3].
  - match goal with |- context [bind ?m ?k] => destruct m as [s3| |] eqn:W; try discriminate end. cbn [bind].
    assert (G3 : G s2 s3 /\ good s3). { destruct (want s2); [|injection W as <-; split; [apply G_refl|exact H2]]. destruct (call (DoFlush 0) s2) as [[s4 b4]| |] eqn:E4; try discriminate. cbn [bind] in W. injection W as <-. destruct (C _ _ _ _ H2 E4) as (G4 & H4 & _). auto. }
    destruct G3 as (G3 & H3). pose proof (G_trans _ _ _ G12 G3) as G13.
    destruct (isok s3 && _ && _ && _).
    + destruct (call (DoFlushOut 0) s3) as [[s4 b4]| |] eqn:E4; try discriminate. cbn [bind]. destruct (C _ _ _ _ H3 E4) as (G4 & H4 & _). destruct (negb (isok s4)); intros R; injection R as <- <-; split; eauto using G_trans.
    + intros R. injection R as <- <-. auto.
Qed.
Lemma write_ok buf s s' b : good s -> write call buf s = Ok (s', b) -> G s s' /\ good s'.
Proof.
  intros H. unfold write. destruct (negb (isok s) || is_nil buf || stop_w s) eqn:Z.
  - intros R. injection R as <- <-. split; [|exact H]. apply (G_snoc _ _ (Wrote buf 0)); auto.
  - apply orb_false_iff in Z. destruct Z as [Z _]. apply orb_false_iff in Z. destruct Z as [K _]. apply negb_false_iff in K.
    match goal with |- context [bind ?m ?k] => destruct m as [[s1 wr]| |] eqn:W; try discriminate end. cbn [bind].
    assert (U : good s1 /\ (wr <= length buf)%nat /\ accepted (tr s1) = accepted (tr s) /\ sent (tr s1) = sent (tr s) ++ firstn wr buf /\ (isok s1 = true -> out s1 = out s /\ limit s1 = limit s) /\ (wr <> 0%nat -> out s = []) /\ exists t, tr s1 = tr s ++ t).
    { destruct (negb (delayed s) && is_nil (out s)) eqn:D.
      - destruct (uwrite_ok _ _ _ _ H W) as (L & A & S & H1 & K1 & _ & T). split; [exact H1|]. split; [exact L|]. split; [exact A|]. split; [exact S|]. split; [intros Q; apply K1, Q|]. split; [|exact T]. intros _. apply andb_true_iff in D. apply is_nil_iff, D.
      - injection W as <- <-. split; [exact H|]. split; [lia|]. split; [reflexivity|]. split; [cbn; rewrite app_nil_r; reflexivity|]. split; [auto|]. split; [congruence|]. exists []. rewrite app_nil_r. reflexivity. }
    destruct U as (H1 & L & A & S & O & Ne & t1 & T1). cbv zeta. set (rest := skipn wr buf).
    match goal with |- context [Wrote buf (wr + ?c)] => set (count := c) end.
    assert (Cn : (count <= length rest)%nat). { unfold count. destruct (limit s1 =? 0); [lia|]. destruct (Z.ltb_spec (sub_size (limit s1) (Z.of_nat (length (out s1)))) (Z.of_nat (length rest))); lia. }
    assert (Lc : limit s1 = 0 \/ (Z.of_nat (length (out s1)) <= limit s1 < 2 ^ 64) -> limit s1 = 0 \/ (Z.of_nat (length (out s1 ++ firstn count rest)) <= limit s1 < 2 ^ 64)).
    { intros [Z|Z]; [left; exact Z|]. destruct (Z.eq_dec (limit s1) 0) as [Z0|Z0]; [left; exact Z0|right]. rewrite app_length, firstn_length_le by exact Cn. unfold count in *. destruct (Z.eqb_spec (limit s1) 0); [exfalso; lia|]. unfold sub_size in *. rewrite Z.mod_small in * by lia. destruct (Z.ltb_spec (limit s1 - Z.of_nat (length (out s1))) (Z.of_nat (length rest))); lia. }
    clearbody count. set (s2 := emit (Wrote buf (wr + count)) (set_out (out s1 ++ firstn count rest) s1)).
    assert (Fw : firstn (wr + count) buf = firstn wr buf ++ firstn count rest). { unfold rest. rewrite <- (firstn_skipn wr buf) at 1. rewrite firstn_app, firstn_length_le by lia. rewrite firstn_all2 by (rewrite firstn_length_le; lia). replace (wr + count - wr)%nat with count by lia. reflexivity. }
    assert (G2 : G s s2).
    { split; [exists (t1 ++ [Wrote buf (wr + count)]); split; [unfold s2; cbn [tr emit set_tr set_out]; rewrite T1, app_assoc; reflexivity|]; intros _ Wi Q; apply Lc; destruct (O Q) as [-> ->]; exact (Wi K)|]. exists (firstn (wr + count) buf), (firstn wr buf), (out s ++ firstn count rest). unfold s2. cbn [tr emit set_tr set_out]. rewrite accepted_snoc, sent_snoc, app_nil_r, A, S. split; [reflexivity|]. split; [reflexivity|]. split.
      - rewrite Fw. destruct wr; [cbn; reflexivity|]. rewrite (Ne ltac:(discriminate)). reflexivity.
      - split; [|congruence]. intros Q. cbn [out emit set_tr set_out]. destruct (O Q) as [-> _]. reflexivity. }
    assert (H2 : good s2) by exact H1. clearbody s2. destruct (want s2).
    + destruct (auto_fl s2); intros E; destruct (C _ _ _ _ H2 E) as (G3 & H3 & _); split; eauto using G_trans.
    + intros R. injection R as <- <-. auto.
Qed.
Lemma reg_ok c s s' b : good s -> setclosecallback call c s = Ok (s', b) -> G s s' /\ good s'.
Proof.
  intros H. unfold setclosecallback. set (s1 := emit (Reg (option_map fst c)) s).
  assert (G1 : G s s1) by (apply (G_snoc _ _ (Reg (option_map fst c))); auto).
  assert (H1 : good s1) by exact H. clearbody s1. destruct (isok s1) eqn:K.
  - intros R. injection R as <- <-. split; [|exact H1]. apply (G_trans _ _ _ G1), G_same; auto.
  - assert (G2 : G s (set_closecb None s1)) by (apply (G_trans _ _ _ G1), G_same; auto). destruct c as [cb|].
    + intros E. destruct (C (DoCall cb) (set_closecb None s1) _ _ H1 E) as (G3 & H3 & _). split; [exact (G_trans _ _ _ G2 G3)|exact H3].
    + intros R. injection R as <- <-. auto.
Qed.
Lemma acts_ok l : forall s s' b, good s -> acts call l s = Ok (s', b) -> G s s' /\ good s'.
Proof.
  induction l as [|a l IH]; intros s s' b H; cbn [acts]; [intros R; injection R as <- <-; split; [apply G_refl|exact H]|].
  destruct (call (DoAct a) s) as [[s1 b1]| |] eqn:E; try discriminate. cbn [bind]. intros R. destruct (C _ _ _ _ H E) as (G1 & H1 & _). destruct (IH _ _ _ H1 R) as [G2 H2]. split; [exact (G_trans _ _ _ G1 G2)|exact H2].
Qed.
Lemma body_meets : meets (body call).
Proof.
  intros c s s' b H. destruct c as [|m|m|rd|e| |a|[i l]]; cbn [body extra].
  - apply close_ok, H.
  - apply flush_ok, H.
  - apply flush_outbuf_ok, H.
  - intros E. destruct (select_ok _ _ _ _ H E). auto.
  - apply err_ok, H.
  - apply auto_ok, H.
  - intros E. cut (G s s' /\ good s'); [intros []; auto|]. destruct a; cbn [do_act] in E.
    + eapply write_ok; eassumption.
    + destruct (C _ _ _ _ H E) as (? & ? & _). auto.
    + destruct (C _ _ _ _ H E) as (? & ? & _). auto.
    + destruct (C _ _ _ _ H E) as (? & ? & _). auto.
    + eapply reg_ok; eassumption.
    + destruct (C DoAuto (set_stop_r true s) _ _ H E) as (G1 & H1 & _). split; [|exact H1]. eapply G_trans; [|exact G1]. apply G_same; auto.
    + destruct (C DoAuto (set_stop_w true s) _ _ H E) as (G1 & H1 & _). split; [|exact H1]. eapply G_trans; [|exact G1]. apply G_same; auto.
    + destruct (C (DoFlush 0) (set_autoclose true s) _ _ H E) as (G1 & H1 & _). split; [|exact H1]. eapply G_trans; [|exact G1]. apply G_same; auto.
    + injection E as <- <-. split; [|exact H]. set (e := LimitEv n (length (out s))). apply (G_gen _ _ [e]); auto. exists [e]. split; [reflexivity|]. intros S _ _. exact (Forall_inv S).
    + injection E as <- <-. split; [|exact H]. apply G_same; auto.
    + injection E as <- <-. split; [|exact H]. apply G_same; auto.
  - intros E. destruct (acts_ok l (emit (Called i) s) s' b H E) as [G1 H1]. split; [|split; [exact H1|exact I]]. eapply G_trans; [|exact G1]. apply (G_snoc _ _ (Called i)); auto.
Qed.
End Body.
Lemma exec_meets n : meets (exec n).
Proof. induction n as [|n IH]; [intros c s s' b _ E; discriminate|]. apply (body_meets (exec n) IH). Qed.

(** Reading does not disturb the output. *)
Lemma uread_ok n k s s' d : good s -> uread (exec n) k s = Ok (s', d) -> G s s' /\ good s'.
Proof.
  intros H. unfold uread. destruct (negb (isok s)); [intros R; injection R as <- <-; split; [apply G_refl|exact H]|].
  destruct (ask s) as [[s1 a]| |] eqn:Q; try discriminate. cbn [bind]. destruct (ask_good _ _ _ Q H) as [H1 _]. destruct (ask_G _ _ _ Q) as (G1 & _).
  set (s2 := emit (Got (firstn k (data a))) s1). assert (G2 : G s s2). { apply (G_trans _ _ _ G1), (G_snoc _ _ (Got (firstn k (data a)))); auto. }
  destruct (rfail a) as [e|].
  - destruct (exec n (DoErr e) s2) as [[s3 b3]| |] eqn:E; try discriminate. cbn [bind]. intros R. injection R as <- <-. destruct (exec_meets n (DoErr e) s2 s3 b3 H1 E) as (G3 & H3 & _). split; [exact (G_trans _ _ _ G2 G3)|exact H3].
  - intros R. injection R as <- <-. split; [exact G2|exact H1].
Qed.
Lemma G_set_inb x s : G s (set_inb x s). Proof. apply G_same; auto. Qed.
Lemma G_emit e s : match e with Wrote _ _ | Sent _ => False | _ => True end -> G s (emit e s).
Proof. intros N. apply (G_snoc _ _ e); auto; destruct e; try contradiction; reflexivity. Qed.
Lemma read_ok n k s s' : good s -> read n k s = Ok s' -> G s s' /\ good s'.
Proof.
  intros H. unfold read. match goal with |- context [bind ?m ?k] => destruct m as [s1| |] eqn:W; try discriminate end. cbn [bind].
  assert (G1 : G s s1 /\ good s1). { destruct (length (inb s) <? qmin s)%nat; [|injection W as <-; split; [apply G_refl|exact H]]. cbv zeta in W. destruct (uread _ _ _) as [[s2 d]| |] eqn:U; try discriminate. cbn [bind] in W. injection W as <-. destruct (uread_ok n _ (set_inb (inb s ++ repeat nul (qmin s - length (inb s))) s) s2 d H U) as [G2 H2]. split; [|exact H2]. eapply G_trans; [apply G_set_inb|]. eapply G_trans; [exact G2|apply G_set_inb]. }
  destruct G1 as [G1 H1]. destruct (length (inb s1) <? qmin s1)%nat; [|destruct (is_nil (inb s1))].
  - destruct (exec n DoAuto s1) as [[s2 b2]| |] eqn:E; try discriminate. cbn [bind]. intros R. injection R as <-. destruct (exec_meets n _ _ _ _ H1 E) as (G2 & H2 & _). split; [|exact H2]. eapply G_trans; [exact G1|]. eapply G_trans; [exact G2|]. apply G_emit. exact I.
  - destruct (uread _ _ s1) as [[s2 d]| |] eqn:U; try discriminate. cbn [bind]. destruct (uread_ok n _ s1 s2 d H1 U) as [G2 H2]. destruct (exec n DoAuto (emit (ReadEv d) s2)) as [[s3 b3]| |] eqn:E; try discriminate. cbn [bind]. intros R. injection R as <-. destruct (exec_meets n DoAuto (emit (ReadEv d) s2) _ _ H2 E) as (G3 & H3 & _). split; [|exact H3]. eapply G_trans; [exact G1|]. eapply G_trans; [exact G2|]. eapply G_trans; [|exact G3]. apply G_emit; exact I.
  - set (s2 := emit _ _). destruct (exec n DoAuto s2) as [[s3 b3]| |] eqn:E; try discriminate. cbn [bind]. intros R. injection R as <-. destruct (exec_meets n DoAuto s2 _ _ H1 E) as (G3 & H3 & _). split; [|exact H3]. eapply G_trans; [exact G1|]. eapply G_trans; [|exact G3]. unfold s2. eapply G_trans; [|apply G_emit; exact I]. apply G_set_inb.
Qed.
Lemma getline_loop_ok n fuel : forall w c a s s' b, good s -> getline_loop n fuel w c a s = Ok (s', b) -> G s s' /\ good s'.
Proof.
  induction fuel as [|fuel IH]; intros w c a s s' b H; cbn [getline_loop]; [discriminate|]. destruct (negb (isok s)); [intros R; injection R as <- <-; split; [apply G_refl|exact H]|].
  assert (Q0 : forall x, G s (set_qmin x s)) by (intros x; apply G_same; auto).
  destruct (0 <? strchr (inb (set_qmin 0 s)) c)%nat; [intros R; injection R as <- <-; split; [apply Q0|exact H]|].
  destruct (stop_r (set_qmin 0 s)); [intros R; injection R as <- <-; split; [apply Q0|exact H]|].
  set (s1 := set_qmin _ (set_qmin 0 s)). assert (G1 : G s s1) by (apply G_same; auto). assert (H1 : good s1) by exact H. clearbody s1.
  match goal with |- context [bind ?m ?k] => destruct m as [[s2 w']| |] eqn:W; try discriminate end. cbn [bind].
  assert (G2 : G s1 s2 /\ good s2). { destruct (0 <? w); [|injection W as <- <-; split; [apply G_refl|exact H1]]. destruct (ask s1) as [[s3 x]| |] eqn:Q; try discriminate. cbn [bind] in W. injection W as <- <-. split; [apply (ask_G _ _ _ Q)|apply (ask_good _ _ _ Q H1)]. }
  destruct G2 as [G2 H2]. pose proof (G_trans _ _ _ G1 G2) as G12. destruct (exec n (DoSelect true) s2) as [[s3 has]| |] eqn:E; try discriminate. cbn [bind]. destruct (exec_meets n _ _ _ _ H2 E) as (G3 & H3 & _). pose proof (G_trans _ _ _ G12 G3) as G13.
  destruct (negb (isok s3)); [intros R; injection R as <- <-; auto|].
  match goal with |- context [bind ?m ?k] => destruct m as [[s4 h4]| |] eqn:Hs; try discriminate end. cbn [bind].
  assert (G4 : G s3 s4 /\ good s4). { destruct has; [|injection Hs as <- <-; split; [apply G_refl|exact H3]]. destruct (uread _ _ s3) as [[s5 d]| |] eqn:U; try discriminate. cbn [bind] in Hs. injection Hs as <- <-. destruct (uread_ok n _ s3 s5 d H3 U) as [G5 H5]. split; [|exact H5]. eapply G_trans; [exact G5|apply G_set_inb]. }
  destruct G4 as [G4 H4]. pose proof (G_trans _ _ _ G13 G4) as G14.
  destruct (negb (isok s4)); [intros R; injection R as <- <-; auto|]. destruct (negb h4 && (w' =? 0)); [intros R; injection R as <- <-; auto|]. intros R. destruct (IH _ _ _ _ _ _ H4 R) as [G5 H5]. split; [exact (G_trans _ _ _ G14 G5)|exact H5].
Qed.
Lemma getline_ok n w c a s s' : good s -> getline n w c a s = Ok s' -> G s s' /\ good s'.
Proof.
  intros H. unfold getline. destruct (exec n DoAuto s) as [[s1 b1]| |] eqn:E; try discriminate. cbn [bind]. destruct (exec_meets n _ _ _ _ H E) as (G1 & H1 & _).
  destruct (getline_loop _ _ _ _ _ s1) as [[s2 b2]| |] eqn:L; try discriminate. cbn [bind]. destruct (getline_loop_ok _ _ _ _ _ _ _ _ H1 L) as [G2 H2]. pose proof (G_trans _ _ _ G1 G2) as G12.
  destruct (negb b2 || is_nil (inb s2)); [intros R; injection R as <-; auto|]. destruct (strchr (inb s2) c); intros R; injection R as <-; (split; [|exact H2]); (eapply G_trans; [exact G12|]); (eapply G_trans; [|apply G_emit; exact I]); apply G_set_inb.
Qed.
Lemma step_ok n o s s' : good s -> step n o s = Ok s' -> G s s' /\ good s'.
Proof.
  intros H. destruct o; cbn [step].
  - destruct (exec n (DoAct a) s) as [[s1 b1]| |] eqn:E; try discriminate. cbn [bind]. intros R. injection R as <-. destruct (exec_meets n _ _ _ _ H E) as (G1 & H1 & _). auto.
  - apply read_ok, H.
  - apply getline_ok, H.
  - intros R. injection R as <-. split; [apply G_same; auto|exact H].
Qed.
Lemma run_ok n l : forall s s', good s -> run n l s = Ok s' -> G s s' /\ good s'.
Proof.
  induction l as [|o l IH]; intros s s' H; cbn [run]; [intros R; injection R as <-; split; [apply G_refl|exact H]|]. destruct (step n o s) as [s1| |] eqn:E; try discriminate. cbn [bind]. intros R. destruct (step_ok _ _ _ _ H E) as [G1 H1]. destruct (IH _ _ H1 R) as [G2 H2]. split; [exact (G_trans _ _ _ G1 G2)|exact H2].
Qed.
