(** Streams that are only written to. *)
From Verif Require Import Base BaseFacts StreamModel StreamSpec StreamProofs StreamProofs2 StreamProofs3 FileModel FileSpec.
Local Open Scope Z_scope.

(** Nothing is sent after the stream is closed. *)
Fixpoint silent (tr : list event) : Prop :=
  match tr with [] => True | Closed :: r => Forall (fun e => match e with Sent _ => False | _ => True end) r | _ :: r => silent r end.
Definition hush (s : st) : Prop := silent (tr s) /\ (In Closed (tr s) -> closed s = true).
Lemma silent_app a b : silent a -> (In Closed a -> Forall (fun e => match e with Sent _ => False | _ => True end) b) -> (~ In Closed a -> silent b) -> silent (a ++ b).
Proof.
  induction a as [|x a IH]; intros A H N; cbn [app]; [apply N; intros []|].
  destruct x; cbn [silent] in *; try (apply IH; [exact A|intros I; apply H; right; exact I|intros I; apply N; intros [Z|Z]; [discriminate|auto]]).
  apply Forall_app. split; [exact A|]. apply H. left. reflexivity.
Qed.
Lemma hush_emit s e : match e with Sent _ => closed s = false | Closed => closed s = true | _ => True end -> hush s -> hush (emit e s).
Proof.
  intros E [S C]. split; cbn.
  - apply silent_app; [exact S|intros I|intros _; destruct e; cbn; auto]. specialize (C I). constructor; [|constructor]. destruct e; auto. congruence.
  - intros I. apply in_app_or in I. destruct I as [I|[I|[]]]; [auto|subst e; exact E].
Qed.
Lemma moves_hush s s' : moves s s' -> hush s -> hush s'.
Proof.
  induction 1 as [s|a b c _ IH1 _ IH2| |e s A E| |x s Ez|s| | | | | | | | |]; auto.
  - apply hush_emit, E.
  - intros [S C]. split; [exact S|]. intros _. reflexivity.
Qed.
Lemma uread_hush n k s s' d : uread (exec n) k s = Ok (s', d) -> hush s -> hush s'.
Proof.
  unfold uread. destruct (negb (isok s)); [intros R; injection R as <- <-; auto|]. destruct (ask s) as [[s1 a]| |] eqn:Q; try discriminate. cbn [bind]. intros R H. apply (moves_hush _ _ (ask_moves _ _ _ Q)) in H. destruct (rfail a).
  - destruct (exec n _ _) as [[s2 b]| |] eqn:E; try discriminate. cbn [bind] in R. injection R as <- <-. apply (moves_hush _ _ (exec_moves _ _ _ _ _ E)). apply hush_emit; [exact I|exact H].
  - injection R as <- <-. apply hush_emit; [exact I|exact H].
Qed.
Lemma exec_hush n c s s' b : exec n c s = Ok (s', b) -> hush s -> hush s'.
Proof. intros E. apply moves_hush, (exec_moves _ _ _ _ _ E). Qed.
Lemma read_hush n k s s' : read n k s = Ok s' -> hush s -> hush s'.
Proof.
  intros R H. unfold read in R. revert R. match goal with |- context [bind ?m ?k] => destruct m as [s1| |] eqn:W; try discriminate end. cbn [bind].
  assert (H1 : hush s1). { destruct (length (inb s) <? qmin s)%nat; [|injection W as <-; exact H]. cbv zeta in W. destruct (uread _ _ _) as [[s2 d]| |] eqn:U; try discriminate. cbn [bind] in W. injection W as <-. exact (uread_hush _ _ _ _ _ U H). }
  destruct (length (inb s1) <? qmin s1)%nat; [|destruct (is_nil (inb s1))].
  - destruct (exec n DoAuto s1) as [[s2 b2]| |] eqn:E; try discriminate. cbn [bind]. intros R. injection R as <-. apply hush_emit; [exact I|]. exact (exec_hush _ _ _ _ _ E H1).
  - destruct (uread _ _ s1) as [[s2 d]| |] eqn:U; try discriminate. cbn [bind]. destruct (exec n DoAuto _) as [[s3 b3]| |] eqn:E; try discriminate. cbn [bind]. intros R. injection R as <-. apply (exec_hush _ _ _ _ _ E). apply hush_emit; [exact I|]. exact (uread_hush _ _ _ _ _ U H1).
  - destruct (exec n DoAuto _) as [[s3 b3]| |] eqn:E; try discriminate. cbn [bind]. intros R. injection R as <-. apply (exec_hush _ _ _ _ _ E). apply hush_emit; [exact I|]. exact H1.
Qed.
Lemma getline_loop_hush n fuel : forall w c a s s' b, getline_loop n fuel w c a s = Ok (s', b) -> hush s -> hush s'.
Proof.
  induction fuel as [|fuel IH]; intros w c a s s' b; cbn [getline_loop]; [discriminate|]. destruct (negb (isok s)); [intros R; injection R as <- <-; auto|].
  destruct (0 <? strchr (inb (set_qmin 0 s)) c)%nat; [intros R; injection R as <- <-; auto|]. destruct (stop_r (set_qmin 0 s)); [intros R; injection R as <- <-; auto|].
  set (s1 := set_qmin _ (set_qmin 0 s)). intros R H. assert (H1 : hush s1) by exact H. clearbody s1. revert R.
  match goal with |- context [bind ?m ?k] => destruct m as [[s2 w']| |] eqn:W; try discriminate end. cbn [bind].
  assert (H2 : hush s2). { destruct (0 <? w); [|injection W as <- <-; exact H1]. destruct (ask s1) as [[s3 x]| |] eqn:Q; try discriminate. cbn [bind] in W. injection W as <- <-. exact (moves_hush _ _ (ask_moves _ _ _ Q) H1). }
  destruct (exec n (DoSelect true) s2) as [[s3 has]| |] eqn:E; try discriminate. cbn [bind]. pose proof (exec_hush _ _ _ _ _ E H2) as H3.
  destruct (negb (isok s3)); [intros R; injection R as <- <-; auto|].
  match goal with |- context [bind ?m ?k] => destruct m as [[s4 h4]| |] eqn:Hs; try discriminate end. cbn [bind].
  assert (H4 : hush s4). { destruct has; [|injection Hs as <- <-; exact H3]. destruct (uread _ _ s3) as [[s5 d]| |] eqn:U; try discriminate. cbn [bind] in Hs. injection Hs as <- <-. exact (uread_hush _ _ _ _ _ U H3). }
  destruct (negb (isok s4)); [intros R; injection R as <- <-; auto|]. destruct (negb h4 && (w' =? 0)); [intros R; injection R as <- <-; auto|]. intros R. exact (IH _ _ _ _ _ _ R H4).
Qed.
Lemma step_hush n o s s' : step n o s = Ok s' -> hush s -> hush s'.
Proof.
  destruct o; cbn [step].
  - destruct (exec n (DoAct a) s) as [[s1 b1]| |] eqn:E; try discriminate. cbn [bind]. intros R. injection R as <-. exact (exec_hush _ _ _ _ _ E).
  - apply read_hush.
  - unfold getline. destruct (exec n DoAuto s) as [[s1 b1]| |] eqn:E; try discriminate. cbn [bind]. destruct (getline_loop _ _ _ _ _ s1) as [[s2 b2]| |] eqn:L; try discriminate. cbn [bind]. intros R H. apply (exec_hush _ _ _ _ _ E), (getline_loop_hush _ _ _ _ _ _ _ _ L) in H.
    destruct (negb b2 || is_nil (inb s2)); [injection R as <-; exact H|]. destruct (strchr (inb s2) sep); injection R as <-; (apply hush_emit; [exact I|exact H]).
  - intros R. injection R as <-. auto.
Qed.
Lemma run_hush n l : forall s s', run n l s = Ok s' -> hush s -> hush s'.
Proof.
  induction l as [|o l IH]; intros s s'; cbn [run]; [intros R; injection R as <-; auto|]. destruct (step n o s) as [s1| |] eqn:E; try discriminate. cbn [bind]. intros R H. exact (IH _ _ R (step_hush _ _ _ _ E H)).
Qed.

(** * A plain stream: no limit, no callback, nothing but writes *)
Section Plain.
Variable P : answer -> Prop.
Hypothesis PN : forall a, P a -> named a.
Record plain (s : st) : Prop := { p_auto : autoclose s = false; p_r : stop_r s = false; p_w : stop_w s = false; p_lim : limit s = 0;
  p_del : delayed s = false; p_cb : closecb s = None; p_closed : closed s = true -> err s <> 0; p_env : Forall P (env s) }.
(** What a call leaves alone. *)
Definition keeps (s s' : st) : Prop := plain s' /\ accepted (tr s') = accepted (tr s) /\ (err s <> 0 -> err s' <> 0) /\ flushing s' = flushing s.
Lemma keeps_refl s : plain s -> keeps s s. Proof. split; auto. Qed.
Lemma keeps_trans a b c : keeps a b -> keeps b c -> keeps a c. Proof. intros (_ & A & E & F) (Q & A' & E' & F'). split; [exact Q|]. split; [congruence|]. split; [auto|congruence]. Qed.
Definition fits (c : cmd) (s : st) : Prop := match c with DoClose => err s <> 0 | DoErr e => e <> 0 | DoAct _ | DoCall _ => False | _ => True end.
Definition quick : Prop := forall a, P a -> prompt a.
Definition done (c : cmd) (s s' : st) (b : bool) : Prop :=
  match c with
  | DoErr _ => err s' <> 0
  | DoSelect false => quick -> b = false -> err s' <> 0
  | DoFlushOut m => (quick -> 0 < m -> err s' = 0 -> out s' = []) /\ (out s = [] -> s' = s)
  | DoFlush m => (quick -> flushing s = false -> 0 < m -> err s' = 0 -> out s' = []) /\ (out s = [] -> out s' = [] /\ err s' = err s)
  | DoAuto => s' = s
  | _ => True
  end.
Definition meets3 (call : cmd -> st -> res (st * bool)) : Prop :=
  forall c s s' b, plain s -> fits c s -> call c s = Ok (s', b) -> keeps s s' /\ done c s s' b.
Lemma isok_err s : plain s -> isok s = (err s =? 0).
Proof. intros Q. unfold isok. destruct (Z.eqb_spec (err s) 0) as [E|E]; [|apply andb_false_r]. destruct (closed s) eqn:C; [|reflexivity]. exfalso. exact (p_closed s Q C E). Qed.
Lemma ask_plain s s' a : ask s = Ok (s', a) -> plain s -> plain s' /\ P a /\ tr s' = tr s /\ out s' = out s /\ err s' = err s /\ flushing s' = flushing s /\ s' = set_env (env s') s.
Proof.
  unfold ask. destruct (env s) as [|x r] eqn:E; [discriminate|]. intros R. injection R as <- <-. intros []. rewrite E in p_env0. split; [|split; [exact (Forall_inv p_env0)|auto]]. constructor; auto. exact (Forall_inv_tail p_env0).
Qed.
Section Body.
Variable call : cmd -> st -> res (st * bool).
Hypothesis C : meets3 call.

Lemma uwrite_plain blk s s' n : plain s -> uwrite call blk s = Ok (s', n) -> keeps s s' /\ (err s' = 0 -> out s' = out s).
Proof.
  intros Q. unfold uwrite. rewrite (isok_err s Q). destruct (err s =? 0) eqn:K; cbn [negb]; [|intros R; injection R as <- <-; split; [apply keeps_refl, Q|auto]].
  destruct (ask s) as [[s1 a]| |] eqn:A; try discriminate. cbn [bind]. destruct (ask_plain _ _ _ A Q) as (Q1 & Pa & T & O & E & Fl & _). set (ev := Sent _).
  assert (Q2 : plain (emit ev s1)) by (destruct Q1; constructor; auto). assert (A2 : accepted (tr (emit ev s1)) = accepted (tr s)) by (cbn [tr emit set_tr]; rewrite accepted_snoc, app_nil_r, T; reflexivity).
  destruct (wfail a) as [e|] eqn:W.
  - destruct (call (DoErr e) (emit ev s1)) as [[s2 b2]| |] eqn:Ec; try discriminate. cbn [bind]. intros R. injection R as <- <-. assert (Ne : e <> 0) by (intros ->; exact (proj1 (PN a Pa) W)). destruct (C (DoErr e) _ _ _ Q2 Ne Ec) as [(Q3 & A3 & _ & F3) D]. cbn [done] in D. split; [|congruence]. split; [exact Q3|]. split; [congruence|]. split; [auto|]. rewrite F3. exact Fl.
  - intros R. injection R as <- <-. split; [|intros _; exact O]. split; [exact Q2|]. split; [exact A2|]. cbn [err flushing emit set_tr]. split; congruence.
Qed.
Lemma loop_plain fuel : forall msec s used s' u, plain s -> (used = false -> out s = []) -> flush_loop call fuel msec s used = Ok (s', u) ->
  keeps s s' /\ (quick -> 0 < msec -> err s' = 0 -> out s' = []) /\ (used = false -> s' = s /\ u = false).
Proof.
  induction fuel as [|fuel IH]; intros msec s used s' u Q U; cbn [flush_loop]; [discriminate|]. rewrite (isok_err s Q).
  destruct used; cbn [andb]; [|intros R; injection R as <- <-; split; [apply keeps_refl, Q|]; split; auto].
  destruct (err s =? 0) eqn:K; cbn [negb]; [|intros R; injection R as <- <-; split; [apply keeps_refl, Q|]; split; [intros _ _ Z; rewrite Z in K; discriminate|discriminate]]. intros R. cut (keeps s s' /\ (quick -> 0 < msec -> err s' = 0 -> out s' = [])); [intros [X Y]; split; [exact X|]; split; [exact Y|discriminate]|]. revert R.
  destruct (ask s) as [[s1 a]| |] eqn:A; try discriminate. cbn [bind]. destruct (ask_plain _ _ _ A Q) as (Q1 & Pa & T & O & E & Fl & _).
  match goal with |- context [uwrite call ?b (set_out ?o s1)] => set (blk := b); set (o1 := o) end.
  assert (K1 : keeps s (set_out o1 s1)). { split; [destruct Q1; constructor; auto|]. cbn. rewrite T, E, Fl. auto. }
  destruct (uwrite call blk (set_out o1 s1)) as [[s2 real]| |] eqn:W; try discriminate. cbn [bind]. destruct (uwrite_plain blk _ _ _ (proj1 K1) W) as [K2 _].
  match goal with |- context [if ?c then set_out ?o s2 else s2] => set (s3 := if c then set_out o s2 else s2) end.
  assert (K3 : keeps s2 s3). { destruct K2 as [Q2 _]. unfold s3. destruct (_ && _); [|apply keeps_refl, Q2]. split; [destruct Q2; constructor; auto|]. cbn. auto. }
  clearbody s3. assert (K13 : keeps s s3) by eauto using keeps_trans.
  destruct (Z.eqb_spec msec 0) as [->|Nz]; [intros R; injection R as <- <-; split; [exact K13|]; intros _ L; lia|].
  assert (Next : forall s4, keeps s s4 -> flush_loop call fuel msec s4 (negb (is_nil (out s4))) = Ok (s', u) -> keeps s s' /\ (quick -> 0 < msec -> err s' = 0 -> out s' = [])).
  { intros s4 K4 R. destruct (IH msec s4 (negb (is_nil (out s4))) s' u (proj1 K4)) with (2 := R) as (K5 & X & _); [intros Z; apply negb_false_iff in Z; apply is_nil_iff, Z|]. split; [eauto using keeps_trans|exact X]. }
  destruct (0 <=? msec) eqn:Pm; [|apply Next, K13].
  destruct (ask s3) as [[s4 a']| |] eqn:A4; try discriminate. cbn [bind]. destruct (ask_plain _ _ _ A4 (proj1 K13)) as (Q4 & Pa' & T4 & O4 & E4 & Fl4 & _). assert (K4 : keeps s s4) by (apply (keeps_trans _ _ _ K13); split; [exact Q4|rewrite T4, E4, Fl4; auto]).
  destruct (late a') eqn:Lt; [intros R; injection R as <- <-; split; [exact K4|]; intros Qk; destruct (Qk a' Pa') as (_ & _ & Z); congruence|].
  destruct (call (DoSelect false) s4) as [[s5 b5]| |] eqn:Sl; try discriminate. cbn [bind]. destruct (C (DoSelect false) _ _ _ Q4 I Sl) as [K5 D5]. cbn [done] in D5. assert (K45 : keeps s s5) by eauto using keeps_trans.
  destruct b5; cbn [negb]; [apply Next, K45|]. intros R. injection R as <- <-. split; [exact K45|]. intros Qk _ Z. exfalso. exact (D5 Qk eq_refl Z).
Qed.
Lemma auto_same s s' b : plain s -> call DoAuto s = Ok (s', b) -> s' = s.
Proof. intros Q E. apply (C DoAuto s s' b Q I E). Qed.
Lemma flush_outbuf_plain msec s s' b : plain s -> flush_outbuf call msec s = Ok (s', b) -> keeps s s' /\ done (DoFlushOut msec) s s' b.
Proof.
  intros Q. unfold flush_outbuf. rewrite (p_auto s Q), (p_del s Q), !andb_true_r, negb_involutive. destruct (is_nil (out s)) eqn:N.
  - destruct (call DoAuto s) as [[s1 b1]| |] eqn:E; try discriminate. cbn [bind]. intros R. injection R as <- <-. rewrite (auto_same _ _ _ Q E). split; [apply keeps_refl, Q|]. apply is_nil_iff in N. split; auto.
  - destruct (flush_loop call _ msec s (negb false)) as [[s1 u]| |] eqn:L; try discriminate. cbn [bind]. assert (Uo : negb false = false -> out s = []) by discriminate. destruct (loop_plain _ msec s _ s1 u Q Uo L) as (K1 & X1 & _). pose proof (proj1 K1) as Q1. rewrite (p_auto s1 Q1). cbn [andb bind]. rewrite (p_del s1 Q1). cbn [andb].
    match goal with |- context [call DoAuto ?x] => set (s2 := x) end.
    assert (K2 : keeps s1 s2 /\ (err s2 = 0 -> out s2 = out s1) /\ err s2 = err s1). { unfold s2. rewrite (isok_err s1 Q1). destruct u; cbn [andb]; [|split; [apply keeps_refl, Q1|auto]]. destruct (err s1 =? 0) eqn:K; cbn [negb]; [split; [apply keeps_refl, Q1|auto]|]. split; [split; [destruct Q1; constructor; auto|auto]|]. split; [|reflexivity]. cbn. intros Z. rewrite Z in K. discriminate. }
    destruct K2 as (K2 & O2 & E2). clearbody s2. destruct (call DoAuto s2) as [[s3 b3]| |] eqn:E; try discriminate. cbn [bind]. intros R. injection R as <- <-. rewrite (auto_same _ _ _ (proj1 K2) E). split; [eauto using keeps_trans|]. split; [|intros Z; rewrite Z in N; discriminate]. intros Qk Lm Z. rewrite (O2 Z). apply X1; auto. congruence.
Qed.
Lemma body_meets3 : meets3 (body call).
Proof.
  intros c s s' b Q F. destruct c as [|m|m|rd|e| |a|[i l]]; cbn [body]; try contradiction.
  - unfold close. destruct (call (DoFlush 2000) s) as [[s1 b1]| |] eqn:E; try discriminate. cbn [bind]. destruct (C (DoFlush 2000) _ _ _ Q I E) as [(Q1 & A1 & E1 & F1) _]. cbn [closecb emit set_tr set_closed]. rewrite (p_cb s1 Q1). intros R. injection R as <- <-. cbn [fits] in F. split; [|exact I].
    split; [destruct Q1; constructor; auto|]. cbn [tr emit set_tr set_closed err flushing]. rewrite accepted_snoc, app_nil_r. auto.
  - unfold flush. destruct (flushing s) eqn:Fl; [intros R; injection R as <- <-; split; [apply keeps_refl, Q|]; split; [congruence|auto]|].
    set (s0 := set_want true (set_flushing true s)). assert (Q0 : plain s0) by (destruct Q; constructor; auto). destruct (call (DoFlushOut m) s0) as [[s1 b1]| |] eqn:E; try discriminate. cbn [bind]. intros R. injection R as <- <-. destruct (C (DoFlushOut m) _ _ _ Q0 I E) as [(Q1 & A1 & E1 & F1) D]. cbn [done] in *. split; [split; [destruct Q1; constructor; auto|cbn; auto]|]. split; [intros Qk _; apply D, Qk|]. intros Z. destruct D as [_ D]. rewrite (D Z). auto.
  - apply flush_outbuf_plain, Q.
  - unfold select. destruct (call DoAuto s) as [[s1 b1]| |] eqn:E1; try discriminate. cbn [bind]. rewrite (auto_same _ _ _ Q E1). destruct (ask s) as [[s2 a]| |] eqn:A; try discriminate. cbn [bind]. destruct (ask_plain _ _ _ A Q) as (Q2 & Pa & T2 & O2 & Er2 & Fl2 & _). assert (K2 : keeps s s2) by (split; [exact Q2|rewrite T2, Er2, Fl2; auto]).
    destruct (sfail a) as [e|] eqn:Sf.
    + destruct (call (DoErr e) s2) as [[s3 b3]| |] eqn:E3; try discriminate. cbn [bind]. intros R. injection R as <- <-. assert (Ne : e <> 0) by (intros ->; exact (proj2 (PN a Pa) Sf)). destruct (C (DoErr e) _ _ _ Q2 Ne E3) as [K3 D3]. split; [eauto using keeps_trans|]. destruct rd; cbn [done]; auto.
    + match goal with |- context [bind ?m ?k] => destruct m as [s3| |] eqn:W; try discriminate end. cbn [bind].
      assert (K3 : keeps s2 s3). { destruct (want s2); [|injection W as <-; apply keeps_refl, Q2]. destruct (call (DoFlush 0) s2) as [[s4 b4]| |] eqn:E4; try discriminate. cbn [bind] in W. injection W as <-. apply (C (DoFlush 0) _ _ _ Q2 I E4). }
      assert (K13 : keeps s s3) by eauto using keeps_trans. destruct (isok s3 && _ && _ && _).
      * destruct (call (DoFlushOut 0) s3) as [[s4 b4]| |] eqn:E4; try discriminate. cbn [bind]. destruct (C (DoFlushOut 0) _ _ _ (proj1 K13) I E4) as [K4 _]. assert (K14 : keeps s s4) by eauto using keeps_trans. rewrite (isok_err s4 (proj1 K14)). destruct (err s4 =? 0) eqn:K; cbn [negb]; intros R; injection R as <- <-; (split; [exact K14|]); destruct rd; cbn [done]; auto.
        { intros Qk. destruct (Qk a Pa) as (_ & Rd & _). rewrite Rd. discriminate. }
        { intros _ _ Z. rewrite Z in K. discriminate. }
      * intros R. injection R as <- <-. split; [exact K13|]. destruct rd; cbn [done]; auto. intros Qk. destruct (Qk a Pa) as (_ & Rd & _). rewrite Rd. discriminate.
  - unfold seterr. cbn [fits done] in *. destruct (err s =? 0) eqn:K.
    + intros E. assert (Q0 : plain (set_err e s)) by (destruct Q; constructor; auto). destruct (C DoClose (set_err e s) _ _ Q0 F E) as [(Q1 & A1 & E1 & F1) _]. split; [split; [exact Q1|]; split; [exact A1|]; split; [intros _|exact F1]|]; apply E1, F.
    + intros R. injection R as <- <-. split; [apply keeps_refl, Q|]. apply Z.eqb_neq, K.
  - unfold maybe_autoclose. rewrite (p_r s Q). cbn [andb]. intros R. injection R as <- <-. split; [apply keeps_refl, Q|reflexivity].
Qed.
End Body.
Lemma exec_meets3 n : meets3 (exec n).
Proof. induction n as [|n IH]; [intros c s s' b _ _ E; discriminate|]. apply (body_meets3 (exec n) IH). Qed.

(** Writing. *)
Lemma write_plain n buf s s' : plain s -> step n (Do (Write buf)) s = Ok s' ->
  plain s' /\ (err s <> 0 -> err s' <> 0) /\ flushing s' = flushing s /\ (err s' = 0 -> accepted (tr s') = accepted (tr s) ++ buf).
Proof.
  intros Q. cbn [step]. destruct n as [|n]; [discriminate|]. cbn [exec body do_act]. unfold write. rewrite (isok_err s Q), (p_w s Q), orb_false_r.
  destruct (err s =? 0) eqn:K; cbn [negb orb].
  - destruct (is_nil buf) eqn:N.
    + cbn [bind]. intros R. injection R as <-. apply is_nil_iff in N. subst. split; [destruct Q; constructor; auto|]. split; [auto|]. split; [reflexivity|]. intros _. cbn [tr emit set_tr]. rewrite accepted_snoc. reflexivity.
    + rewrite (p_del s Q). cbn [negb andb].
      match goal with |- context [bind (bind ?m ?k) _] => destruct m as [[s1 wr]| |] eqn:W; try discriminate end. cbn [bind].
      assert (K1 : keeps s s1 /\ (wr <= length buf)%nat). { destruct (is_nil (out s)); [|injection W as <- <-; split; [apply keeps_refl, Q|lia]]. split; [exact (proj1 (uwrite_plain _ (exec_meets3 n) _ _ _ _ Q W))|]. revert W. unfold uwrite. destruct (negb (isok s)); [intros R; injection R as <- <-; lia|]. destruct (ask s) as [[s2 a]| |]; try discriminate. cbn [bind]. destruct (wfail a); [destruct (exec n _ _) as [[s3 b3]| |]; try discriminate; cbn [bind]|]; intros R; injection R as <- <-; lia. }
      destruct K1 as [K1 Lw]. pose proof (proj1 K1) as Q1. rewrite (p_lim s1 Q1). cbn [Z.eqb]. cbv zeta. rewrite firstn_all.
      match goal with |- context [Wrote buf ?k] => set (cnt := k) end. assert (Cn : cnt = length buf) by (unfold cnt; rewrite skipn_length; lia). clearbody cnt. subst cnt.
      set (s2 := emit _ _). assert (Q2 : plain s2) by (destruct Q1; constructor; auto). assert (A2 : accepted (tr s2) = accepted (tr s) ++ buf) by (unfold s2; cbn [tr emit set_tr set_out]; rewrite accepted_snoc, firstn_all, (proj1 (proj2 K1)); reflexivity). assert (E2 : err s <> 0 -> err s2 <> 0) by (exact (proj1 (proj2 (proj2 K1)))). assert (F2 : flushing s2 = flushing s) by (exact (proj2 (proj2 (proj2 K1)))). clearbody s2.
      destruct (want s2); [|cbn [bind]; intros R; injection R as <-; auto]. destruct (auto_fl s2).
      * destruct (exec n (DoFlush 0) s2) as [[s3 b3]| |] eqn:E; try discriminate. cbn [bind]. intros R. injection R as <-. destruct (exec_meets3 n (DoFlush 0) _ _ _ Q2 I E) as [(Q3 & A3 & E3 & F3) _]. split; [exact Q3|]. split; [auto|]. split; [congruence|]. intros _. congruence.
      * destruct (exec n (DoFlushOut 0) s2) as [[s3 b3]| |] eqn:E; try discriminate. cbn [bind]. intros R. injection R as <-. destruct (exec_meets3 n (DoFlushOut 0) _ _ _ Q2 I E) as [(Q3 & A3 & E3 & F3) _]. split; [exact Q3|]. split; [auto|]. split; [congruence|]. intros _. congruence.
  - cbn [bind]. intros R. injection R as <-. split; [destruct Q; constructor; auto|]. split; [auto|]. split; [reflexivity|]. cbn [err emit set_tr]. intros Z. rewrite Z in K. discriminate.
Qed.
Lemma writes_plain n blocks : forall s s', plain s -> run n (writes blocks) s = Ok s' ->
  plain s' /\ (err s <> 0 -> err s' <> 0) /\ flushing s' = flushing s /\ (err s' = 0 -> accepted (tr s') = accepted (tr s) ++ concat blocks).
Proof.
  induction blocks as [|b blocks IH]; intros s s' Q; [cbn; intros R; injection R as <-; rewrite app_nil_r; auto|]. change (writes (b :: blocks)) with (Do (Write b) :: writes blocks). cbn [run].
  destruct (step n (Do (Write b)) s) as [s1| |] eqn:E; try discriminate. cbn [bind]. intros R. destruct (write_plain _ _ _ _ Q E) as (Q1 & E1 & F1 & A1). destruct (IH _ _ Q1 R) as (Q2 & E2 & F2 & A2). split; [exact Q2|]. split; [auto|]. split; [congruence|]. intros Z. rewrite (A2 Z). cbn [concat]. rewrite A1, app_assoc; [reflexivity|]. destruct (Z.eq_dec (err s1) 0) as [Y|Y]; [exact Y|]. exfalso. exact (E2 Y Z).
Qed.
Lemma new_plain l : Forall P l -> plain (new 0 l). Proof. constructor; auto. discriminate. Qed.
Lemma named_errors l : Forall P l -> errors_named l.
Proof. intros F. apply Forall_forall. intros a I. apply (proj1 (PN a (proj1 (Forall_forall _ _) F a I))). Qed.
(** Closing: if there is no error, a prompt world has everything. *)
Lemma close_plain n s s' : plain s -> good s -> G (new 0 []) s -> flushing s = false -> step n (Do Close) s = Ok s' ->
  (err s <> 0 -> err s' <> 0) /\ accepted (tr s') = accepted (tr s) /\ (quick -> err s' = 0 -> sent (tr s') = accepted (tr s')) /\ G (new 0 []) s'.
Proof.
  intros Q Hg Gs Fl. destruct n as [|[|n]]; try discriminate. cbn [step]. change (exec (Datatypes.S (Datatypes.S n)) (DoAct Close) s) with (close (exec n) s). unfold close.
  destruct (exec n (DoFlush 2000) s) as [[s1 b1]| |] eqn:E; try discriminate. cbn [bind]. destruct (exec_meets3 n (DoFlush 2000) _ _ _ Q I E) as [(Q1 & A1 & E1 & _) D]. cbn [closecb emit set_tr set_closed]. rewrite (p_cb s1 Q1). cbn [bind]. intros R. injection R as <-.
  destruct (exec_meets n _ _ _ _ Hg E) as (G1 & H1 & _). pose proof (G_trans _ _ _ Gs G1) as G01.
  cbn [err tr emit set_tr set_closed]. rewrite accepted_snoc, sent_snoc, !app_nil_r. split; [exact E1|]. split; [exact A1|]. split.
  - intros Qk Z. cbn [done] in D. destruct D as [D _]. specialize (D Qk Fl ltac:(lia) Z). destruct G01 as (_ & w & d & r & A & S & O & K & _). cbn in A, S, O. rewrite <- K, D, app_nil_r in O by (rewrite (isok_err s1 Q1), Z; reflexivity). congruence.
  - apply (G_trans _ _ _ G01). apply (G_snoc s1 (emit Closed (set_closed true s1)) Closed); auto. discriminate.
Qed.
End Plain.

