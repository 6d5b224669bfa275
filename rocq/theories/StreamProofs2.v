(** Close callbacks and input of a stream. *)
From Verif Require Import Base BaseFacts StreamModel StreamSpec.
Local Open Scope Z_scope.

(** The history, as an automaton: open or not, the callback registered, and the
    callback that has to be called at once. *)
Definition mode : Type := bool * option nat * option nat.
Definition scan1 (m : option mode) (e : event) : option mode :=
  match m with
  | None => None
  | Some (o, r, Some i) => match e with Called j => if (i =? j)%nat then Some (o, r, None) else None | _ => None end
  | Some (o, r, None) =>
      match e with
      | Reg c => if o then Some (true, c, None) else Some (false, None, c)
      | Closed => Some (false, None, r)
      | Called _ => None
      | _ => m
      end
  end.
Definition scan (m : option mode) (tr : list event) : option mode := fold_left scan1 tr m.
#[local] Arguments scan : simpl never.
Lemma scan_app m a b : scan m (a ++ b) = scan (scan m a) b. Proof. apply fold_left_app. Qed.
Lemma scan_None tr : scan None tr = None. Proof. induction tr; auto. Qed.
Lemma scan_obeys n : forall tr o r o' r', (length tr <= n)%nat -> scan (Some (o, r, None)) tr = Some (o', r', None) -> (o = false -> r = None) -> obeys o r tr.
Proof.
  induction n as [|n IH]; intros tr o r o' r' L S Hr; destruct tr as [|e tr]; cbn in L; try lia; cbn [obeys]; auto.
  change (scan (scan1 (Some (o, r, None)) e) tr = Some (o', r', None)) in S. destruct e; cbn [scan1] in S; try (apply (IH tr o r o' r'); [lia|exact S|exact Hr]).
  - destruct o; [apply (IH tr _ _ o' r'); [lia|exact S|discriminate]|]. destruct c as [i|]; [|apply (IH tr _ _ o' r'); [lia|exact S|reflexivity]].
    destruct tr as [|e2 tr]; [discriminate|]. change (scan (scan1 (Some (false, None, Some i)) e2) tr = Some (o', r', None)) in S. destruct e2 as [| | | | | | |j|]; cbn [scan1] in S; try (rewrite scan_None in S; discriminate). destruct (Nat.eqb_spec i j) as [->|N]; [|rewrite scan_None in S; discriminate]. split; [reflexivity|]. cbn in L. apply (IH tr _ _ o' r'); [lia|exact S|reflexivity].
  - destruct r as [i|]; [|apply (IH tr _ _ o' r'); [lia|exact S|reflexivity]].
    destruct tr as [|e2 tr]; [discriminate|]. change (scan (scan1 (Some (false, None, Some i)) e2) tr = Some (o', r', None)) in S. destruct e2 as [| | | | | | |j|]; cbn [scan1] in S; try (rewrite scan_None in S; discriminate). destruct (Nat.eqb_spec i j) as [->|N]; [|rewrite scan_None in S; discriminate]. split; [reflexivity|]. cbn in L. apply (IH tr _ _ o' r'); [lia|exact S|reflexivity].
  - rewrite scan_None in S. discriminate.
Qed.

Definition start : option mode := Some (true, None, None).
Definition J (s : st) : Prop := scan start (tr s) = Some (negb (closed s), option_map fst (closecb s), None) /\ (closed s = true -> closecb s = None).
Definition U (s : st) : Prop := err s <> 0 -> closed s = true.
Definition pre (c : cmd) (s : st) : Prop :=
  match c with
  | DoCall (i, _) => scan start (tr s) = Some (false, None, Some i) /\ closed s = true /\ closecb s = None
  | DoAct _ => J s /\ U s
  | _ => J s
  end.
Definition K (s s' : st) : Prop := J s' /\ (U s -> U s') /\ (closed s = true -> closed s' = true).
Definition post (c : cmd) (s s' : st) : Prop := K s s' /\ (c = DoClose -> closed s' = true).
Definition meets2 (call : cmd -> st -> res (st * bool)) : Prop :=
  forall c s s' b, pre c s -> call c s = Ok (s', b) -> post c s s'.
Lemma K_trans a b c : K a b -> K b c -> K a c. Proof. intros (_ & Ua & Ca) (Jc & Ub & Cb). split; auto. Qed.
Lemma K_refl s : J s -> K s s. Proof. intros H. split; auto. Qed.
Lemma J_same s s' : tr s' = tr s -> closed s' = closed s -> closecb s' = closecb s -> J s -> J s'.
Proof. unfold J. intros -> -> ->. auto. Qed.
Lemma K_same s s' : tr s' = tr s -> closed s' = closed s -> closecb s' = closecb s -> (err s' <> 0 -> err s <> 0 \/ closed s = true) -> J s -> K s s'.
Proof. intros T Cl Cb E Hj. split; [exact (J_same _ _ T Cl Cb Hj)|]. unfold U. rewrite Cl. split; [|auto]. intros HU N. destruct (E N); auto. Qed.
Lemma J_emit s e : about_close e = false -> J s -> J (emit e s).
Proof. unfold J. cbn. intros A [S C]. split; [|exact C]. rewrite scan_app, S. destruct e; try discriminate; reflexivity. Qed.
Lemma K_emit s e : about_close e = false -> J s -> K s (emit e s).
Proof. intros A H. split; [exact (J_emit _ _ A H)|]. auto. Qed.
Lemma ask_K s s' a : ask s = Ok (s', a) -> J s -> K s s' /\ J s'.
Proof. unfold ask. destruct (env s); [discriminate|]. intros Q. injection Q as <- <-. intros H. split; [apply K_same; auto|exact H]. Qed.

Section Body.
Variable call : cmd -> st -> res (st * bool).
Hypothesis C : meets2 call.
Lemma C1 c s s' b : J s -> call c s = Ok (s', b) -> match c with DoCall _ | DoAct _ => False | _ => True end -> K s s' /\ J s'.
Proof. intros H E N. destruct (C c s s' b) as [HK _]; [destruct c; try contradiction; exact H|exact E|]. split; [exact HK|apply HK]. Qed.
Ltac kt := eauto using K_trans.

Lemma uwrite_K blk s s' n : J s -> uwrite call blk s = Ok (s', n) -> K s s' /\ J s'.
Proof.
  intros H. unfold uwrite. destruct (negb (isok s)); [intros R; injection R as <- <-; split; [apply K_refl|]; exact H|].
  destruct (ask s) as [[s1 a]| |] eqn:Q; try discriminate. cbn [bind]. destruct (ask_K _ _ _ Q H) as [K1 J1]. set (e := Sent _). pose proof (K_emit s1 e eq_refl J1) as K2. pose proof (J_emit s1 e eq_refl J1) as J2.
  destruct (wfail a).
  - destruct (call _ _) as [[s3 b3]| |] eqn:E; try discriminate. cbn [bind]. intros R. injection R as <- <-. destruct (C1 _ _ _ _ J2 E I) as [K3 J3]. split; [kt|exact J3].
  - intros R. injection R as <- <-. split; [kt|exact J2].
Qed.
Lemma uread_K k s s' n : J s -> uread call k s = Ok (s', n) -> K s s' /\ J s'.
Proof.
  intros H. unfold uread. destruct (negb (isok s)); [intros R; injection R as <- <-; split; [apply K_refl|]; exact H|].
  destruct (ask s) as [[s1 a]| |] eqn:Q; try discriminate. cbn [bind]. destruct (ask_K _ _ _ Q H) as [K1 J1]. set (e := Got _). pose proof (K_emit s1 e eq_refl J1) as K2. pose proof (J_emit s1 e eq_refl J1) as J2.
  destruct (rfail a).
  - destruct (call _ _) as [[s3 b3]| |] eqn:E; try discriminate. cbn [bind]. intros R. injection R as <- <-. destruct (C1 _ _ _ _ J2 E I) as [K3 J3]. split; [kt|exact J3].
  - intros R. injection R as <- <-. split; [kt|exact J2].
Qed.
Lemma loop_K fuel : forall msec s used s' u, J s -> flush_loop call fuel msec s used = Ok (s', u) -> K s s' /\ J s'.
Proof.
  induction fuel as [|fuel IH]; intros msec s used s' u H; cbn [flush_loop]; [discriminate|].
  destruct (used && isok s); cbn [negb]; [|intros R; injection R as <- <-; split; [apply K_refl|]; exact H].
  destruct (ask s) as [[s1 a]| |] eqn:Q; try discriminate. cbn [bind]. destruct (ask_K _ _ _ Q H) as [K1 J1].
  match goal with |- context [uwrite call ?b (set_out ?o s1)] => set (blk := b); set (o1 := o) end.
  assert (K1o : K s (set_out o1 s1)) by (apply (K_trans _ _ _ K1), K_same; auto).
  destruct (uwrite _ _ _) as [[s2 real]| |] eqn:W; try discriminate. cbn [bind]. destruct (uwrite_K blk (set_out o1 s1) s2 real J1 W) as [K2 J2].
  set (s3 := if isok s2 && _ then _ else s2). assert (K3 : K s2 s3 /\ J s3) by (unfold s3; destruct (isok s2 && _); (split; [first [apply K_refl; exact J2|apply K_same; auto]|exact J2])).
  destruct K3 as [K3 J3]. clearbody s3. assert (K13 : K s s3) by kt.
  destruct (msec =? 0); [intros R; injection R as <- <-; auto|].
  destruct (0 <=? msec).
  - destruct (ask s3) as [[s4 a']| |] eqn:Q4; try discriminate. cbn [bind]. destruct (ask_K _ _ _ Q4 J3) as [K4 J4].
    destruct (late a'); [intros R; injection R as <- <-; split; [kt|exact J4]|].
    destruct (call (DoSelect false) s4) as [[s5 b5]| |] eqn:Sl; try discriminate. cbn [bind]. destruct (C1 _ _ _ _ J4 Sl I) as [K5 J5].
    destruct b5; cbn [negb]; intros R; [destruct (IH _ _ _ _ _ J5 R) as [K6 J6]; split; [kt|exact J6]|]. injection R as <- <-. split; [kt|exact J5].
  - intros R. destruct (IH _ _ _ _ _ J3 R) as [K6 J6]. split; [kt|exact J6].
Qed.
Lemma flush_outbuf_K msec s s' b : J s -> flush_outbuf call msec s = Ok (s', b) -> K s s' /\ J s'.
Proof.
  intros H. unfold flush_outbuf. destruct (_ && negb (delayed s)).
  - destruct (call DoAuto s) as [[s1 b1]| |] eqn:E; try discriminate. cbn [bind]. intros R. injection R as <- <-. exact (C1 _ _ _ _ H E I).
  - destruct (flush_loop _ _ _ _ _) as [[s1 u]| |] eqn:L; try discriminate. cbn [bind]. destruct (loop_K _ _ _ _ _ _ H L) as [K1 J1].
    match goal with |- context [bind ?m ?k] => destruct m as [s2| |] eqn:Ac; try discriminate end. cbn [bind].
    assert (K2 : K s1 s2 /\ J s2).
    { destruct (autoclose s1 && isok s1); [|injection Ac as <-; split; [apply K_refl|]; exact J1].
      destruct (ask s1) as [[s3 a]| |] eqn:Q; try discriminate. cbn [bind] in Ac. destruct (ask_K _ _ _ Q J1) as [K3 J3]. destruct (_ || _); [|injection Ac as <-; auto].
      destruct (call _ _) as [[s4 b4]| |] eqn:E; try discriminate. cbn [bind] in Ac. injection Ac as <-. destruct (C1 DoClose (set_autoclose false s3) _ _ J3 E I) as [K4 J4]. assert (K s3 (set_autoclose false s3)) by (apply K_same; auto). split; [kt|exact J4]. }
    destruct K2 as [K2 J2]. cbv zeta. set (s3 := if delayed s2 && negb u then _ else s2).
    assert (K3 : K s2 s3 /\ J s3) by (unfold s3; destruct (delayed s2 && negb u); (split; [first [apply K_refl; exact J2|apply K_same; auto]|exact J2])). destruct K3 as [K3 J3]. clearbody s3.
    set (s4 := if u && _ then _ else s3). assert (K4 : K s3 s4 /\ J s4) by (unfold s4; destruct (u && _); (split; [first [apply K_refl; exact J3|apply K_same; auto]|exact J3])). destruct K4 as [K4 J4]. clearbody s4.
    destruct (call DoAuto s4) as [[s5 b5]| |] eqn:E; try discriminate. cbn [bind]. intros R. injection R as <- <-. destruct (C1 _ _ _ _ J4 E I) as [K5 J5]. split; [kt|exact J5].
Qed.
Lemma flush_K msec s s' b : J s -> flush call msec s = Ok (s', b) -> K s s' /\ J s'.
Proof.
  intros H. unfold flush. destruct (flushing s); [intros R; injection R as <- <-; split; [apply K_refl|]; exact H|].
  set (s0 := set_want _ _). assert (K0 : K s s0) by (apply K_same; auto). destruct (call _ _) as [[s1 b1]| |] eqn:E; try discriminate. cbn [bind]. intros R. injection R as <- <-. destruct (C1 _ s0 _ _ H E I) as [K1 J1].
  assert (K s1 (set_flushing false s1)) by (apply K_same; auto). split; [kt|exact J1].
Qed.
Lemma close_K s s' b : J s -> close call s = Ok (s', b) -> K s s' /\ J s' /\ closed s' = true.
Proof.
  intros H. unfold close. destruct (call (DoFlush 2000) s) as [[s1 b1]| |] eqn:E; try discriminate. cbn [bind]. destruct (C1 _ _ _ _ H E I) as [K1 J1].
  set (s2 := emit Closed (set_closed true s1)). assert (S2 : scan start (tr s2) = Some (false, None, option_map fst (closecb s1))). { unfold s2. cbn. rewrite scan_app. destruct J1 as [J1 _]. rewrite J1. reflexivity. }
  change (closecb s2) with (closecb s1). destruct (closecb s1) as [[i l]|] eqn:Cb.
  - intros E2. destruct (C (DoCall (i, l)) (set_closecb None s2) s' b) as [K3 _]; [split; [exact S2|split; reflexivity]|exact E2|]. assert (Cl : closed s' = true) by (apply K3; reflexivity). split; [|split; [apply K3|exact Cl]]. split; [apply K3|]. split; [intros _ _; exact Cl|auto].
  - intros R. injection R as <- <-. assert (J2 : J s2) by (split; [rewrite S2; unfold s2; cbn; rewrite Cb; reflexivity|intros _; exact Cb]). split; [|split; [exact J2|reflexivity]]. split; [exact J2|]. split; [intros _ _; reflexivity|reflexivity].
Qed.
Lemma select_K rd s s' b : J s -> select call rd s = Ok (s', b) -> K s s' /\ J s'.
Proof.
  intros H. unfold select. destruct (call DoAuto s) as [[s1 b1]| |] eqn:E1; try discriminate. cbn [bind]. destruct (C1 _ _ _ _ H E1 I) as [K1 J1].
  destruct (ask s1) as [[s2 a]| |] eqn:Q; try discriminate. cbn [bind]. destruct (ask_K _ _ _ Q J1) as [K2 J2].
  destruct (sfail a) as [e|].
  - destruct (call (DoErr e) s2) as [[s3 b3]| |] eqn:E3; try discriminate. cbn [bind]. intros R. injection R as <- <-. destruct (C1 _ _ _ _ J2 E3 I) as [K3 J3]. split; [kt|exact J3].
  - match goal with |- context [bind ?m ?k] => destruct m as [s3| |] eqn:W; try discriminate end. cbn [bind].
    assert (K3 : K s2 s3 /\ J s3). { destruct (want s2); [|injection W as <-; split; [apply K_refl|]; exact J2]. destruct (call (DoFlush 0) s2) as [[s4 b4]| |] eqn:E4; try discriminate. cbn [bind] in W. injection W as <-. exact (C1 _ _ _ _ J2 E4 I). }
    destruct K3 as [K3 J3]. destruct (isok s3 && _ && _ && _).
    + destruct (call (DoFlushOut 0) s3) as [[s4 b4]| |] eqn:E4; try discriminate. cbn [bind]. destruct (C1 _ _ _ _ J3 E4 I) as [K4 J4]. destruct (negb (isok s4)); intros R; injection R as <- <-; (split; [kt|exact J4]).
    + intros R. injection R as <- <-. split; [kt|exact J3].
Qed.
Lemma write_K buf s s' b : J s -> write call buf s = Ok (s', b) -> K s s' /\ J s'.
Proof.
  intros H. unfold write. destruct (_ || stop_w s); [intros R; injection R as <- <-; split; [apply K_emit|apply J_emit]; auto|].
  match goal with |- context [bind ?m ?k] => destruct m as [[s1 wr]| |] eqn:W; try discriminate end. cbn [bind].
  assert (K1 : K s s1 /\ J s1) by (destruct (_ && is_nil (out s)); [exact (uwrite_K _ _ _ _ H W)|injection W as <- <-; split; [apply K_refl|]; exact H]). destruct K1 as [K1 J1]. cbv zeta.
  set (s2 := emit _ _). assert (K2 : K s1 s2 /\ J s2). { unfold s2. match goal with |- context [emit ?e (set_out ?o s1)] => set (ev := e); set (o1 := o) end. assert (Ka : K s1 (set_out o1 s1)) by (apply K_same; auto). assert (Kb : K (set_out o1 s1) (emit ev (set_out o1 s1))) by (apply K_emit; [reflexivity|exact J1]). split; [kt|apply J_emit; [reflexivity|exact J1]]. }
  destruct K2 as [K2 J2]. clearbody s2. destruct (want s2).
  - destruct (auto_fl s2); intros E; destruct (C1 _ _ _ _ J2 E I) as [K3 J3]; (split; [kt|exact J3]).
  - intros R. injection R as <- <-. split; [kt|exact J2].
Qed.
Lemma reg_K c s s' b : J s -> U s -> setclosecallback call c s = Ok (s', b) -> K s s'.
Proof.
  intros H HU. unfold setclosecallback. set (s1 := emit _ s). assert (Ok1 : isok s1 = isok s) by reflexivity. destruct (isok s1) eqn:Q.
  - assert (Cl : closed s = false) by (symmetry in Ok1; unfold isok in Ok1; destruct (closed s); [discriminate|reflexivity]). intros R. injection R as <- <-. destruct H as [S _]. split; [|split; [intros _; exact HU|auto]]. unfold J, s1. cbn. rewrite scan_app, S, Cl. split; [reflexivity|discriminate].
  - assert (Cl : closed s = true). { unfold isok in Ok1. unfold U in HU. destruct (closed s); [reflexivity|]. apply HU. cbn in Ok1. intros Z. rewrite Z in Ok1. discriminate. }
    destruct H as [S Cb]. assert (S1 : scan start (tr s1) = Some (false, None, option_map fst c)) by (unfold s1; cbn; rewrite scan_app, S, Cl; reflexivity). destruct c as [[i l]|].
    + intros E. destruct (C (DoCall (i, l)) (set_closecb None s1) s' b) as [K3 _]; [split; [exact S1|split; [exact Cl|reflexivity]]|exact E|]. exact K3.
    + intros R. injection R as <- <-. split; [|split; [intros _; exact HU|auto]]. split; [change (closed (set_closecb None s1)) with (closed s); rewrite Cl; exact S1|reflexivity].
Qed.
Lemma acts_K l : forall s s' b, J s -> U s -> acts call l s = Ok (s', b) -> K s s'.
Proof.
  induction l as [|a l IH]; intros s s' b H HU; cbn [acts]; [intros R; injection R as <- <-; apply K_refl, H|].
  destruct (call (DoAct a) s) as [[s1 b1]| |] eqn:E; try discriminate. cbn [bind]. intros R. destruct (C (DoAct a) s s1 b1) as [K1 _]; [split; assumption|exact E|]. apply (K_trans _ _ _ K1). apply (IH _ _ b); [apply K1|apply K1, HU|exact R].
Qed.
Lemma body_meets2 : meets2 (body call).
Proof.
  intros c s s' b P. destruct c as [|m|m|rd|e| |a|[i l]]; cbn [body pre] in *; intros E.
  - destruct (close_K _ _ _ P E) as (K1 & _ & Cl). split; auto.
  - split; [apply (flush_K _ _ _ _ P E)|discriminate].
  - split; [apply (flush_outbuf_K _ _ _ _ P E)|discriminate].
  - split; [apply (select_K _ _ _ _ P E)|discriminate].
  - split; [|discriminate]. unfold seterr in E. destruct (err s =? 0); [|injection E as <- <-; apply K_refl, P].
    destruct (C DoClose (set_err e s) s' b P E) as [K1 Cl]. specialize (Cl eq_refl). split; [apply K1|]. split; [intros _ _; exact Cl|auto].
  - split; [|discriminate]. unfold maybe_autoclose in E. destruct (_ && negb (closed s)); [|injection E as <- <-; apply K_refl, P]. apply (C1 _ _ _ _ P E I).
  - split; [|discriminate]. destruct P as [H HU]. destruct a; cbn [do_act] in E.
    + apply (write_K _ _ _ _ H E).
    + apply (C1 _ _ _ _ H E I).
    + apply (C1 _ _ _ _ H E I).
    + apply (C1 _ _ _ _ H E I).
    + exact (reg_K _ _ _ _ H HU E).
    + assert (K0 : K s (set_stop_r true s)) by (apply K_same; auto). apply (K_trans _ _ _ K0). apply (C1 _ (set_stop_r true s) _ _ H E I).
    + assert (K0 : K s (set_stop_w true s)) by (apply K_same; auto). apply (K_trans _ _ _ K0). apply (C1 _ (set_stop_w true s) _ _ H E I).
    + assert (K0 : K s (set_autoclose true s)) by (apply K_same; auto). apply (K_trans _ _ _ K0). apply (C1 _ (set_autoclose true s) _ _ H E I).
    + injection E as <- <-. eapply K_trans; [apply (K_emit s (LimitEv n (length (out s)))); [reflexivity|exact H]|]. apply K_same; auto. apply J_emit; auto.
    + injection E as <- <-. apply K_same; auto.
    + injection E as <- <-. apply K_same; auto.
  - split; [|discriminate]. destruct P as (S & Cl & Cb). set (s1 := emit (Called i) s) in *. assert (J1 : J s1) by (unfold J, s1; cbn; rewrite scan_app, S, Cl, Cb; unfold scan; cbn [fold_left scan1]; rewrite Nat.eqb_refl; split; reflexivity).
    destruct (acts_K l s1 s' b J1) as (Jn & Un & Cn); [intros _; exact Cl|exact E|]. split; [exact Jn|]. split; [exact Un|]. exact Cn.
Qed.
End Body.
Lemma exec_meets2 n : meets2 (exec n).
Proof. induction n as [|n IH]; [intros c s s' b _ E; discriminate|]. apply (body_meets2 (exec n) IH). Qed.

(** What a call does to the input: nothing. *)
Definition about_input (e : event) : bool := match e with Got _ | ReadEv _ | Line _ _ => true | _ => false end.
Inductive moves : st -> st -> Prop :=
| m_refl s : moves s s
| m_trans a b c : moves a b -> moves b c -> moves a c
| m_env x s : moves s (set_env x s)
| m_emit e s : about_input e = false -> match e with Sent _ => closed s = false | Closed => closed s = true | _ => True end -> moves s (emit e s)
| m_out x s : moves s (set_out x s)
| m_err x s : err s = 0 -> moves s (set_err x s)
| m_closed s : moves s (set_closed true s)
| m_flushing x s : moves s (set_flushing x s)
| m_want x s : moves s (set_want x s)
| m_autoclose x s : moves s (set_autoclose x s)
| m_closecb x s : moves s (set_closecb x s)
| m_stop_r s : moves s (set_stop_r true s)
| m_stop_w s : moves s (set_stop_w true s)
| m_limit x s : moves s (set_limit x s)
| m_delayed x s : moves s (set_delayed x s)
| m_auto_fl x s : moves s (set_auto_fl x s).
Lemma ask_closed s s' a : ask s = Ok (s', a) -> closed s' = closed s.
Proof. unfold ask. destruct (env s); [discriminate|]. intros Q. injection Q as <- _. reflexivity. Qed.
Lemma ask_moves s s' a : ask s = Ok (s', a) -> moves s s'.
Proof. unfold ask. destruct (env s); [discriminate|]. intros Q. injection Q as <- _. apply m_env. Qed.
Ltac mt := repeat match goal with
  | |- moves ?a ?a => apply m_refl
  | H : moves ?x ?b |- moves _ ?b => eapply m_trans; [|exact H]
  | |- moves _ (emit _ _) => eapply m_trans; [|apply m_emit; [reflexivity|first [exact I|assumption|reflexivity]]]
  | |- moves _ (set_env _ _) => eapply m_trans; [|apply m_env]
  | |- moves _ (set_out _ _) => eapply m_trans; [|apply m_out]
  | |- moves _ (set_err _ _) => eapply m_trans; [|apply m_err; assumption]
  | |- moves _ (set_closed _ _) => eapply m_trans; [|apply m_closed]
  | |- moves _ (set_flushing _ _) => eapply m_trans; [|apply m_flushing]
  | |- moves _ (set_want _ _) => eapply m_trans; [|apply m_want]
  | |- moves _ (set_autoclose _ _) => eapply m_trans; [|apply m_autoclose]
  | |- moves _ (set_closecb _ _) => eapply m_trans; [|apply m_closecb]
  | |- moves _ (set_stop_r _ _) => eapply m_trans; [|apply m_stop_r]
  | |- moves _ (set_stop_w _ _) => eapply m_trans; [|apply m_stop_w]
  | |- moves _ (set_limit _ _) => eapply m_trans; [|apply m_limit]
  | |- moves _ (set_delayed _ _) => eapply m_trans; [|apply m_delayed]
  | |- moves _ (set_auto_fl _ _) => eapply m_trans; [|apply m_auto_fl]
  end.
Section Moves.
Variable call : cmd -> st -> res (st * bool).
Hypothesis C : forall c s s' b, call c s = Ok (s', b) -> moves s s'.
Ltac one := match goal with
  | |- context [bind ?m _] => let E := fresh "E" in destruct m as [[? ?]| |] eqn:E; try discriminate; cbn [bind]; first [apply C in E|apply ask_moves in E|idtac]
  end.
Lemma uwrite_moves blk s s' n : uwrite call blk s = Ok (s', n) -> moves s s'.
Proof.
  unfold uwrite. destruct (negb (isok s)) eqn:K; [intros R; injection R as <- <-; mt|]. destruct (ask s) as [[s0 a]| |] eqn:E; try discriminate. cbn [bind]. assert (Cl : closed s0 = false) by (rewrite (ask_closed _ _ _ E); unfold isok in K; destruct (closed s); [discriminate|reflexivity]). apply ask_moves in E. destruct (wfail _); [one|]; intros R; injection R as <- <-; mt.
Qed.
Lemma loop_moves fuel : forall msec s used s' u, flush_loop call fuel msec s used = Ok (s', u) -> moves s s'.
Proof.
  induction fuel as [|fuel IH]; intros msec s used s' u; cbn [flush_loop]; [discriminate|]. destruct (negb _); [intros R; injection R as <- <-; mt|]. one. one. apply uwrite_moves in E0.
  match goal with |- context [if ?c then set_out ?o s1 else s1] => set (s3 := if c then set_out o s1 else s1) end. assert (M : moves s s3) by (unfold s3; destruct (_ && _); mt). clearbody s3. destruct (msec =? 0); [intros R; injection R as <- <-; exact M|]. destruct (0 <=? msec); [|intros R; apply IH in R; mt]. one. destruct (late _); [intros R; injection R as <- <-; mt|]. one. destruct (negb _); intros R; [injection R as <- <-; mt|]. apply IH in R. mt.
Qed.
Lemma body_moves c s s' b : body call c s = Ok (s', b) -> moves s s'.
Proof.
  destruct c as [|m|m|rd|e| |a|[i l]]; cbn [body].
  - unfold close. one. destruct (closecb _); [intros R; apply C in R|intros R; injection R as <- <-]; mt.
  - unfold flush. destruct (flushing s); [intros R; injection R as <- <-; mt|]. one. intros R. injection R as <- <-. mt.
  - unfold flush_outbuf. destruct (_ && negb (delayed s)); [one; intros R; injection R as <- <-; exact E|]. one. apply loop_moves in E.
    match goal with |- context [bind ?m _] => destruct m as [s2| |] eqn:E2; try discriminate end. cbn [bind].
    assert (M : moves s s2). { destruct (_ && isok _); [|injection E2 as <-; exact E]. revert E2. one. destruct (_ || _); [one|]; intros R; injection R as <-; mt. }
    cbv zeta. one. intros R. injection R as <- <-. eapply m_trans; [|exact E0]. destruct (delayed s2 && _); match goal with |- context [if ?c then _ else _] => destruct c end; mt.
  - unfold select. one. one. destruct (sfail _); [one; intros R; injection R as <- <-; mt|].
    match goal with |- context [bind ?m _] => destruct m as [s4| |] eqn:E2; try discriminate end. cbn [bind].
    assert (M : moves s s4). { destruct (want _); [|injection E2 as <-; mt]. revert E2. one. intros R; injection R as <-; mt. }
    destruct (isok s4 && _ && _ && _); [one; destruct (negb _)|]; intros R; injection R as <- <-; mt.
  - unfold seterr. destruct (err s =? 0) eqn:Z; [|intros R; injection R as <- <-; mt]. intros R. apply C in R. apply Z.eqb_eq in Z. mt.
  - unfold maybe_autoclose. destruct (_ && negb _); [apply C|intros R; injection R as <- <-; mt].
  - destruct a; cbn [do_act].
    + unfold write. destruct (_ || _); [intros R; injection R as <- <-; mt|]. match goal with |- context [bind ?m _] => destruct m as [[s1 wr]| |] eqn:E; try discriminate end. cbn [bind]. assert (M : moves s s1) by (destruct (_ && _); [exact (uwrite_moves _ _ _ _ E)|injection E as <- <-; mt]). cbv zeta. set (s2 := emit _ _). assert (M2 : moves s s2) by (unfold s2; eapply m_trans; [exact M|]; eapply m_trans; [apply m_out|apply m_emit; [reflexivity|exact I]]). clearbody s2. destruct (want s2); [destruct (auto_fl s2); intros R; apply C in R; mt|intros R; injection R as <- <-; exact M2].
    + apply C.
    + apply C.
    + apply C.
    + unfold setclosecallback. set (s1 := emit _ s). assert (M : moves s s1) by (apply m_emit; [reflexivity|exact I]). clearbody s1. destruct (isok s1); [intros R; injection R as <- <-; mt|]. destruct c; intros R; [apply C in R|injection R as <- <-]; mt.
    + intros R. apply C in R. mt.
    + intros R. apply C in R. mt.
    + intros R. apply C in R. mt.
    + intros R. injection R as <- <-. eapply m_trans; [|apply m_limit]. apply m_emit; [reflexivity|exact I].
    + intros R. injection R as <- <-. mt.
    + intros R. injection R as <- <-. mt.
  - assert (A : forall l s s' b, acts call l s = Ok (s', b) -> moves s s'). { clear - C. induction l as [|a l IH]; intros s s' b; cbn [acts]; [intros R; injection R as <- <-; mt|]. one. intros R. apply IH in R. mt. }
    intros R. apply A in R. eapply m_trans; [|exact R]. apply m_emit; [reflexivity|exact I].
Qed.
End Moves.
Lemma exec_moves n : forall c s s' b, exec n c s = Ok (s', b) -> moves s s'.
Proof. induction n as [|n IH]; intros c s s' b; [discriminate|]. apply (body_moves (exec n) IH). Qed.
