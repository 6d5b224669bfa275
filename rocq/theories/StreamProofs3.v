(** Whole histories of a stream. *)
From Verif Require Import Base BaseFacts StreamModel StreamSpec StreamProofs StreamProofs2.
Local Open Scope Z_scope.

(** * Input *)
Lemma got_snoc t e : got (t ++ [e]) = got t ++ match e with Got b => b | _ => [] end.
Proof. unfold got. rewrite flat_map_app. cbn. rewrite app_nil_r. reflexivity. Qed.
Lemma delivered_snoc t e : delivered (t ++ [e]) = delivered t ++ match e with ReadEv b => b | Line l (Some c) => l ++ [c] | Line l None => l | _ => [] end.
Proof. unfold delivered. rewrite flat_map_app. cbn. rewrite app_nil_r. reflexivity. Qed.
Lemma moves_input s s' : moves s s' ->
  inb s' = inb s /\ qmin s' = qmin s /\ got (tr s') = got (tr s) /\ delivered (tr s') = delivered (tr s) /\
  (isok s' = true -> isok s = true) /\ (stop_r s = true -> stop_r s' = true) /\
  (exists t, tr s' = tr s ++ t /\ Forall (fun e => about_input e = false) t).
Proof.
  assert (T0 : forall (x : list event), exists t, x = x ++ t /\ Forall (fun e => about_input e = false) t) by (intros x; exists []; rewrite app_nil_r; auto).
  induction 1 as [s|a b c _ (I1 & Q1 & G1 & D1 & K1 & R1 & t1 & T1 & F1) _ (I2 & Q2 & G2 & D2 & K2 & R2 & t2 & T2 & F2)| |e s A _| | | | | | | | | | | |]; cbn [inb qmin tr stop_r set_env set_out set_err set_closed set_flushing set_want set_autoclose set_closecb set_stop_r set_stop_w set_limit set_delayed set_auto_fl]; unfold isok; cbn [err closed set_env set_out set_err set_closed set_flushing set_want set_autoclose set_closecb set_stop_r set_stop_w set_limit set_delayed set_auto_fl]; auto 10.
  - split; [congruence|]. split; [congruence|]. split; [congruence|]. split; [congruence|]. split; [auto|]. split; [auto|]. exists (t1 ++ t2). rewrite T2, T1, app_assoc. split; [reflexivity|]. apply Forall_app. auto.
  - cbn [inb qmin tr stop_r emit set_tr err closed]. rewrite got_snoc, delivered_snoc. split; [reflexivity|]. split; [reflexivity|]. split; [destruct e; try discriminate; apply app_nil_r|]. split; [destruct e; try discriminate; apply app_nil_r|]. split; [auto|]. split; [auto|]. exists [e]. auto.
  - rewrite H. split; [reflexivity|]. split; [reflexivity|]. split; [reflexivity|]. split; [reflexivity|]. split; [|split; [auto|apply T0]]. intros K. apply andb_true_iff in K. rewrite (proj1 K). reflexivity.
  - split; [reflexivity|]. split; [reflexivity|]. split; [reflexivity|]. split; [reflexivity|]. split; [discriminate|]. split; [auto|apply T0].
Qed.
Definition pending (s : st) : Prop := got (tr s) = delivered (tr s) ++ inb s.
Lemma uread_in n k s s' d : uread (exec n) k s = Ok (s', d) ->
  inb s' = inb s /\ qmin s' = qmin s /\ got (tr s') = got (tr s) ++ d /\ delivered (tr s') = delivered (tr s) /\ (isok s' = true -> isok s = true) /\ (stop_r s = true -> stop_r s' = true).
Proof.
  unfold uread. destruct (negb (isok s)) eqn:K0; [intros R; injection R as <- <-; rewrite app_nil_r; auto 10|]. apply negb_false_iff in K0.
  destruct (ask s) as [[s1 a]| |] eqn:Q; try discriminate. cbn [bind]. destruct (moves_input _ _ (ask_moves _ _ _ Q)) as (I1 & Q1 & G1 & D1 & K1 & R1 & _).
  destruct (rfail a) as [e|].
  - destruct (exec n (DoErr e) _) as [[s2 b2]| |] eqn:E; try discriminate. cbn [bind]. intros R. injection R as <- <-. destruct (moves_input _ _ (exec_moves _ _ _ _ _ E)) as (I2 & Q2 & G2 & D2 & K2 & R2 & _). cbn [inb qmin tr stop_r emit set_tr] in *. rewrite got_snoc in G2. rewrite delivered_snoc, app_nil_r in D2. repeat split; try congruence. intros X. apply R2. auto.
  - intros R. injection R as <- <-. cbn [inb qmin tr stop_r emit set_tr]. rewrite got_snoc, delivered_snoc, app_nil_r. repeat split; try congruence. auto.
Qed.
Lemma read_in n k s s' : pending s -> read n k s = Ok s' -> pending s'.
Proof.
  intros P. unfold read. match goal with |- context [bind ?m ?k] => destruct m as [s1| |] eqn:W; try discriminate end. cbn [bind].
  assert (P1 : pending s1). { destruct (length (inb s) <? qmin s)%nat; [|injection W as <-; exact P]. cbv zeta in W. destruct (uread _ _ _) as [[s2 d]| |] eqn:U; try discriminate. cbn [bind] in W. injection W as <-. destruct (uread_in _ _ _ _ _ U) as (_ & _ & G2 & D2 & _). unfold pending in *. cbn [tr inb set_inb] in *. rewrite G2, D2, P, app_assoc. reflexivity. }
  destruct (length (inb s1) <? qmin s1)%nat; [|destruct (is_nil (inb s1)) eqn:N].
  - destruct (exec n DoAuto s1) as [[s2 b2]| |] eqn:E; try discriminate. cbn [bind]. intros R. injection R as <-. destruct (moves_input _ _ (exec_moves _ _ _ _ _ E)) as (I2 & _ & G2 & D2 & _). unfold pending in *. cbn [tr inb emit set_tr]. rewrite got_snoc, delivered_snoc, !app_nil_r. congruence.
  - destruct (uread _ _ s1) as [[s2 d]| |] eqn:U; try discriminate. cbn [bind]. destruct (uread_in _ _ _ _ _ U) as (I2 & _ & G2 & D2 & _). destruct (exec n DoAuto _) as [[s3 b3]| |] eqn:E; try discriminate. cbn [bind]. intros R. injection R as <-. destruct (moves_input _ _ (exec_moves _ _ _ _ _ E)) as (I3 & _ & G3 & D3 & _). unfold pending in *. cbn [tr inb emit set_tr] in *. rewrite got_snoc, app_nil_r in G3. rewrite delivered_snoc in D3. apply is_nil_iff in N. rewrite G3, G2, D3, D2, I3, I2, P1, N, !app_nil_r. reflexivity.
  - destruct (exec n DoAuto _) as [[s3 b3]| |] eqn:E; try discriminate. cbn [bind]. intros R. injection R as <-. destruct (moves_input _ _ (exec_moves _ _ _ _ _ E)) as (I3 & _ & G3 & D3 & _). unfold pending in *. cbn [tr inb emit set_tr set_inb] in *. rewrite got_snoc, app_nil_r in G3. rewrite delivered_snoc in D3. rewrite G3, D3, I3, <- app_assoc, firstn_skipn. exact P1.
Qed.
(** The loop of getline; when it stops with a line to take, there is a separator, or
    the stream is closed for reading. *)
Definition loop_end (sep : byte) (s : st) : Prop := isok s = false \/ (0 < strchr (inb s) sep)%nat \/ stop_r s = true.
Lemma getline_loop_in n fuel : forall w c a s s' b, pending s -> getline_loop n fuel w c a s = Ok (s', b) ->
  pending s' /\ delivered (tr s') = delivered (tr s) /\ (b = true -> loop_end c s').
Proof.
  induction fuel as [|fuel IH]; intros w c a s s' b P; cbn [getline_loop]; [discriminate|]. destruct (negb (isok s)) eqn:K0; [intros R; injection R as <- <-; split; [exact P|]; split; [reflexivity|]; intros _; left; apply negb_true_iff, K0|].
  destruct (0 <? strchr (inb (set_qmin 0 s)) c)%nat eqn:Sc; [intros R; injection R as <- <-; split; [exact P|]; split; [reflexivity|]; intros _; right; left; apply Nat.ltb_lt, Sc|].
  destruct (stop_r (set_qmin 0 s)) eqn:St; [intros R; injection R as <- <-; split; [exact P|]; split; [reflexivity|]; intros _; right; right; exact St|].
  set (s1 := set_qmin _ (set_qmin 0 s)). assert (P1 : pending s1) by exact P. assert (D1 : delivered (tr s1) = delivered (tr s)) by reflexivity. clearbody s1.
  match goal with |- context [bind ?m ?k] => destruct m as [[s2 w']| |] eqn:W; try discriminate end. cbn [bind].
  assert (P2 : pending s2 /\ delivered (tr s2) = delivered (tr s)). { destruct (0 <? w); [|injection W as <- <-; auto]. destruct (ask s1) as [[s3 x]| |] eqn:Q; try discriminate. cbn [bind] in W. injection W as <- <-. destruct (moves_input _ _ (ask_moves _ _ _ Q)) as (I2 & _ & G2 & D2 & _). unfold pending in *. split; congruence. }
  destruct P2 as [P2 D2]. destruct (exec n (DoSelect true) s2) as [[s3 has]| |] eqn:E; try discriminate. cbn [bind]. destruct (moves_input _ _ (exec_moves _ _ _ _ _ E)) as (I3 & _ & G3 & D3 & _). assert (P3 : pending s3) by (unfold pending in *; congruence). rewrite D2 in D3.
  destruct (negb (isok s3)) eqn:K3; [intros R; injection R as <- <-; split; [exact P3|]; split; [exact D3|]; intros _; left; apply negb_true_iff, K3|].
  match goal with |- context [bind ?m ?k] => destruct m as [[s4 h4]| |] eqn:Hs; try discriminate end. cbn [bind].
  assert (P4 : pending s4 /\ delivered (tr s4) = delivered (tr s)). { destruct has; [|injection Hs as <- <-; auto]. destruct (uread _ _ s3) as [[s5 d]| |] eqn:U; try discriminate. cbn [bind] in Hs. injection Hs as <- <-. destruct (uread_in _ _ _ _ _ U) as (I5 & _ & G5 & D5 & _). unfold pending in *. cbn [tr inb set_inb]. rewrite G5, D5, I5, P3, app_assoc. split; [reflexivity|exact D3]. }
  destruct P4 as [P4 D4]. destruct (negb (isok s4)) eqn:K4; [intros R; injection R as <- <-; split; [exact P4|]; split; [exact D4|]; intros _; left; apply negb_true_iff, K4|].
  destruct (negb h4 && (w' =? 0)); [intros R; injection R as <- <-; split; [exact P4|]; split; [exact D4|]; discriminate|]. intros R. destruct (IH _ _ _ _ _ _ P4 R) as (P5 & D5 & L5). split; [exact P5|]. split; [congruence|exact L5].
Qed.
Lemma strchr_spec l c : match strchr l c with O => ~ In c l | S i => ~ In c (firstn i l) /\ l = firstn i l ++ c :: skipn (S i) l end.
Proof.
  induction l as [|x l IH]; cbn [strchr]; [intros []|]. destruct (Ascii.eqb x c) eqn:E.
  - apply Ascii.eqb_eq in E. subst. split; [intros []|reflexivity].
  - apply Ascii.eqb_neq in E. destruct (strchr l c) as [|i].
    + intros [|]; auto.
    + destruct IH as [N IH]. cbn [firstn skipn]. split; [intros [|]; auto|]. cbn [app]. f_equal. exact IH.
Qed.
Lemma getline_in n w c a s s' : pending s -> getline n w c a s = Ok s' -> pending s' /\
  (delivered (tr s') = delivered (tr s) \/
   exists t l, tr s' = t ++ [Line l (Some c)] /\ ~ In c l /\ delivered (tr s') = delivered (tr s) ++ l ++ [c] \/
               tr s' = t ++ [Line l None] /\ ~ In c l /\ l <> [] /\ delivered (tr s') = delivered (tr s) ++ l /\ inb s' = [] /\ (isok s' = false \/ stop_r s' = true)).
Proof.
  intros P. unfold getline. destruct (exec n DoAuto s) as [[s1 b1]| |] eqn:E; try discriminate. cbn [bind]. destruct (moves_input _ _ (exec_moves _ _ _ _ _ E)) as (I1 & _ & G1 & D1 & _). assert (P1 : pending s1) by (unfold pending in *; congruence).
  destruct (getline_loop _ _ _ _ _ s1) as [[s2 b2]| |] eqn:L; try discriminate. cbn [bind]. destruct (getline_loop_in _ _ _ _ _ _ _ _ P1 L) as (P2 & D2 & L2). rewrite D1 in D2.
  destruct b2; cbn [negb orb]; [|intros R; injection R as <-; auto]. destruct (is_nil (inb s2)) eqn:N; [intros R; injection R as <-; auto|].
  pose proof (strchr_spec (inb s2) c) as Sp. destruct (strchr (inb s2) c) as [|i] eqn:Sc.
  - intros R. injection R as <-. unfold pending in *. cbn [tr inb emit set_tr set_inb]. rewrite got_snoc, delivered_snoc, !app_nil_r. split; [exact P2|]. right. exists (tr s2), (inb s2). right. split; [reflexivity|]. split; [exact Sp|]. split; [intros Z; rewrite Z in N; discriminate|]. split; [congruence|]. split; [reflexivity|]. destruct (L2 eq_refl) as [K|[K|K]]; [left; exact K|lia|right; exact K].
  - destruct Sp as [Ni Sp]. intros R. injection R as <-. unfold pending in *. cbn [tr inb emit set_tr set_inb]. rewrite got_snoc, delivered_snoc, app_nil_r. split; [rewrite P2; rewrite Sp at 1; rewrite <- !app_assoc; reflexivity|]. right. exists (tr s2), (firstn i (inb s2)). left. split; [reflexivity|]. split; [exact Ni|]. congruence.
Qed.
Lemma step_in n o s s' : pending s -> step n o s = Ok s' -> pending s'.
Proof.
  intros P. destruct o; cbn [step].
  - destruct (exec n (DoAct a) s) as [[s1 b1]| |] eqn:E; try discriminate. cbn [bind]. intros R. injection R as <-. destruct (moves_input _ _ (exec_moves _ _ _ _ _ E)) as (I1 & _ & G1 & D1 & _). unfold pending in *. congruence.
  - apply read_in, P.
  - intros E. apply (getline_in _ _ _ _ _ _ P E).
  - intros R. injection R as <-. exact P.
Qed.
Lemma run_in n l : forall s s', pending s -> run n l s = Ok s' -> pending s'.
Proof.
  induction l as [|o l IH]; intros s s' P; cbn [run]; [intros R; injection R as <-; exact P|]. destruct (step n o s) as [s1| |] eqn:E; try discriminate. cbn [bind]. apply IH, (step_in _ _ _ _ P E).
Qed.

(** * Close callbacks *)
Lemma exec_KJ n c s s' b : J s -> exec n c s = Ok (s', b) -> match c with DoCall _ | DoAct _ => False | _ => True end -> K s s' /\ J s'.
Proof. intros H E N. destruct (exec_meets2 n c s s' b) as [HK _]; [destruct c; try contradiction; exact H|exact E|]. split; [exact HK|apply HK]. Qed.
Lemma set_inb_K x s : J s -> K s (set_inb x s). Proof. intros. apply K_same; auto. Qed.
Lemma read_K n k s s' : J s -> read n k s = Ok s' -> K s s'.
Proof.
  intros H. unfold read. match goal with |- context [bind ?m ?k] => destruct m as [s1| |] eqn:W; try discriminate end. cbn [bind].
  assert (K1 : K s s1 /\ J s1). { destruct (length (inb s) <? qmin s)%nat; [|injection W as <-; split; [apply K_refl|]; exact H]. cbv zeta in W. destruct (uread _ _ _) as [[s2 d]| |] eqn:U; try discriminate. cbn [bind] in W. injection W as <-. match type of U with uread _ _ ?x = _ => destruct (uread_K (exec n) (exec_meets2 n) _ x s2 d H U) as [K2 J2] end. split; [|exact J2]. eapply K_trans; [apply set_inb_K, H|]. eapply K_trans; [exact K2|apply set_inb_K, J2]. }
  destruct K1 as [K1 J1]. destruct (length (inb s1) <? qmin s1)%nat; [|destruct (is_nil (inb s1))].
  - destruct (exec n DoAuto s1) as [[s2 b2]| |] eqn:E; try discriminate. cbn [bind]. intros R. injection R as <-. destruct (exec_KJ _ _ _ _ _ J1 E I) as [K2 J2]. eapply K_trans; [exact K1|]. eapply K_trans; [exact K2|]. apply K_emit; auto.
  - destruct (uread _ _ s1) as [[s2 d]| |] eqn:U; try discriminate. cbn [bind]. destruct (uread_K (exec n) (exec_meets2 n) _ s1 s2 d J1 U) as [K2 J2]. assert (J2' : J (emit (ReadEv d) s2)) by (apply J_emit; auto). destruct (exec n DoAuto (emit (ReadEv d) s2)) as [[s3 b3]| |] eqn:E; try discriminate. cbn [bind]. intros R. injection R as <-. destruct (exec_KJ _ _ _ _ _ J2' E I) as [K3 J3]. eapply K_trans; [exact K1|]. eapply K_trans; [exact K2|]. eapply K_trans; [|exact K3]. apply K_emit; auto.
  - set (s2 := set_inb _ s1). assert (K2 : K s1 s2) by (apply set_inb_K, J1). assert (J2 : J s2) by exact J1. set (s2' := emit _ s2). assert (K2' : K s2 s2') by (apply K_emit; auto). assert (J2' : J s2') by (apply J_emit; auto). destruct (exec n DoAuto s2') as [[s3 b3]| |] eqn:E; try discriminate. cbn [bind]. intros R. injection R as <-. destruct (exec_KJ _ _ _ _ _ J2' E I) as [K3 J3]. eauto using K_trans.
Qed.
Lemma getline_loop_K n fuel : forall w c a s s' b, J s -> getline_loop n fuel w c a s = Ok (s', b) -> K s s' /\ J s'.
Proof.
  induction fuel as [|fuel IH]; intros w c a s s' b H; cbn [getline_loop]; [discriminate|]. destruct (negb (isok s)); [intros R; injection R as <- <-; split; [apply K_refl|]; exact H|].
  assert (Q0 : forall x, K s (set_qmin x s)) by (intros x; apply K_same; auto).
  destruct (0 <? strchr (inb (set_qmin 0 s)) c)%nat; [intros R; injection R as <- <-; split; [apply Q0|exact H]|].
  destruct (stop_r (set_qmin 0 s)); [intros R; injection R as <- <-; split; [apply Q0|exact H]|].
  set (s1 := set_qmin _ (set_qmin 0 s)). assert (K1 : K s s1) by (apply K_same; auto). assert (J1 : J s1) by exact H. clearbody s1.
  match goal with |- context [bind ?m ?k] => destruct m as [[s2 w']| |] eqn:W; try discriminate end. cbn [bind].
  assert (K2 : K s1 s2 /\ J s2). { destruct (0 <? w); [|injection W as <- <-; split; [apply K_refl|]; exact J1]. destruct (ask s1) as [[s3 x]| |] eqn:Q; try discriminate. cbn [bind] in W. injection W as <- <-. exact (ask_K _ _ _ Q J1). }
  destruct K2 as [K2 J2]. destruct (exec n (DoSelect true) s2) as [[s3 has]| |] eqn:E; try discriminate. cbn [bind]. destruct (exec_KJ _ _ _ _ _ J2 E I) as [K3 J3]. assert (K13 : K s s3) by eauto using K_trans.
  destruct (negb (isok s3)); [intros R; injection R as <- <-; auto|].
  match goal with |- context [bind ?m ?k] => destruct m as [[s4 h4]| |] eqn:Hs; try discriminate end. cbn [bind].
  assert (K4 : K s3 s4 /\ J s4). { destruct has; [|injection Hs as <- <-; split; [apply K_refl|]; exact J3]. destruct (uread _ _ s3) as [[s5 d]| |] eqn:U; try discriminate. cbn [bind] in Hs. injection Hs as <- <-. destruct (uread_K (exec n) (exec_meets2 n) _ s3 s5 d J3 U) as [K5 J5]. split; [|exact J5]. eapply K_trans; [exact K5|apply set_inb_K, J5]. }
  destruct K4 as [K4 J4]. assert (K14 : K s s4) by eauto using K_trans.
  destruct (negb (isok s4)); [intros R; injection R as <- <-; auto|]. destruct (negb h4 && (w' =? 0)); [intros R; injection R as <- <-; auto|]. intros R. destruct (IH _ _ _ _ _ _ J4 R) as [K5 J5]. split; [exact (K_trans _ _ _ K14 K5)|exact J5].
Qed.
Lemma getline_K n w c a s s' : J s -> getline n w c a s = Ok s' -> K s s'.
Proof.
  intros H. unfold getline. destruct (exec n DoAuto s) as [[s1 b1]| |] eqn:E; try discriminate. cbn [bind]. destruct (exec_KJ _ _ _ _ _ H E I) as [K1 J1].
  destruct (getline_loop _ _ _ _ _ s1) as [[s2 b2]| |] eqn:L; try discriminate. cbn [bind]. destruct (getline_loop_K _ _ _ _ _ _ _ _ J1 L) as [K2 J2]. assert (K12 : K s s2) by eauto using K_trans.
  destruct (negb b2 || is_nil (inb s2)); [intros R; injection R as <-; exact K12|]. destruct (strchr (inb s2) c); intros R; injection R as <-; (eapply K_trans; [exact K12|]); (eapply K_trans; [apply set_inb_K, J2|]); apply K_emit; auto.
Qed.
Lemma step_K n o s s' : J s -> U s -> step n o s = Ok s' -> K s s'.
Proof.
  intros H HU. destruct o; cbn [step].
  - destruct (exec n (DoAct a) s) as [[s1 b1]| |] eqn:E; try discriminate. cbn [bind]. intros R. injection R as <-. destruct (exec_meets2 n (DoAct a) s s1 b1) as [HK _]; [split; assumption|exact E|exact HK].
  - apply read_K, H.
  - apply getline_K, H.
  - intros R. injection R as <-. apply K_same; auto.
Qed.
Lemma run_K n l : forall s s', J s -> U s -> run n l s = Ok s' -> J s' /\ U s'.
Proof.
  induction l as [|o l IH]; intros s s' H HU; cbn [run]; [intros R; injection R as <-; auto|]. destruct (step n o s) as [s1| |] eqn:E; try discriminate. cbn [bind]. destruct (step_K _ _ _ _ H HU E) as (J1 & U1 & _). apply IH; auto.
Qed.
(** What obeying means for single callbacks. *)
Fixpoint count (p : event -> bool) (tr : list event) : nat := match tr with [] => 0 | e :: r => (if p e then 1 else 0) + count p r end.
Definition is_called (i : nat) (e : event) : bool := match e with Called j => (j =? i)%nat | _ => false end.
Definition is_reg (i : nat) (e : event) : bool := match e with Reg (Some j) => (j =? i)%nat | _ => false end.
Lemma obeys_count i m : forall tr o r, (length tr <= m)%nat -> obeys o r tr ->
  (count (is_called i) tr <= count (is_reg i) tr + match r with Some j => if (j =? i)%nat then 1 else 0 | None => 0 end)%nat.
Proof.
  induction m as [|m IH]; intros tr o r L H; destruct tr as [|e tr]; cbn in L; try lia; cbn [count]; try lia.
  assert (T : (length tr <= m)%nat) by lia. destruct e; cbn [obeys is_called is_reg] in *; try (specialize (IH _ _ _ T H); lia).
  - destruct o; [specialize (IH _ _ _ T H); destruct c as [j|]; cbn iota beta in *; [destruct (j =? i)%nat|]; lia|]. destruct c as [j|]; cbn iota beta in *; [|specialize (IH _ _ _ T H); cbn iota in *; lia]. destruct tr as [|e2 tr]; [contradiction|]. destruct e2; try contradiction. destruct H as [-> H]. cbn in L. assert (T2 : (length tr <= m)%nat) by lia. specialize (IH _ _ _ T2 H). cbn [count is_called is_reg]. cbn [Nat.add] in *; destruct (j =? i)%nat; destruct r as [r0|]; try destruct (r0 =? i)%nat; cbn iota in *; lia.
  - destruct r as [j|]; cbn iota beta in *; [|specialize (IH _ _ _ T H); cbn iota in *; lia]. destruct tr as [|e2 tr]; [contradiction|]. destruct e2; try contradiction. destruct H as [-> H]. cbn in L. assert (T2 : (length tr <= m)%nat) by lia. specialize (IH _ _ _ T2 H). cbn [count is_called is_reg]. destruct (j =? i)%nat; cbn iota in *; lia.
  - contradiction.
Qed.
