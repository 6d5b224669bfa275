(** The states of the file system. *)
From Verif Require Import Base BaseFacts StreamModel StreamSpec StreamProofs StreamProofs2 StreamProofs3 FileModel FileSpec FileProofs.
Local Open Scope Z_scope.

Lemma last_app_cons {A} (l : list A) x r d : last (l ++ x :: r) d = last (x :: r) d.
Proof. induction l as [|a l IH]; [reflexivity|]. cbn [app]. destruct l; [destruct r; reflexivity|]. exact IH. Qed.
Lemma last_states go tr d : forall h x, last (h ++ [d] ++ states go tr d) x = fold_left (fun d e => go e d) tr d.
Proof.
  revert d. induction tr as [|e tr IH]; intros d h x; cbn [states fold_left]; [rewrite app_nil_r; apply last_last|].
  specialize (IH (go e d) (h ++ [d]) x). rewrite <- !app_assoc in IH. exact IH.
Qed.
Lemma append_app a b f : append (a ++ b) f = append b (append a f). Proof. unfold append. cbn. rewrite app_assoc. reflexivity. Qed.
Lemma append_nil f : append [] f = f. Proof. destruct f. unfold append. cbn. rewrite app_nil_r. reflexivity. Qed.
Lemma temp_states tr : forall d, Forall (fun x => target x = target d) (states to_temp tr d).
Proof.
  induction tr as [|e tr IH]; intros d; cbn [states]; [constructor|]. assert (T : target (to_temp e d) = target d) by (destruct e; reflexivity). constructor; [exact T|]. specialize (IH (to_temp e d)). rewrite T in IH. exact IH.
Qed.
Lemma temp_last tr : forall d f, temp d = Some f -> let d' := fold_left (fun d e => to_temp e d) tr d in temp d' = Some (append (sent tr) f) /\ target d' = target d.
Proof.
  induction tr as [|e tr IH]; intros d f T; cbn [fold_left]; [cbn; rewrite append_nil; auto|].
  destruct e as [b| | | | | | | |]; try (exact (IH d f T)). cbn [to_temp]. change (sent (Sent b :: tr)) with (b ++ sent tr). rewrite append_app. apply (IH {| target := target d; temp := option_map (append b) (temp d) |} (append b f)). cbn. rewrite T. reflexivity.
Qed.
Lemma target_states tr : forall d f, target d = Some f -> Forall (fun x => exists b r, target x = Some (append b f) /\ sent tr = b ++ r) (states to_target tr d).
Proof.
  induction tr as [|e tr IH]; intros d f T; cbn [states]; [constructor|].
  assert (S : forall g, target (to_target e d) = Some (append g f) -> sent (e :: tr) = g ++ sent tr -> Forall (fun x => exists b r, target x = Some (append b f) /\ sent (e :: tr) = b ++ r) (to_target e d :: states to_target tr (to_target e d))).
  { intros g T' Sg. constructor; [exists g, (sent tr); auto|]. eapply Forall_impl; [|apply (IH _ _ T')]. intros x (b & r & Tx & Sx). exists (g ++ b), r. rewrite append_app, <- app_assoc, <- Sx. auto. }
  destruct e as [b| | | | | | | |]; try (apply (S []); [rewrite append_nil; exact T|reflexivity]). apply (S b); [cbn; rewrite T; reflexivity|reflexivity].
Qed.
Lemma target_last tr : forall d f, target d = Some f -> target (fold_left (fun d e => to_target e d) tr d) = Some (append (sent tr) f).
Proof.
  induction tr as [|e tr IH]; intros d f T; cbn [fold_left]; [rewrite append_nil; exact T|].
  destruct e as [b| | | | | | | |]; try (exact (IH d f T)). cbn [to_target]. change (sent (Sent b :: tr)) with (b ++ sent tr). rewrite append_app. apply (IH {| target := option_map (append b) (target d); temp := temp d |} (append b f)). cbn. rewrite T. reflexivity.
Qed.

(** The atomic file. *)
Definition unsent (e : event) : Prop := match e with Sent _ => False | _ => True end.
Lemma unsent_sent tr : Forall unsent tr -> sent tr = [].
Proof. induction 1 as [|e tr U _ IH]; [reflexivity|]. destruct e; try contradiction; exact IH. Qed.
Lemma over tr rn ul : forall d, Forall unsent tr -> temp d = None \/ rn = false -> Forall (fun x => target x = target d) (states (atomic_event rn ul) tr d).
Proof.
  induction tr as [|e tr IH]; intros d U N; cbn [states]; [constructor|]. pose proof (Forall_inv U) as Ue. apply Forall_inv_tail in U.
  assert (T : target (atomic_event rn ul e d) = target d /\ (temp (atomic_event rn ul e d) = None \/ rn = false)).
  { destruct e; try contradiction; try (cbn; auto; fail). cbn [atomic_event]. destruct N as [N| ->]; [rewrite N; auto|]. destruct (temp d) eqn:Q; cbn; auto. }
  destruct T as [T N']. constructor; [exact T|]. rewrite <- T. apply IH; assumption.
Qed.
Lemma atomic_states rn ul tr : forall d f, temp d = Some f -> silent tr ->
  Forall (fun x => target x = target d \/ rn = true /\ target x = Some (append (sent tr) f)) (states (atomic_event rn ul) tr d) /\
  (rn = true -> In Closed tr -> target (last (d :: states (atomic_event rn ul) tr d) d) = Some (append (sent tr) f)).
Proof.
  induction tr as [|e tr IH]; intros d f T S; [cbn; split; [constructor|intros _ []]|].
  assert (Easy : forall d' g, atomic_event rn ul e d = d' -> temp d' = Some (append g f) -> target d' = target d -> sent (e :: tr) = g ++ sent tr -> silent tr -> e <> Closed ->
    Forall (fun x => target x = target d \/ rn = true /\ target x = Some (append (sent (e :: tr)) f)) (states (atomic_event rn ul) (e :: tr) d) /\
    (rn = true -> In Closed (e :: tr) -> target (last (d :: states (atomic_event rn ul) (e :: tr) d) d) = Some (append (sent (e :: tr)) f))).
  { intros d' g Ev T' Tg Sg S' Nc. destruct (IH d' (append g f) T' S') as [A B]. rewrite Sg, append_app. cbn [states]. rewrite Ev. split.
    - constructor; [left; exact Tg|]. rewrite Tg in A. exact A.
    - intros Rn [Z|Z]; [contradiction|]. specialize (B Rn Z). rewrite <- B. pose proof (last_states (atomic_event rn ul) tr d' [] d') as X. cbn [app] in X. rewrite X. change (d :: d' :: states (atomic_event rn ul) tr d') with ([d] ++ [d'] ++ states (atomic_event rn ul) tr d'). rewrite last_states. reflexivity. }
  destruct e as [b| | | | | | | |]; try (apply (Easy d []); [reflexivity|rewrite append_nil; exact T|reflexivity|reflexivity|exact S|discriminate]).
  - apply (Easy {| target := target d; temp := option_map (append b) (temp d) |} b); [reflexivity|cbn; rewrite T; reflexivity|reflexivity|reflexivity|exact S|discriminate].
  - cbn [silent] in S. change (sent (Closed :: tr)) with (sent tr). rewrite (unsent_sent tr S), append_nil. cbn [states atomic_event]. rewrite T. destruct rn.
    + pose proof (over tr true ul (rename d) S (or_introl eq_refl)) as O. split.
      * constructor; [right; split; [reflexivity|exact T]|]. eapply Forall_impl; [|exact O]. intros x X. right. split; [reflexivity|]. rewrite X. exact T.
      * intros _ _. cbn [last]. destruct (states (atomic_event true ul) tr (rename d)) as [|y r] eqn:E; [exact T|]. assert (In (last (y :: r) d) (y :: r)) as Il by (clear; revert y; induction r as [|z r IH]; intros y; [left; reflexivity|right; apply IH]). pose proof (proj1 (Forall_forall _ _) O _ Il) as X. cbn [last] in X |- *. rewrite X. exact T.
    + pose proof (over tr false ul (unlink ul d) S (or_intror eq_refl)) as O. split; [|discriminate]. constructor; [left; reflexivity|]. eapply Forall_impl; [|exact O]. intros x X. left. rewrite X. reflexivity.
Qed.
(** A stream of one open file, written and closed. *)
Lemma written (P : answer -> Prop) (PN : forall a, P a -> named a) n blocks l s s' : Forall P l -> run n (writes blocks) (new 0 l) = Ok s -> step n (Do Close) s = Ok s' ->
  (exists t, tr s' = tr s ++ t) /\ accepted (tr s') = accepted (tr s) /\ (err s' = 0 -> err s = 0 /\ accepted (tr s) = concat blocks) /\ (quick P -> err s' = 0 -> sent (tr s') = concat blocks).
Proof.
  intros F R C. destruct (writes_plain P PN n blocks _ s (new_plain P _ F) R) as (Q & E & Fl & A). destruct (run_ok n _ (new 0 l) s (named_errors P PN l F) R) as [Gs Hs].
  assert (G0 : G (new 0 []) s). { destruct Gs as ((t & T & L) & X). split; [exists t; auto|exact X]. }
  destruct (close_plain P PN n s s' Q Hs G0 Fl C) as (E' & A' & Sn & G'). split; [|split; [exact A'|split]].
  - cbn [step] in C. destruct (exec n (DoAct Close) s) as [[s1 b1]| |] eqn:Ex; try discriminate. cbn [bind] in C. injection C as <-. destruct (moves_input _ _ (exec_moves _ _ _ _ _ Ex)) as (_ & _ & _ & _ & _ & _ & t & T & _). exists t. exact T.
  - intros Z. destruct (Z.eq_dec (err s) 0) as [Y|Y]; [|exfalso; exact (E' Y Z)]. split; [exact Y|]. rewrite (A Y). reflexivity.
  - intros Qk Z. rewrite (Sn Qk Z), A'. destruct (Z.eq_dec (err s) 0) as [Y|Y]; [|exfalso; exact (E' Y Z)]. rewrite (A Y). reflexivity.
Qed.
(** A device that takes writes whole leaves nothing to flush. *)
Lemma whole_write N n buf s s' : plain (whole N) s -> (length buf <= N)%nat -> (err s = 0 -> out s = []) -> step n (Do (Write buf)) s = Ok s' -> err s' = 0 -> out s' = [].
Proof.
  intros Q L O R Z. destruct (write_plain (whole N) (fun a H => proj1 H) _ _ _ _ Q R) as (_ & E & _ & _).
  destruct (Z.eq_dec (err s) 0) as [Y|Y]; [|exfalso; exact (E Y Z)]. specialize (O Y). revert R Z. cbn [step]. destruct n as [|n]; [discriminate|]. cbn [exec body do_act]. unfold write. rewrite (isok_err _ s Q), Y, (p_w _ s Q), O. cbn [Z.eqb negb orb is_nil]. rewrite (p_del _ s Q). cbn [negb andb].
  destruct (is_nil buf) eqn:Nb; cbn [orb]; [cbn [bind]; intros R _; injection R as <-; exact O|].
  destruct (uwrite (exec n) buf s) as [[s1 wr]| |] eqn:W; try discriminate. cbn [bind]. destruct (uwrite_plain _ (fun a H => proj1 H) _ (exec_meets3 _ (fun a H => proj1 H) n) _ _ _ _ Q W) as [K1 O1]. pose proof (proj1 K1) as Q1.
  assert (Full : err s1 = 0 -> wr = length buf). { revert W. unfold uwrite. rewrite (isok_err _ s Q), Y. cbn [Z.eqb negb]. destruct (ask s) as [[s2 a]| |] eqn:A; try discriminate. cbn [bind]. destruct (ask_plain _ _ _ _ A Q) as (Q2 & [[Nm _] Pa] & _). assert (Ln : Nat.min (take a) (length buf) = length buf) by lia. rewrite Ln. destruct (wfail a) as [e|] eqn:Wf; [destruct (exec n _ _) as [[s3 b3]| |]; try discriminate; cbn [bind]|]; intros R _; injection R as <- <-; reflexivity. }
  rewrite (p_lim _ s1 Q1). cbn [Z.eqb]. cbv zeta. rewrite firstn_all. set (s2 := emit _ _). assert (Q2 : plain (whole N) s2) by (destruct Q1; constructor; auto).
  assert (O2 : err s2 = 0 -> out s2 = []). { unfold s2. cbn [err out emit set_tr set_out]. intros Z. rewrite (O1 Z), (Full Z), skipn_all, O. reflexivity. }
  assert (Fin : forall c b s3, c = DoFlush 0 \/ c = DoFlushOut 0 -> exec n c s2 = Ok (s3, b) -> err s3 = 0 -> out s3 = []).
  { intros c b s3 Hc Ex Z. assert (Fc : fits c s2) by (destruct Hc as [->| ->]; exact I). destruct (exec_meets3 _ (fun a H => proj1 H) n c s2 s3 b Q2 Fc Ex) as [(_ & _ & E3 & _) D]. destruct (Z.eq_dec (err s2) 0) as [Y2|Y2]; [|exfalso; exact (E3 Y2 Z)]. specialize (O2 Y2). destruct Hc as [->| ->]; cbn [done] in D; destruct D as [_ D]; [apply D, O2|]. rewrite (D O2). exact O2. }
  destruct (want s2); [|cbn [bind]; intros R Z; injection R as <-; exact (O2 Z)]. destruct (auto_fl s2).
  - destruct (exec n (DoFlush 0) s2) as [[s3 b3]| |] eqn:Ex; try discriminate. cbn [bind]. intros R Z. injection R as <-. exact (Fin _ _ _ (or_introl eq_refl) Ex Z).
  - destruct (exec n (DoFlushOut 0) s2) as [[s3 b3]| |] eqn:Ex; try discriminate. cbn [bind]. intros R Z. injection R as <-. exact (Fin _ _ _ (or_intror eq_refl) Ex Z).
Qed.
Lemma whole_writes N n blocks : forall s s', plain (whole N) s -> (length (concat blocks) <= N)%nat -> (err s = 0 -> out s = []) -> run n (writes blocks) s = Ok s' -> err s' = 0 -> out s' = [].
Proof.
  induction blocks as [|b blocks IH]; intros s s' Q L O; [cbn; intros R; injection R as <-; exact O|]. change (writes (b :: blocks)) with (Do (Write b) :: writes blocks). cbn [run concat] in *. rewrite app_length in L.
  destruct (step n (Do (Write b)) s) as [s1| |] eqn:E; try discriminate. cbn [bind]. intros R. destruct (write_plain (whole N) (fun a H => proj1 H) _ _ _ _ Q E) as (Q1 & _). apply (IH s1 s' Q1); [lia| |exact R]. intros Z. eapply (whole_write N); [exact Q| |exact O|exact E|exact Z]. lia.
Qed.
