(** C36 Committing a configuration file and C37 atomic files. *)
From Verif Require Import Base BaseFacts StreamModel StreamSpec StreamProofs StreamProofs2 StreamProofs3 FileModel FileSpec FileProofs FileProofs2.
Local Open Scope Z_scope.

(** * C36 *)
(** Through the temporary file: in a world where no flush is given up, whatever
    fails and wherever the process dies, the file is the old one or the complete new
    one; it is the new one at the end if the commit says so, else the old one. *)
Theorem C36_atomic depth blocks c d ok h : Forall prompt (dev1 c) -> commit_atomic depth blocks c d = Ok (ok, h) ->
  Forall (fun x => old d x \/ complete blocks x) h /\ (ok = true -> complete blocks (last h d)) /\ (ok = false -> Forall (old d) h).
Proof.
  intros F. unfold commit_atomic, old. destruct (c_lstat c); cbn [negb]; [|intros R; injection R as <- <-; split; [|split; [discriminate|]]; repeat constructor; auto].
  destruct (match target d with Some f => negb (regular f) | None => false end); [intros R; injection R as <- <-; split; [|split; [discriminate|]]; repeat constructor; auto|].
  destruct (c_open_tmp c); cbn [negb]; [|intros R; injection R as <- <-; split; [|split; [discriminate|]]; repeat constructor; auto].
  set (d1 := {| target := target d; temp := Some (opened (temp d)) |}). destruct (run _ _ _) as [s| |] eqn:Rn; try discriminate. cbn [bind]. destruct (step _ _ s) as [s'| |] eqn:Cl; try discriminate. cbn [bind].
  destruct (written prompt (fun a H => proj1 H) depth blocks (dev1 c) s s' F Rn Cl) as (_ & _ & _ & Sn). specialize (Sn (fun a H => H)).
  set (h1 := [d; d1] ++ states to_temp (tr s') d1). assert (O1 : Forall (fun x => target x = target d) h1) by (unfold h1; repeat constructor; exact (temp_states (tr s') d1)).
  assert (L1 : last h1 d1 = fold_left (fun d e => to_temp e d) (tr s') d1) by (apply (last_states to_temp (tr s') d1 [d] d1)). destruct (temp_last (tr s') d1 _ eq_refl) as [Tm Tg]. rewrite <- L1 in Tm, Tg. clearbody h1.
  destruct (err s' =? 0) eqn:E; cbn [negb orb]; [destruct (c_rename c); cbn [negb]|]; intros R; injection R as <- <-.
  - assert (Cm : complete blocks (rename (last h1 d1))). { exists (append (sent (tr s')) (opened (temp d))). split; [exact Tm|]. cbn. rewrite Sn by (apply Z.eqb_eq, E). destruct (temp d); reflexivity. }
    split; [apply Forall_app; split; [eapply Forall_impl; [|exact O1]; auto|constructor; auto]|]. split; [intros _; rewrite last_last; exact Cm|discriminate].
  - assert (A : Forall (fun x => target x = target d) (h1 ++ [unlink (c_unlink c) (last h1 d1)])) by (apply Forall_app; split; [exact O1|constructor; [exact Tg|constructor]]). split; [eapply Forall_impl; [|exact A]; auto|]. split; [discriminate|auto].
  - assert (A : Forall (fun x => target x = target d) (h1 ++ [unlink (c_unlink c) (last h1 d1)])) by (apply Forall_app; split; [exact O1|constructor; [exact Tg|constructor]]). split; [eapply Forall_impl; [|exact A]; auto|]. split; [discriminate|auto].
Qed.
Theorem C36_commit depth blocks c d h : Forall prompt (dev1 c) -> commit_atomic depth blocks c d = Ok (true, h) ->
  commit depth blocks c d = Ok h /\ Forall (fun x => old d x \/ complete blocks x) h /\ complete blocks (last h d).
Proof. intros F E. destruct (C36_atomic _ _ _ _ _ _ F E) as (A & L & _). unfold commit. rewrite E. cbn [bind]. auto. Qed.
(** When that fails the file is written in place.  If the device takes writes whole
    or fails, and the mode can be changed, then at every moment the file is the old
    one, empty, marked as unfinished by its sticky bit, or complete. *)
Theorem C36_inplace depth blocks c d h : Forall (whole (length (concat blocks))) (dev2 c) -> c_chmod_on c = true ->
  commit_inplace depth blocks c d = Ok h ->
  Forall (fun x => old d x \/ exists f, target x = Some f /\ (content f = [] \/ sticky f = true \/ content f = concat blocks)) h.
Proof.
  intros F On. unfold commit_inplace, old. rewrite On. destruct (c_open c); cbn [negb]; [|intros R; injection R as <-; constructor; auto].
  set (f0 := opened (target d)). assert (C0 : content f0 = []) by (unfold f0; destruct (target d); reflexivity). set (d1 := {| target := Some f0; temp := temp d |}). assert (H1 : exists f, target d1 = Some f /\ (content f = [] \/ sticky f = true \/ content f = concat blocks)) by (exists f0; auto).
  destruct (c_fstat c); cbn [negb]; [|intros R; injection R as <-; constructor; [auto|constructor; [auto|constructor]]].
  set (d2 := stick true d1). set (f2 := {| regular := regular f0; sticky := true; content := [] |}). assert (T2 : target d2 = Some f2) by (unfold d2, stick, d1, f2; cbn; rewrite C0; reflexivity).
  destruct (run _ _ _) as [s| |] eqn:Rn; try discriminate. cbn [bind]. destruct (step _ _ s) as [s'| |] eqn:Cl; try discriminate. cbn [bind]. intros R. match type of R with Ok ?a = Ok ?b => assert (Eh : a = b) by (injection R; auto) end. rewrite <- Eh. clear R Eh h.
  assert (PN : forall a, whole (length (concat blocks)) a -> named a) by (intros a; exact (fun H => proj1 H)).
  destruct (written _ PN depth blocks (dev2 c) s s' F Rn Cl) as ((t & T) & A' & Ac & _). destruct (writes_plain _ PN depth blocks _ s (new_plain _ _ F) Rn) as (Q & Er & Fl & A).
  pose proof (whole_writes (length (concat blocks)) depth blocks _ s (new_plain _ _ F) (le_n _) (fun _ => eq_refl) Rn) as O. destruct (run_ok depth _ (new 0 (dev2 c)) s (named_errors _ PN _ F) Rn) as [Gs Hs].
  rewrite T, skipn_app, skipn_all, Nat.sub_diag. cbn [skipn]. change ([] ++ t) with t. set (h := [d; d1; d2] ++ states to_target (tr s) d2). assert (Lh : last h d2 = fold_left (fun d e => to_target e d) (tr s) d2) by (apply (last_states to_target (tr s) d2 [d; d1] d2)). pose proof (target_last (tr s) d2 f2 T2) as Tl. rewrite <- Lh in Tl.
  assert (Hh : Forall (fun x => target x = target d \/ exists f, target x = Some f /\ (content f = [] \/ sticky f = true \/ content f = concat blocks)) h).
  { unfold h. cbn [app]. constructor; [auto|]. constructor; [auto|]. constructor; [right; exists f2; auto|]. eapply Forall_impl; [|apply (target_states (tr s) d2 f2 T2)]. intros x (b & r & Tx & _). right. exists (append b f2). split; [exact Tx|]. right. left. reflexivity. }
  clearbody h. apply Forall_app. split; [exact Hh|].
  assert (Sent_t : err s = 0 -> sent (tr s) = concat blocks /\ sent t = []).
  { intros Z. assert (K : isok s = true) by (rewrite (isok_err _ s Q), Z; reflexivity). destruct Gs as (_ & w & dd & r & Aw & Sd & Ow & Kr & _). cbn in Aw, Sd, Ow. rewrite <- (Kr K), (O Z), app_nil_r in Ow. split; [rewrite Sd, <- Ow, <- Aw, (A Z); reflexivity|].
    cbn [step] in Cl. destruct (exec depth (DoAct Close) s) as [[s1 b1]| |] eqn:Ex; try discriminate. cbn [bind] in Cl. injection Cl as <-. destruct (exec_meets depth (DoAct Close) s s1 b1 Hs Ex) as [(_ & w' & d' & r' & Aw' & Sd' & Ow' & _ & _) _]. assert (w' = []) as ->. { rewrite <- A' in Aw' at 1. rewrite <- (app_nil_r (accepted (tr s1))) in Aw' at 1. rewrite A' in Aw'. apply app_inv_head in Aw'. auto. } rewrite (O Z) in Ow'. cbn in Ow'. symmetry in Ow'. apply app_eq_nil in Ow'. destruct Ow' as [-> _]. rewrite T in Sd'. unfold sent in Sd'. rewrite flat_map_app in Sd'. rewrite app_nil_r in Sd'. rewrite <- (app_nil_r (flat_map _ (tr s))) in Sd' at 2. apply app_inv_head in Sd'. exact Sd'. }
  destruct (err s =? 0) eqn:E; cbn [andb].
  - apply Z.eqb_eq in E. destruct (Sent_t E) as [Ss St]. destruct (c_chmod_off c).
    + set (d4 := stick false (last h d2)). assert (T4 : target d4 = Some {| regular := regular f0; sticky := false; content := concat blocks |}) by (unfold d4, stick; cbn [target]; rewrite Tl, Ss; reflexivity).
      constructor; [right; eexists; split; [exact T4|]; right; right; reflexivity|]. eapply Forall_impl; [|apply (target_states t d4 _ T4)]. intros x (b & r & Tx & Sx). right. eexists. split; [exact Tx|]. right. right. rewrite St in Sx. symmetry in Sx. apply app_eq_nil in Sx. destruct Sx as [-> _]. cbn. apply app_nil_r.
    + constructor; [right; eexists; split; [exact Tl|]; right; left; reflexivity|]. eapply Forall_impl; [|apply (target_states t (last h d2) _ Tl)]. intros x (b & r & Tx & _). right. eexists. split; [exact Tx|]. right. left. reflexivity.
  - constructor; [right; eexists; split; [exact Tl|]; right; left; reflexivity|]. eapply Forall_impl; [|apply (target_states t (last h d2) _ Tl)]. intros x (b & r & Tx & _). right. eexists. split; [exact Tx|]. right. left. reflexivity.
Qed.
Definition all_ok (d1 d2 : list answer) : calls := {| c_lstat := true; c_open_tmp := true; c_chmod_tmp := true; c_rename := true; c_unlink := true;
  c_open := true; c_fstat := true; c_chmod_on := true; c_chmod_off := true; dev1 := d1; dev2 := d2 |}.
Definition no_rename (d1 d2 : list answer) : calls := {| c_lstat := true; c_open_tmp := true; c_chmod_tmp := true; c_rename := false; c_unlink := true;
  c_open := true; c_fstat := true; c_chmod_on := true; c_chmod_off := true; dev1 := d1; dev2 := d2 |}.
Definition tk (n : nat) (l : bool) : answer := {| take := n; chunk := 100; data := []; wfail := None; rfail := None; sfail := None; ready := true; flushable := false; late := l |}.
Definition had (s : string) : fs := {| target := Some {| regular := true; sticky := false; content := B s |}; temp := None |}.
Definition holds (s : string) (d : fs) : Prop := target d = Some {| regular := true; sticky := false; content := B s |}.
(** A flush that is given up: the commit succeeds, without any error, and the file is
    cut off. *)
Theorem C36_slow_refuted : exists answers h, Forall named answers /\
  commit_atomic 20 [B "a = 1"; B "b = 2"] (all_ok answers []) (had "old") = Ok (true, h) /\ holds "a = 1b" (last h (had "old")).
Proof.
  exists [tk 5 false; tk 1 false; tk 0 false; tk 0 true; tk 0 true; tk 0 true; tk 0 true]. eexists. split; [repeat (constructor; [split; discriminate|]); constructor|]. split; [vm_compute; reflexivity|reflexivity].
Qed.
(** Nothing is synced: after a power loss the file may be cut off although everything
    succeeded. *)
Theorem C36_power_refuted : exists answers h d', Forall prompt answers /\
  commit_atomic 20 [B "a = 1"; B "b = 2"] (all_ok answers []) (had "old") = Ok (true, h) /\ power_loss (last h (had "old")) d' /\ holds "" d'.
Proof.
  exists [tk 5 false; tk 5 false]. eexists. exists (had ""). split; [repeat (constructor; [repeat split; discriminate|]); constructor|]. split; [vm_compute; reflexivity|]. split; [|reflexivity]. split; [reflexivity|]. split; [reflexivity|]. exists (B "a = 1b = 2"). reflexivity.
Qed.
(** Written in place, the file is for a moment empty and not marked. *)
Theorem C36_window_refuted : exists h, Forall prompt [tk 9 false] /\ commit 20 [B "a = 1"] (no_rename [tk 9 false] [tk 9 false]) (had "old") = Ok h /\ Exists (holds "") h.
Proof.
  eexists. split; [repeat constructor; discriminate|]. split; [vm_compute; reflexivity|]. do 7 (apply Exists_cons_tl). apply Exists_cons_hd. reflexivity.
Qed.
(** If the device takes only a part, the mark is removed while the rest is still in the
    buffer. *)
Theorem C36_unmarked_refuted : exists answers h, Forall prompt answers /\
  commit_inplace 20 [B "a = 1"] (all_ok [] answers) (had "old") = Ok h /\ Exists (holds "a =") h.
Proof.
  exists [tk 2 false; tk 0 false; tk 1 false; tk 0 false; tk 9 false; tk 9 false; tk 9 false; tk 9 false]. eexists. split; [repeat (constructor; [repeat split; discriminate|]); constructor|]. split; [vm_compute; reflexivity|]. repeat (first [apply Exists_cons_hd; reflexivity|apply Exists_cons_tl]).
Qed.
Example C36_nontrivial : exists h h', commit_atomic 20 [B "a = 1"; B "b = 2"] (all_ok [tk 3 false; tk 0 false; tk 1 false; tk 1 false; tk 1 false; tk 1 false; tk 1 false; tk 5 false; tk 5 false; tk 5 false; tk 5 false; tk 5 false; tk 5 false; tk 5 false; tk 5 false] []) (had "old") = Ok (true, h) /\
  commit_inplace 20 [B "a = 1"; B "b = 2"] (all_ok [] [tk 12 false; tk 12 false; tk 12 false]) (had "old") = Ok h' /\ holds "a = 1b = 2" (last h (had "x")) /\ holds "a = 1b = 2" (last h' (had "x")) /\ (8 < length h)%nat.
Proof. do 2 eexists. split; [vm_compute; reflexivity|]. split; [vm_compute; reflexivity|]. split; [reflexivity|]. split; [reflexivity|]. vm_compute. lia. Qed.

(** * C37 *)
(** Whatever is done with the stream, whatever fails and wherever the process dies:
    the file is the old one, or holds all that was ever handed to the device; the
    latter in the end, unless the file could not be opened or renamed. *)
Theorem C37_all_or_nothing depth l answers mk rn ul d s h : atomic_file depth l answers mk rn ul d = Ok (s, h) ->
  Forall (fun x => old d x \/ exists f, target x = Some f /\ content f = sent (tr s)) h /\
  (mk = false \/ rn = false -> Forall (old d) h) /\
  (mk = true -> rn = true -> match target d with Some f => regular f = true | None => True end -> exists f, target (last h d) = Some f /\ content f = sent (tr s)).
Proof.
  unfold atomic_file, old. destruct (match target d with Some f => negb (regular f) | None => false end) eqn:Rg.
  { intros R. injection R as <- <-. repeat split; try (repeat constructor; auto; fail). intros _ _ Z. destruct (target d); [|discriminate]. rewrite Z in Rg. discriminate. }
  destruct mk; cbn [negb]; [|intros R; injection R as <- <-; repeat split; try (repeat constructor; auto; fail); discriminate].
  set (d1 := {| target := target d; temp := Some (opened None) |}). destruct (run depth l (new 0 answers)) as [s1| |] eqn:Rn; try discriminate. cbn [bind]. destruct (step depth (Do Close) s1) as [s2| |] eqn:Cl; try discriminate. cbn [bind]. intros R. match type of R with Ok (?x, ?a) = Ok (?y, ?b) => assert (Es : x = y) by (injection R; auto); assert (Eh : a = b) by (injection R; auto) end. rewrite <- Eh, <- Es. clear R Eh Es h s.
  assert (Hh : hush s2). { apply (step_hush _ _ _ _ Cl), (run_hush _ _ _ _ Rn). split; [exact I|intros []]. }
  destruct (atomic_states rn ul (tr s2) d1 (opened None) eq_refl (proj1 Hh)) as [A B]. split; [|split].
  - cbn [app]. constructor; [auto|]. constructor; [auto|]. eapply Forall_impl; [|exact A]. intros x [X|[_ X]]; [left; exact X|right]. eexists. split; [exact X|reflexivity].
  - intros [Z| ->]; [discriminate|]. cbn [app]. constructor; [reflexivity|]. constructor; [reflexivity|]. eapply Forall_impl; [|exact A]. intros x [X|[Z _]]; [exact X|discriminate].
  - intros _ -> _. assert (Ic : In Closed (tr s2)). { destruct depth as [|[|n]]; try discriminate. cbn [step] in Cl. change (exec (Datatypes.S (Datatypes.S n)) (DoAct Close) s1) with (close (exec n) s1) in Cl. unfold close in Cl. destruct (exec n (DoFlush 2000) s1) as [[s3 b3]| |]; try discriminate. cbn [bind closecb emit set_tr set_closed] in Cl. destruct (closecb s3) as [cb|].
      - destruct (exec n (DoCall cb) _) as [[s4 b4]| |] eqn:E; try discriminate. cbn [bind] in Cl. injection Cl as <-. destruct (moves_input _ _ (exec_moves _ _ _ _ _ E)) as (_ & _ & _ & _ & _ & _ & t & T & _). rewrite T. cbn. apply in_or_app. left. apply in_or_app. right. left. reflexivity.
      - cbn [bind] in Cl. injection Cl as <-. cbn. apply in_or_app. right. left. reflexivity. }
    specialize (B eq_refl Ic). exists (append (sent (tr s2)) (opened None)). split; [|reflexivity]. rewrite <- B. change ([d; d1] ++ states (atomic_event true ul) (tr s2) d1) with ([d] ++ [d1] ++ states (atomic_event true ul) (tr s2) d1). rewrite last_states. pose proof (last_states (atomic_event true ul) (tr s2) d1 [] d1) as X. cbn [app] in X. rewrite X. reflexivity.
Qed.
(** If there was no error and no flush was given up, that is everything written. *)
Theorem C37_complete depth blocks answers ul d s h : Forall prompt answers -> match target d with Some f => regular f = true | None => True end ->
  atomic_file depth (writes blocks) answers true true ul d = Ok (s, h) -> err s = 0 -> complete blocks (last h d).
Proof.
  intros F Rg E Z. destruct (C37_all_or_nothing _ _ _ _ _ _ _ _ _ E) as (_ & _ & X). destruct (X eq_refl eq_refl Rg) as (f & T & C). exists f. split; [exact T|]. rewrite C. revert E. unfold atomic_file. destruct (match target d with Some f => negb (regular f) | None => false end) eqn:Q; [destruct (target d); [rewrite Rg in Q|]; discriminate|]. cbn [negb].
  destruct (run depth (writes blocks) (new 0 answers)) as [s1| |] eqn:Rn; try discriminate. cbn [bind]. destruct (step depth (Do Close) s1) as [s2| |] eqn:Cl; try discriminate. cbn [bind]. intros R. assert (Es : s2 = s) by (injection R; auto). subst s2.
  destruct (written prompt (fun a H => proj1 H) depth blocks answers s1 s F Rn Cl) as (_ & _ & _ & Sn). exact (Sn (fun a H => H) Z).
Qed.
(** After a failed write the cut-off file still takes the place of the old one. *)
Definition full : answer := {| take := 0; chunk := 100; data := []; wfail := Some 28; rfail := None; sfail := None; ready := true; flushable := false; late := false |}.
Theorem C37_failed_refuted : exists answers s h, Forall prompt answers /\
  atomic_file 20 (writes [B "a = 1"; B "b = 2"]) answers true true true (had "old") = Ok (s, h) /\ err s = 28 /\ holds "a = 1" (last h (had "old")).
Proof.
  exists [tk 5 false; full]. do 2 eexists. split; [repeat (constructor; [repeat split; discriminate|]); constructor|]. split; [vm_compute; reflexivity|]. split; reflexivity.
Qed.
Example C37_nontrivial : exists s h, atomic_file 20 (writes [B "a = 1"; B "b = 2"]) [tk 3 false; tk 0 false; tk 1 false; tk 1 false; tk 1 false; tk 1 false; tk 1 false; tk 5 false; tk 5 false; tk 5 false; tk 5 false; tk 5 false; tk 5 false; tk 5 false; tk 5 false] true true true (had "old") = Ok (s, h) /\
  err s = 0 /\ holds "a = 1b = 2" (last h (had "old")) /\ Exists (fun x => exists f, temp x = Some f /\ content f = B "a = 1") h.
Proof. do 2 eexists. split; [vm_compute; reflexivity|]. split; [reflexivity|]. split; [reflexivity|]. repeat (first [apply Exists_cons_hd; eexists; split; [reflexivity|]; reflexivity|apply Exists_cons_tl]). Qed.

Print Assumptions C36_atomic. Print Assumptions C36_commit. Print Assumptions C36_inplace. Print Assumptions C36_slow_refuted. Print Assumptions C36_power_refuted. Print Assumptions C36_window_refuted. Print Assumptions C36_unmarked_refuted.
Print Assumptions C37_all_or_nothing. Print Assumptions C37_complete. Print Assumptions C37_failed_refuted.
