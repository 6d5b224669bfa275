(** C41: the subprocess queue. *)
From Verif Require Import Base BaseFacts QueueModel QueueSpec QueueProofs QueueProofs2.
Local Open Scope nat_scope.

Lemma nothing_in p : ~ In p (ids (runq empty ++ waitq empty)). Proof. intros []. Qed.
Lemma from_empty max h : NoDup (added h) -> exists q tr, run max empty h = Ok (q, tr) /\ inv max q /\ all_safe max [] tr /\ live tr = map name (runq q).
Proof. intros N. destruct (run_ok max h empty (inv_empty max) N (fun p _ => nothing_in p)) as (q & tr & E & I & S & L & _). exists q, tr. auto. Qed.

(** At every moment of every history at most the allowed number of processes run, a
    sync point runs alone, and no assertion fails. *)
Theorem C41_limit max h : NoDup (added h) -> exists q tr, run max empty h = Ok (q, tr) /\
  forall a b, tr = a ++ b -> length (live a) <= max /\ forall c p, In (c, p) (live a) -> c <> 0 -> live a = [(c, p)].
Proof. intros N. destruct (from_empty max h N) as (q & tr & E & _ & S & _). exists q, tr. split; [exact E|]. intros a b T. apply (S a b T). Qed.
(** What the queue calls running is what was started and not yet found ended. *)
Theorem C41_running max h : NoDup (added h) -> exists q tr, run max empty h = Ok (q, tr) /\ live tr = map (fun e => (cookie e, proc e)) (runq q).
Proof. intros N. destruct (from_empty max h N) as (q & tr & E & _ & _ & L). exists q, tr. auto. Qed.
(** Jobs start in the order in which they were added, each once; those not started
    yet are waiting, in order. *)
Theorem C41_order max h : NoDup (added h) -> exists q tr, run max empty h = Ok (q, tr) /\
  jobs_added h = jobs_started tr ++ map proc (filter (fun e => cookie e =? 0) (waitq q)).
Proof.
  intros N. destruct (from_empty max h N) as (q & tr & E & _). exists q, tr. split; [exact E|]. symmetry. apply (run_jobs max h empty q tr (inv_empty max) N (fun p _ => nothing_in p) E).
Qed.
(** Once the queue has emptied, every sync point has been started, after it was
    added, at a moment when every job added before it had ended. *)
Theorem C41_sync max h1 c p h2 q1 e1 q2 e2 : c <> 0 -> NoDup (added (h1 ++ Add c p :: h2)) ->
  run max empty h1 = Ok (q1, e1) -> run max q1 (Add c p :: h2) = Ok (q2, e2) -> runq q2 = [] /\ waitq q2 = [] ->
  exists l1 x l2, e2 = l1 ++ Start c x :: l2 /\ forall j, In j (jobs_added h1) -> In (Finish 0 j) (e1 ++ l1).
Proof.
  intros C N E1 E2 [Er Ew]. unfold added in N. rewrite flat_map_app in N. cbn [flat_map] in N. fold (added h1) in N. fold (added h2) in N. cbn [app] in N.
  assert (N1 : NoDup (added h1)) by (eapply NoDup_app_l; exact N). destruct (run_ok max h1 empty (inv_empty max) N1 (fun p _ => nothing_in p)) as (q & tr & E & I & _ & _ & Cc). rewrite E1 in E. injection E as <- <-. cbn [runq waitq empty ids app map] in Cc. rewrite app_nil_r in Cc.
  assert (A : accounted (jobs_added h1) q1 e1). { change (jobs_added h1) with ([] ++ jobs_added h1). change e1 with ([] ++ e1). apply (run_accounted max h1 [] empty q1 e1 [] (inv_empty max) N1 (fun p _ => nothing_in p) E1). intros j []. }
  assert (Dj : forall x, In x (p :: added h2) -> ~ In x (added h1)). { intros x Hx Q. apply in_split in Q. destruct Q as (u & v & Eq). rewrite Eq, <- app_assoc in N. cbn [app] in N. apply NoDup_remove_2 in N. apply N. apply in_or_app. right. apply in_or_app. right. exact Hx. }
  assert (Nh : NoDup (p :: added h2)). { clear -N. induction (added h1); [exact N|]. cbn in N. inversion N; subst. auto. } inversion Nh as [|x y Np N2 Exy]; subst.
  assert (Jadd : forall x, In x (jobs_added h1) -> In x (added h1)). { intros x. clear. induction h1 as [|o h IH]; [intros []|]. cbn. destruct o as [[|c] q|]; cbn; intros [->|H] || intros H; auto. }
  cbn [run step bind app] in E2. destruct (run max (add q1 c p) h2) as [[q3 e3]| |] eqn:R; try discriminate. cbn [bind app] in E2. injection E2 as <- <-.
  destruct (add_ok max q1 c p I) as (I' & _ & Ic); [intros Q; apply (Dj p (or_introl eq_refl)), Cc, Q|].
  assert (A2 : accounted (jobs_added h1) (add q1 c p) e1). { intros j Hj. apply (add_accounted _ q1 c p e1 A). apply in_or_app. left. exact Hj. }
  destruct (run_sync c (jobs_added h1) max h2 C (add q1 c p) q3 e3 e1 I' N2) as [D|P]; try assumption.
  - intros x Hx. split.
    + intros Q. apply Ic in Q. destruct Q as [<-|Q]; [contradiction|]. apply (Dj x (or_intror Hx)), Cc, Q.
    + intros Q. apply (Dj x (or_intror Hx)), Jadd, Q.
  - apply add_pending, C.
  - exfalso. rewrite Er, Ew in P. destruct P as [(e & [] & _)|(u & e & v & Q & _)]. destruct u; discriminate.
Qed.

(** Never idle without reason: after go() nothing waits, or as many run as may, or
    a sync point is running or is first in line behind running processes. *)
Theorem C41_busy max h ended : NoDup (added h) -> exists q tr, run max empty (h ++ [Go ended]) = Ok (q, tr) /\
  (waitq q = [] \/ length (runq q) >= max \/
   (runq q <> [] /\ ((exists e, In e (runq q) /\ cookie e <> 0) \/ exists e r, waitq q = e :: r /\ cookie e <> 0))).
Proof.
  intros N. destruct (from_empty max h N) as (q & tr & E & I & _). rewrite run_app, E. cbn [bind run step]. destruct (go_ok max ended q I) as (q1 & e1 & E1 & _). rewrite E1. cbn [bind app]. exists q1, (tr ++ e1 ++ []). split; [reflexivity|].
  unfold go in E1. destruct (cleanup ended (runq q)) as [[keep again] ev1] eqn:C. destruct (start max keep (waitq q ++ again)) as [[rq wq] ev2] eqn:S. destruct (length rq <=? max); [|discriminate]. injection E1 as <- <-. cbn [runq waitq].
  destruct (cleanup_ok _ _ _ _ _ C) as (Sb & _). destruct (start_live _ _ _ _ _ _ S (good_sub _ _ _ Sb (proj1 I))) as (_ & _ & _ & _ & [H|[H|[H1 [H|H]]]]); auto. right. right. split; [exact H1|]. left. apply existsb_exists in H. destruct H as (e & Ie & H). exists e. split; [exact Ie|]. destruct (Nat.eqb_spec (cookie e) 0); [discriminate|assumption].
Qed.
(** If processes end, the queue empties: as long as each go() finds at least one of
    the running processes ended, boundedly many calls suffice. *)
Fixpoint finds_ended (max : nat) (q : queue) (es : list (nat -> bool)) : Prop :=
  match es with
  | [] => True
  | e :: r => (runq q = [] \/ exists x, In x (runq q) /\ e (proc x) = true) /\ forall q' ev, go max e q = Ok (q', ev) -> finds_ended max q' r
  end.
Theorem C41_drains max h : 1 <= max -> NoDup (added h) -> exists q tr n, run max empty h = Ok (q, tr) /\
  forall es, length es >= n -> finds_ended max q es -> exists tr', run max q (map Go es) = Ok (empty, tr').
Proof.
  intros M N. destruct (from_empty max h N) as (q & tr & E & I & _). exists q, tr, (work q). split; [exact E|]. clear E. remember (work q) as w eqn:W. assert (Hw : work q <= w) by lia. clear W. revert q I Hw. induction w as [|w IH]; intros q I Hw es L F.
  - assert (Z : runq q ++ waitq q = []). { unfold work in Hw. destruct (runq q); [|cbn in Hw; lia]. destruct (waitq q); [reflexivity|cbn in Hw; lia]. } apply app_eq_nil in Z. destruct q as [rq wq]. cbn [runq waitq] in Z. destruct Z as [-> ->]. clear. exists []. induction es as [|e es IH]; [reflexivity|]. cbn [map run step]. change (go max e {| runq := []; waitq := [] |}) with (@Ok (queue * list event) (empty, [])). cbn [bind]. fold empty in IH. rewrite IH. reflexivity.
  - destruct es as [|e es]; [cbn in L; lia|]. cbn [finds_ended] in F. destruct F as [F1 F2]. destruct (go_ok max e q I) as (q1 & e1 & E1 & I1 & _). cbn [map run step]. rewrite E1. cbn [bind]. pose proof (go_work _ _ _ _ _ E1) as Wk.
    assert (Hw1 : work q1 <= w). { destruct (Nat.eq_dec (length (runq q ++ waitq q)) 0) as [Z|Z]; [|assert (1 <= length e1) by (eapply go_moves; [exact M|exact E1|intros Q; rewrite Q in Z; apply Z; reflexivity|exact F1]); lia]. rewrite app_length in Z. unfold work in *. destruct (runq q); [|cbn in Z; lia]. destruct (waitq q); [|cbn in Z; lia]. cbn in Wk. lia. }
    destruct (IH q1 I1 Hw1 es ltac:(cbn in L; lia) (F2 _ _ E1)) as (tr' & ->). cbn [bind]. eauto.
Qed.
(** With a limit of zero nothing ever starts. *)
Theorem C41_zero_refuted : exists h, NoDup (added h) /\ jobs_added h <> [] /\ forall es, exists q, run 0 empty (h ++ map Go es) = Ok (q, []) /\ waitq q <> [].
Proof.
  exists [Add 0 1]. split; [repeat constructor; intros []|]. split; [discriminate|]. intros es. exists {| runq := []; waitq := [{| cookie := 0; proc := 1; redo := false |}] |}. split; [|discriminate]. rewrite run_app. cbn [run step bind]. change (add empty 0 1) with {| runq := []; waitq := [{| cookie := 0; proc := 1; redo := false |}] |}.
  induction es as [|e es IH]; [reflexivity|]. cbn [map run step bind app] in *. change (go 0 e {| runq := []; waitq := [{| cookie := 0; proc := 1; redo := false |}] |}) with (@Ok (queue * list event) ({| runq := []; waitq := [{| cookie := 0; proc := 1; redo := false |}] |}, [])). cbn [bind app]. destruct (run 0 _ (map Go es)) as [[q2 e2]| |]; cbn [bind] in *; [|discriminate|discriminate]. exact IH.
Qed.
(** The header says a sync point starts at most twice after it was last added; it can
    start three times. *)
Theorem C41_twice_refuted : exists h1 h2 c p, NoDup (added (h1 ++ Add c p :: h2)) /\ ~ In c (flat_map (fun o => match o with Add d _ => [d] | _ => [] end) h2) /\
  exists q1 e1 q2 e2, run 1 empty h1 = Ok (q1, e1) /\ run 1 q1 (Add c p :: h2) = Ok (q2, e2) /\ starts c e2 = 3.
Proof.
  exists [Add 5 1; Add 0 2; Add 5 3; Go (fun _ => false); Add 5 4; Go (fun _ => true); Add 0 6], [Go (fun _ => true); Go (fun _ => true); Go (fun _ => true); Go (fun _ => true); Go (fun _ => true)], 5, 7.
  split; [repeat constructor; cbn; intuition discriminate|]. split; [cbn; tauto|]. do 4 eexists. split; [vm_compute; reflexivity|]. split; vm_compute; reflexivity.
Qed.

Definition ex_h : list op := [Add 0 1; Add 0 2; Add 9 3; Add 0 4; Go (fun _ => false); Add 9 5; Go (fun p => p =? 2); Go (fun _ => true); Go (fun _ => true); Go (fun _ => true); Go (fun _ => true)].
Example ex_run : NoDup (added ex_h) /\ exists tr, run 2 empty ex_h = Ok (empty, tr) /\
  tr = [Start 0 1; Start 0 2; Finish 0 2; Finish 0 1; Start 9 3; Finish 9 3; Start 0 4; Finish 0 4; Start 9 3; Finish 9 3].
Proof. split; [repeat constructor; cbn; intuition discriminate|]. eexists. split; vm_compute; reflexivity. Qed.
Print Assumptions C41_limit.
Print Assumptions C41_order.
Print Assumptions C41_sync.
Print Assumptions C41_drains.
