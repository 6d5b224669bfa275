(** Order, sync points and progress of the subprocess queue. *)
From Verif Require Import Base BaseFacts QueueModel QueueSpec QueueProofs.
Local Open Scope nat_scope.

Definition jobs (l : list ent) : list nat := map proc (filter job l).
Lemma jobs_app a b : jobs (a ++ b) = jobs a ++ jobs b.
Proof. unfold jobs. rewrite filter_app, map_app. reflexivity. Qed.
Lemma started_app a b : jobs_started (a ++ b) = jobs_started a ++ jobs_started b.
Proof. apply flat_map_app. Qed.
Lemma cleanup_started ended l keep again ev : cleanup ended l = (keep, again, ev) -> jobs_started ev = [].
Proof.
  revert keep again ev. induction l as [|e l IH]; intros keep again ev E; [injection E as <- <- <-; reflexivity|]. rewrite cleanup_cons in E. destruct (cleanup ended l) as [[k a] v]. specialize (IH _ _ _ eq_refl). destruct (ended (proc e)); injection E as <- <- <-; exact IH.
Qed.
Lemma start_jobs max wq : forall rq rq' wq' ev, start max rq wq = (rq', wq', ev) -> jobs_started ev ++ jobs wq' = jobs wq.
Proof.
  induction wq as [|e wq IH]; intros rq rq' wq' ev E; [injection E as <- <- <-; reflexivity|]. rewrite start_cons in E.
  destruct (length rq <? max); [|injection E as <- <- <-; reflexivity]. destruct (_ && _); [injection E as <- <- <-; reflexivity|]. destruct (cookie_running rq); [injection E as <- <- <-; reflexivity|].
  destruct (start max (rq ++ [e]) wq) as [[r1 w1] v1] eqn:S. injection E as <- <- <-. specialize (IH _ _ _ _ S). unfold jobs in *. cbn [filter jobs_started flat_map]. fold (jobs_started v1). unfold job at 2. destruct (cookie e); cbn [Nat.eqb app map]; [f_equal; exact IH|exact IH].
Qed.
Lemma again_jobs max ended q keep again ev : inv max q -> cleanup ended (runq q) = (keep, again, ev) -> jobs again = [].
Proof.
  intros [_ [_ R]] C. destruct (cleanup_ok _ _ _ _ _ C) as (_ & F & _). apply Forall_app in R. destruct R as [R _]. rewrite Forall_forall in R. unfold jobs. clear C. induction again as [|e again IH]; [reflexivity|]. cbn [filter]. destruct (Forall_inv F) as (_ & x & I & Rx & E). unfold name in E. injection E as E _. unfold job at 1. rewrite <- E.
  destruct (Nat.eqb_spec (cookie x) 0) as [Z|]; [elim (R x I Rx Z)|]. apply IH, (Forall_inv_tail F).
Qed.
Lemma go_jobs max ended q q' ev : inv max q -> go max ended q = Ok (q', ev) -> jobs_started ev ++ jobs (waitq q') = jobs (waitq q).
Proof.
  intros I. unfold go. destruct (cleanup ended (runq q)) as [[keep again] ev1] eqn:C. destruct (start max keep (waitq q ++ again)) as [[rq wq] ev2] eqn:S. destruct (length rq <=? max); [|discriminate]. intros E. injection E as <- <-. cbn [waitq].
  rewrite started_app, (cleanup_started _ _ _ _ _ C). cbn [app]. rewrite (start_jobs _ _ _ _ _ _ S), jobs_app, (again_jobs max _ _ _ _ _ I C). apply app_nil_r.
Qed.
Lemma add_jobs q c p : jobs (waitq (add q c p)) = jobs (waitq q) ++ (if c =? 0 then [p] else []).
Proof.
  unfold add. destruct (Nat.eqb_spec c 0) as [->|C]; [cbn [waitq]; rewrite jobs_app; reflexivity|]. rewrite app_nil_r. destruct (mark c (waitq q)) as [w|] eqn:M.
  - destruct (mark_shape _ _ _ M) as (u & e & v & E & Ce & _ & ->). cbn [waitq]. rewrite E, !jobs_app. f_equal. unfold jobs. cbn [filter]. assert (X : forall y, cookie y = c -> job y = false) by (intros y Hy; unfold job; apply Nat.eqb_neq; congruence). rewrite (X e Ce), X; [reflexivity|]. destruct (set_last v e true) as [_ ->]. exact Ce.
  - cbn [waitq]. rewrite jobs_app. unfold jobs at 2. cbn [filter]. unfold job. cbn [cookie]. destruct (Nat.eqb_spec c 0); [contradiction|]. apply app_nil_r.
Qed.
Lemma run_jobs max l : forall q q' ev, inv max q -> NoDup (added l) -> (forall p, In p (added l) -> ~ In p (ids (runq q ++ waitq q))) ->
  run max q l = Ok (q', ev) -> jobs_started ev ++ jobs (waitq q') = jobs (waitq q) ++ jobs_added l.
Proof.
  induction l as [|o l IH]; intros q q' ev I N F E; cbn [run] in E.
  - injection E as <- <-. cbn. symmetry. apply app_nil_r.
  - destruct o as [c p|ended]; cbn [step] in E.
    + cbn [bind] in E. cbn [added flat_map app] in *. inversion N as [|x y Np N' Exy]; subst. destruct (add_ok max q c p I (F p (or_introl eq_refl))) as (I1 & Er & Ic). destruct (run max (add q c p) l) as [[q1 e1]| |] eqn:R; try discriminate. cbn [bind app] in E. injection E as <- <-.
      rewrite (IH _ _ _ I1 N' (fun x Hx Q => match Ic _ Q with or_introl e => Np (eq_ind_r (fun y => In y (added l)) Hx e) | or_intror Q' => F x (or_intror Hx) Q' end) R). rewrite add_jobs, <- app_assoc. f_equal. cbn [jobs_added flat_map]. fold (jobs_added l). destruct c; reflexivity.
    + destruct (go max ended q) as [[q1 e1]| |] eqn:G; try discriminate. cbn [bind] in E. destruct (run max q1 l) as [[q2 e2]| |] eqn:R; try discriminate. cbn [bind] in E. injection E as <- <-.
      destruct (go_ok max ended q I) as (q1' & ev1' & E1 & I1 & _ & _ & C1). rewrite G in E1. injection E1 as <- <-. cbn [added flat_map app] in *. rewrite started_app, <- app_assoc. rewrite (IH _ _ _ I1 N (fun x Hx Q => F x Hx (C1 _ Q)) R). rewrite app_assoc, (go_jobs _ _ _ _ _ I G). reflexivity.
Qed.

(** ** Sync points *)
(** [J]: jobs that must have ended before the sync point [c] counts. *)
Definition in_jobs (J : list nat) (l : list ent) : Prop := exists e, In e l /\ cookie e = 0 /\ In (proc e) J.
Definition accounted (J : list nat) (q : queue) (tr : list event) : Prop :=
  forall j, In j J -> In (Finish 0 j) tr \/ exists e, In e (runq q ++ waitq q) /\ cookie e = 0 /\ proc e = j.
Definition pending (c : nat) (J : list nat) (rq wq : list ent) : Prop :=
  (exists e, In e rq /\ cookie e = c /\ redo e = true) \/
  (exists u e v, wq = u ++ e :: v /\ cookie e = c /\ (redo e = true \/ ~ in_jobs J v)).
Definition done (c : nat) (J : list nat) (tr ev : list event) : Prop :=
  exists l1 p l2, ev = l1 ++ Start c p :: l2 /\ forall j, In j J -> In (Finish 0 j) (tr ++ l1).
Lemma done_app c J tr a b : done c J tr a -> done c J tr (a ++ b).
Proof. intros (l1 & p & l2 & -> & H). exists l1, p, (l2 ++ b). rewrite <- app_assoc. auto. Qed.
Lemma done_shift c J tr a b : done c J (tr ++ a) b -> done c J tr (a ++ b).
Proof. intros (l1 & p & l2 & -> & H). exists (a ++ l1), p, l2. rewrite <- app_assoc. split; [reflexivity|]. intros j Hj. specialize (H j Hj). rewrite app_assoc. exact H. Qed.

Lemma start_pending c J max : c <> 0 -> forall wq rq rq' wq' ev tr, start max rq wq = (rq', wq', ev) ->
  accounted J {| runq := rq; waitq := wq |} tr -> pending c J rq wq -> done c J tr ev \/ pending c J rq' wq'.
Proof.
  intros C wq. induction wq as [|x wq IH]; intros rq rq' wq' ev tr E A P; [injection E as <- <- <-; right; exact P|]. rewrite start_cons in E.
  destruct (length rq <? max); [|injection E as <- <- <-; right; exact P]. destruct (negb (cookie x =? 0) && negb (isempty rq)) eqn:S1; [injection E as <- <- <-; right; exact P|]. destruct (cookie_running rq) eqn:S2; [injection E as <- <- <-; right; exact P|].
  destruct (start max (rq ++ [x]) wq) as [[r1 w1] v1] eqn:S. injection E as <- <- <-.
  assert (Go : accounted J {| runq := rq ++ [x]; waitq := wq |} (tr ++ [Start (cookie x) (proc x)])).
  { intros j Hj. destruct (A j Hj) as [Q|(e & I & Q)]; [left; apply in_or_app; left; exact Q|right; exists e; split; [|exact Q]]. cbn [runq waitq] in *. rewrite <- app_assoc. exact I. }
  assert (Fin : forall P', P' \/ pending c J (rq ++ [x]) wq -> (P' -> done c J tr (Start (cookie x) (proc x) :: v1)) -> done c J tr (Start (cookie x) (proc x) :: v1) \/ pending c J r1 w1).
  { intros P' [H|H] K; [left; apply K, H|]. destruct (IH _ _ _ _ _ S Go H) as [D|D]; [left; apply (done_shift c J tr [_] v1), D|right; exact D]. }
  destruct P as [(e & I & Ce & Re)|(u & e & v & Ew & Ce & Q)].
  - apply (Fin False); [right; left; exists e; split; [apply in_or_app; left; exact I|auto]|contradiction].
  - destruct u as [|y u]; cbn [app] in Ew; injection Ew as -> ->.
    + destruct Q as [Q|Q].
      * apply (Fin False); [right; left; exists e; split; [apply in_or_app; right; left; reflexivity|auto]|contradiction].
      * left. exists [], (proc e), v1. rewrite Ce. split; [reflexivity|]. intros j Hj. rewrite app_nil_r. destruct (A j Hj) as [W|(z & I & Z & Ez)]; [exact W|]. exfalso. cbn [runq waitq] in I.
        destruct (Nat.eqb_spec (cookie e) 0); [congruence|]. cbn [negb andb] in S1. destruct rq; [|discriminate]. cbn [app] in I. destruct I as [<-|I]; [congruence|]. apply Q. exists z. subst. auto.
    + apply (Fin False); [right; right; exists u, e, v; auto|contradiction].
Qed.
Lemma go_sync c J max ended q q' ev tr : c <> 0 -> inv max q -> go max ended q = Ok (q', ev) -> accounted J q tr -> pending c J (runq q) (waitq q) ->
  accounted J q' (tr ++ ev) /\ (done c J tr ev \/ pending c J (runq q') (waitq q')).
Proof.
  intros C I. pose proof (fun k a v => again_jobs max ended q k a v I) as Aj. destruct I as [G [_ Rd]]. unfold go. destruct (cleanup ended (runq q)) as [[keep again] ev1] eqn:Cl. specialize (Aj _ _ _ eq_refl). destruct (start max keep (waitq q ++ again)) as [[rq wq] ev2] eqn:S. destruct (length rq <=? max); [|discriminate]. intros E A P. injection E as <- <-.
  destruct (cleanup_ok _ _ _ _ _ Cl) as (Sb & Fa & Ka). destruct (start_live _ _ _ _ _ _ S (good_sub _ _ _ Sb G)) as (_ & _ & _ & E2 & _).
  assert (A' : accounted J {| runq := keep; waitq := waitq q ++ again |} (tr ++ ev1)).
  { intros j Hj. destruct (A j Hj) as [Q|(e & Ie & Ze & Pe)]; [left; apply in_or_app; left; exact Q|]. apply in_app_or in Ie. destruct Ie as [Ie|Ie].
    - destruct (Ka e Ie) as [Q|[Q _]]; [right; exists e; split; [apply in_or_app; left; exact Q|auto]|left; apply in_or_app; right; rewrite <- Ze, <- Pe; exact Q].
    - right. exists e. split; [apply in_or_app; right; apply in_or_app; left; exact Ie|auto]. }
  assert (Nj : forall v, ~ in_jobs J v -> ~ in_jobs J (v ++ again)).
  { intros v Nv (e & Ie & Ze & Pe). apply in_app_or in Ie. destruct Ie as [Ie|Ie]; [apply Nv; exists e; auto|]. assert (Q : In (proc e) (jobs again)). { unfold jobs. apply in_map, filter_In. split; [exact Ie|]. unfold job. rewrite Ze. reflexivity. } rewrite Aj in Q. exact Q. }
  assert (P' : pending c J keep (waitq q ++ again)).
  { destruct P as [(e & Ie & Ce & Re)|(u & e & v & Ew & Ce & Q)].
    - destruct (Ka e Ie) as [Q|[_ Q]]; [left; exists e; auto|]. right. specialize (Q Re). apply in_split in Q. destruct Q as (u & v & Ea). exists (waitq q ++ u), (set_redo e false), v. split; [rewrite Ea, app_assoc; reflexivity|]. split; [exact Ce|]. right. intros (z & Iz & Zz & Pz). assert (W : In (proc z) (jobs again)). { rewrite Ea. rewrite jobs_app. apply in_or_app. right. unfold jobs. apply in_map, filter_In. split; [right; exact Iz|]. unfold job. rewrite Zz. reflexivity. } rewrite Aj in W. exact W.
    - right. exists u, e, (v ++ again). split; [rewrite Ew, <- app_assoc; reflexivity|]. split; [exact Ce|]. destruct Q as [Q|Q]; [left; exact Q|right; apply Nj, Q]. }
  cbn [runq waitq]. split.
  - intros j Hj. destruct (A' j Hj) as [Q|(e & Ie & Q)]; [left; rewrite app_assoc; apply in_or_app; left; exact Q|right]. exists e. cbn [runq waitq] in *. rewrite <- E2. auto.
  - destruct (start_pending c J max C _ _ _ _ _ _ S A' P') as [D|D]; [left; apply done_shift, D|right; exact D].
Qed.
Lemma add_sync c J q d p tr : c <> 0 -> ~ In p J -> accounted J q tr -> pending c J (runq q) (waitq q) ->
  accounted J (add q d p) tr /\ pending c J (runq (add q d p)) (waitq (add q d p)).
Proof.
  intros C F A P. set (x := {| cookie := d; proc := p; redo := false |}). assert (Fresh : accounted J {| runq := runq q; waitq := waitq q ++ [x] |} tr /\ pending c J (runq q) (waitq q ++ [x])).
  { split.
    - intros j Hj. destruct (A j Hj) as [Q|(e & Ie & Q)]; [left; exact Q|right; exists e; split; [cbn [runq waitq]; rewrite app_assoc; apply in_or_app; left; exact Ie|exact Q]].
    - destruct P as [P|(u & e & v & E & Ce & Q)]; [left; exact P|right]. exists u, e, (v ++ [x]). split; [rewrite E, <- app_assoc; reflexivity|]. split; [exact Ce|]. destruct Q as [Q|Q]; [left; exact Q|right]. intros (z & Iz & Zz & Pz). apply in_app_or in Iz. destruct Iz as [Iz|[<-|[]]]; [apply Q; exists z; auto|]. exact (F Pz). }
  unfold add. destruct (Nat.eqb_spec d 0) as [->|D]; [exact Fresh|]. destruct (mark d (waitq q)) as [w|] eqn:M; [|exact Fresh]. destruct (mark_shape _ _ _ M) as (u & e & v & E & Ce & _ & ->). cbn [runq waitq]. set (e' := match v with [] => e | _ => set_redo e true end).
  assert (Cx : cookie e' = d) by (unfold e'; destruct (set_last v e true) as [_ ->]; exact Ce). split.
  - intros j Hj. destruct (A j Hj) as [Q|(z & Iz & Zz & Pz)]; [left; exact Q|right; exists z; split; [|auto]]. cbn [runq waitq]. rewrite E in Iz. apply in_app_or in Iz. apply in_or_app. destruct Iz as [Iz|Iz]; [left; exact Iz|right]. apply in_app_or in Iz. apply in_or_app. destruct Iz as [Iz|[<-|Iz]]; [left; exact Iz|congruence|right; right; exact Iz].
  - destruct P as [P|(u2 & e2 & v2 & E2 & Ce2 & Q)]; [left; exact P|right]. rewrite E in E2.
    assert (Split : (exists m, u2 = u ++ e :: m /\ v = m ++ e2 :: v2) \/ (u2 = u /\ e2 = e /\ v2 = v) \/ (exists m, u = u2 ++ e2 :: m /\ v2 = m ++ e :: v)).
    { clear -E2. revert u2 E2. induction u as [|y u IH]; intros [|y2 u2] E2; cbn [app] in E2.
      - injection E2 as -> ->. right. left. auto.
      - injection E2 as -> ->. left. exists u2. auto.
      - injection E2 as -> <-. right. right. exists u. auto.
      - injection E2 as -> E2. destruct (IH u2 E2) as [(m & -> & ->)|[(-> & -> & ->)|(m & -> & ->)]]; [left; exists m; auto|right; left; auto|right; right; exists m; auto]. }
    destruct Split as [(m & -> & Ev)|[(-> & -> & ->)|(m & -> & ->)]].
    + exists (u ++ e' :: m), e2, v2. split; [rewrite <- app_assoc; cbn; rewrite <- Ev; reflexivity|auto].
    + exists u, e', v. split; [reflexivity|]. split; [congruence|]. unfold e'. destruct v; [destruct Q as [Q|Q]; [left; exact Q|right; exact Q]|left; reflexivity].
    + exists u2, e2, (m ++ e' :: v). split; [rewrite <- app_assoc; reflexivity|]. split; [exact Ce2|]. destruct Q as [Q|Q]; [left; exact Q|right]. intros (z & Iz & Zz & Pz). apply Q. exists z. split; [|auto]. apply in_app_or in Iz. apply in_or_app. destruct Iz as [Iz|[<-|Iz]]; [left; exact Iz|congruence|right; right; exact Iz].
Qed.
Lemma add_pending c J q p : c <> 0 -> pending c J (runq (add q c p)) (waitq (add q c p)).
Proof.
  intros C. unfold add. destruct (Nat.eqb_spec c 0); [contradiction|]. destruct (mark c (waitq q)) as [w|] eqn:M.
  - destruct (mark_shape _ _ _ M) as (u & e & v & E & Ce & _ & ->). cbn [runq waitq]. right. eexists u, _, v. split; [reflexivity|]. destruct (set_last v e true) as [_ ->]. split; [exact Ce|]. destruct v; [right; intros (z & [] & _)|left; reflexivity].
  - cbn [runq waitq]. right. exists (waitq q), {| cookie := c; proc := p; redo := false |}, []. split; [reflexivity|]. split; [reflexivity|]. right. intros (z & [] & _).
Qed.
Lemma run_sync c J max l : c <> 0 -> forall q q' ev tr, inv max q -> NoDup (added l) -> (forall p, In p (added l) -> ~ In p (ids (runq q ++ waitq q)) /\ ~ In p J) ->
  run max q l = Ok (q', ev) -> accounted J q tr -> pending c J (runq q) (waitq q) -> done c J tr ev \/ pending c J (runq q') (waitq q').
Proof.
  intros C. induction l as [|o l IH]; intros q q' ev tr I N F E A P; cbn [run] in E.
  - injection E as <- <-. right. exact P.
  - destruct o as [d p|ended]; cbn [step] in E.
    + cbn [bind] in E. cbn [added flat_map app] in *. inversion N as [|x y Np N' Exy]; subst. destruct (F p (or_introl eq_refl)) as [F1 F2]. destruct (add_ok max q d p I F1) as (I1 & Er & Ic). destruct (run max (add q d p) l) as [[q1 e1]| |] eqn:R; try discriminate. cbn [bind app] in E. injection E as <- <-.
      destruct (add_sync c J q d p tr C F2 A P) as [A1 P1]. eapply IH; [exact I1|exact N'| |exact R|exact A1|exact P1]. intros x Hx. split; [|apply F; right; exact Hx]. intros Q. apply Ic in Q. destruct Q as [<-|Q]; [contradiction|]. apply (proj1 (F x (or_intror Hx)) Q).
    + destruct (go max ended q) as [[q1 e1]| |] eqn:G; try discriminate. cbn [bind] in E. destruct (run max q1 l) as [[q2 e2]| |] eqn:R; try discriminate. cbn [bind] in E. injection E as <- <-.
      destruct (go_ok max ended q I) as (q1' & ev1' & E1 & I1 & _ & _ & C1). rewrite G in E1. injection E1 as <- <-. destruct (go_sync c J max ended q q1 e1 tr C I G A P) as [A1 [D|P1]]; [left; apply done_app, D|]. destruct (IH q1 q2 e2 (tr ++ e1) I1 N) as [D|D]; try assumption; [|left; apply done_shift, D|right; exact D]. intros x Hx. split; [intros Q; apply (proj1 (F x Hx)), C1, Q|apply F, Hx].
Qed.

(** ** Progress *)
Definition b2n (b : bool) : nat := if b then 1 else 0.
Definition work_w (l : list ent) : nat := fold_right (fun e n => 2 + 2 * b2n (redo e) + n) 0 l.
Definition work_r (l : list ent) : nat := fold_right (fun e n => 1 + 2 * b2n (redo e) + n) 0 l.
Definition work (q : queue) : nat := work_r (runq q) + work_w (waitq q).
Lemma work_w_app a b : work_w (a ++ b) = work_w a + work_w b.
Proof. induction a; cbn [app work_w fold_right]; [reflexivity|]. fold (work_w (a0 ++ b)). rewrite IHa. fold (work_w a0). lia. Qed.
Lemma work_r_app a b : work_r (a ++ b) = work_r a + work_r b.
Proof. induction a; cbn [app work_r fold_right]; [reflexivity|]. fold (work_r (a0 ++ b)). rewrite IHa. fold (work_r a0). lia. Qed.
Lemma cleanup_work ended l keep again ev : cleanup ended l = (keep, again, ev) -> work_r l = work_r keep + work_w again + length ev.
Proof.
  revert keep again ev. induction l as [|e l IH]; intros keep again ev E; [injection E as <- <- <-; reflexivity|]. rewrite cleanup_cons in E. destruct (cleanup ended l) as [[k a] v]. specialize (IH _ _ _ eq_refl). cbn [work_r fold_right]. fold (work_r l). destruct (ended (proc e)); injection E as <- <- <-.
  - rewrite work_w_app. cbn [length]. destruct (redo e); cbn; lia.
  - cbn [work_r fold_right]. fold (work_r k). lia.
Qed.
Lemma cleanup_event ended l keep again ev : cleanup ended l = (keep, again, ev) -> (exists x, In x l /\ ended (proc x) = true) -> 1 <= length ev.
Proof.
  revert keep again ev. induction l as [|e l IH]; intros keep again ev E (x & I & X); [contradiction|]. rewrite cleanup_cons in E. destruct (cleanup ended l) as [[k a] v] eqn:C. destruct (ended (proc e)) eqn:Q; injection E as <- <- <-; [cbn; lia|]. eapply IH; [reflexivity|]. exists x. split; [|exact X]. destruct I as [<-|I]; [congruence|exact I].
Qed.
Lemma start_work max wq : forall rq rq' wq' ev, start max rq wq = (rq', wq', ev) -> work_r rq + work_w wq = work_r rq' + work_w wq' + length ev.
Proof.
  induction wq as [|e wq IH]; intros rq rq' wq' ev E; [injection E as <- <- <-; cbn; lia|]. rewrite start_cons in E.
  destruct (length rq <? max); [|injection E as <- <- <-; cbn; lia]. destruct (_ && _); [injection E as <- <- <-; cbn; lia|]. destruct (cookie_running rq); [injection E as <- <- <-; cbn; lia|].
  destruct (start max (rq ++ [e]) wq) as [[r1 w1] v1] eqn:S. injection E as <- <- <-. specialize (IH _ _ _ _ S). rewrite work_r_app in IH. cbn [work_w fold_right length]. fold (work_w wq). cbn in IH. lia.
Qed.
Lemma go_work max ended q q' ev : go max ended q = Ok (q', ev) -> work q = work q' + length ev.
Proof.
  unfold go. destruct (cleanup ended (runq q)) as [[keep again] ev1] eqn:C. destruct (start max keep (waitq q ++ again)) as [[rq wq] ev2] eqn:S. destruct (length rq <=? max); [|discriminate]. intros E. injection E as <- <-. unfold work. cbn [runq waitq].
  rewrite (cleanup_work _ _ _ _ _ C). pose proof (start_work _ _ _ _ _ _ S) as W. rewrite work_w_app in W. rewrite app_length. lia.
Qed.
Lemma go_moves max ended q q' ev : 1 <= max -> go max ended q = Ok (q', ev) -> runq q ++ waitq q <> [] -> (runq q = [] \/ exists x, In x (runq q) /\ ended (proc x) = true) -> 1 <= length ev.
Proof.
  intros M. unfold go. destruct (cleanup ended (runq q)) as [[keep again] ev1] eqn:C. destruct (start max keep (waitq q ++ again)) as [[rq wq] ev2] eqn:S. destruct (length rq <=? max); [|discriminate]. intros E Ne [Q|Q]; injection E as <- <-; rewrite app_length.
  - rewrite Q in *. cbn in C. injection C as <- <- <-. cbn [app] in Ne. rewrite app_nil_r in S. destruct (waitq q) as [|e r]; [congruence|]. rewrite start_cons in S. cbn [length isempty cookie_running existsb] in S. destruct (Nat.ltb_spec 0 max); [|lia]. rewrite andb_false_r in S. destruct (start max ([] ++ [e]) r) as [[r1 w1] v1]. injection S as <- <- <-. cbn. lia.
  - pose proof (cleanup_event _ _ _ _ _ C Q). lia.
Qed.
Lemma go_accounted J max ended q q' ev tr : inv max q -> go max ended q = Ok (q', ev) -> accounted J q tr -> accounted J q' (tr ++ ev).
Proof.
  intros [G [_ Rd]]. unfold go. destruct (cleanup ended (runq q)) as [[keep again] ev1] eqn:Cl. destruct (start max keep (waitq q ++ again)) as [[rq wq] ev2] eqn:S. destruct (length rq <=? max); [|discriminate]. intros E A. injection E as <- <-.
  destruct (cleanup_ok _ _ _ _ _ Cl) as (Sb & Fa & Ka). destruct (start_live _ _ _ _ _ _ S (good_sub _ _ _ Sb G)) as (_ & _ & _ & E2 & _).
  intros j Hj. cbn [runq waitq]. rewrite <- E2. destruct (A j Hj) as [Q|(e & Ie & Ze & Pe)]; [left; apply in_or_app; left; exact Q|]. apply in_app_or in Ie. destruct Ie as [Ie|Ie].
  - destruct (Ka e Ie) as [Q|[Q _]]; [right; exists e; split; [apply in_or_app; left; exact Q|auto]|left; apply in_or_app; right; apply in_or_app; left; rewrite <- Ze, <- Pe; exact Q].
  - right. exists e. split; [apply in_or_app; right; apply in_or_app; left; exact Ie|auto].
Qed.
Lemma add_accounted J q c p tr : accounted J q tr -> accounted (J ++ if c =? 0 then [p] else []) (add q c p) tr.
Proof.
  intros A. set (x := {| cookie := c; proc := p; redo := false |}).
  assert (Fresh : accounted J {| runq := runq q; waitq := waitq q ++ [x] |} tr).
  { intros j Hj. destruct (A j Hj) as [Q|(e & Ie & Q)]; [left; exact Q|right; exists e; split; [cbn [runq waitq]; rewrite app_assoc; apply in_or_app; left; exact Ie|exact Q]]. }
  unfold add. destruct (Nat.eqb_spec c 0) as [->|C].
  - intros j Hj. apply in_app_or in Hj. destruct Hj as [Hj|[<-|[]]]; [apply Fresh, Hj|]. right. exists x. split; [cbn [runq waitq]; rewrite app_assoc; apply in_or_app; right; left; reflexivity|auto].
  - rewrite app_nil_r. destruct (mark c (waitq q)) as [w|] eqn:M; [|exact Fresh]. destruct (mark_shape _ _ _ M) as (u & e & v & E & Ce & _ & ->). cbn [runq waitq].
    intros j Hj. destruct (A j Hj) as [Q|(z & Iz & Zz & Pz)]; [left; exact Q|right; exists z; split; [|auto]]. cbn [runq waitq]. rewrite E in Iz. apply in_app_or in Iz. apply in_or_app. destruct Iz as [Iz|Iz]; [left; exact Iz|right]. apply in_app_or in Iz. apply in_or_app. destruct Iz as [Iz|[<-|Iz]]; [left; exact Iz|congruence|right; right; exact Iz].
Qed.
Lemma run_accounted max l : forall J q q' ev tr, inv max q -> NoDup (added l) -> (forall p, In p (added l) -> ~ In p (ids (runq q ++ waitq q))) ->
  run max q l = Ok (q', ev) -> accounted J q tr -> accounted (J ++ jobs_added l) q' (tr ++ ev).
Proof.
  induction l as [|o l IH]; intros J q q' ev tr I N F E A; cbn [run] in E.
  - injection E as <- <-. cbn. rewrite !app_nil_r. exact A.
  - destruct o as [c p|ended]; cbn [step] in E.
    + cbn [bind] in E. cbn [added flat_map app] in *. inversion N as [|x y Np N' Exy]; subst. destruct (add_ok max q c p I (F p (or_introl eq_refl))) as (I1 & Er & Ic). destruct (run max (add q c p) l) as [[q1 e1]| |] eqn:R; try discriminate. cbn [bind app] in E. injection E as <- <-.
      replace (J ++ jobs_added (Add c p :: l)) with ((J ++ if c =? 0 then [p] else []) ++ jobs_added l) by (rewrite <- app_assoc; destruct c; reflexivity).
      eapply IH; [exact I1|exact N'| |exact R|apply add_accounted, A]. intros x Hx Q. apply Ic in Q. destruct Q as [<-|Q]; [contradiction|]. apply (F x (or_intror Hx) Q).
    + destruct (go max ended q) as [[q1 e1]| |] eqn:G; try discriminate. cbn [bind] in E. destruct (run max q1 l) as [[q2 e2]| |] eqn:R; try discriminate. cbn [bind] in E. injection E as <- <-.
      destruct (go_ok max ended q I) as (q1' & ev1' & E1 & I1 & _ & _ & C1). rewrite G in E1. injection E1 as <- <-. rewrite app_assoc. eapply (IH J); [exact I1|exact N|intros x Hx Q; apply (F x Hx), C1, Q|exact R|]. eapply go_accounted; [exact I|exact G|exact A].
Qed.
