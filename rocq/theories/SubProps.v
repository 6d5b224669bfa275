(** C105: waiting for subprocesses and stopping them. *)
From Verif Require Import Base SubSpec SubModel SubProofs.
From Coq Require Import ZArith Lia.
Local Open Scope Z_scope.

(** A subprocess: just started, or later *)
Example C105_started p e l : 1 < p -> Forall (fun q => 1 < q) l -> good (St p true e l).
Proof. intros H L. split; [apply sane_iff; intros _; left; cbn; lia|right; exact H|exact L]. Qed.

(** wait() and stop() fail no assertion and leave things such that they can be called again,
    unless the pid file says 1. *)
Theorem C105_safe_partial s ts delay c gone : good s -> Forall (fun t => pidfile t <> 1) ts ->
  (wait delay c ts s <> Fault /\ forall s' ts', wait delay c ts s = Ok (s', ts') -> good s')
  /\ (stop delay c gone ts s <> Fault /\ forall s' ts' l, stop delay c gone ts s = Ok (s', ts', l) -> good s').
Proof.
  intros G T. destruct (wait_spec delay c ts s T G) as [A B']. destruct (stop_spec delay c gone ts s T G) as [C D].
  split; split; auto; intros; [eapply B'; eassumption|eapply D; eassumption].
Qed.
(** When stop() returns, the subprocess does not run; and with its children, each process
    that was looked after was seen to have no group any more. *)
Theorem C105_stopped s ts delay c gone s' ts' l : good s -> Forall (fun t => pidfile t <> 1) ts -> stop delay c gone ts s = Ok (s', ts', l) ->
  running s' = false
  /\ (running s = true -> pid s' = -1)
  /\ (running s = true -> c = true -> old_pids s' = [] /\ forall p, 0 < p -> p = pid s \/ In p (old_pids s) -> exists t, In t ts /\ alive t p = false).
Proof.
  intros G T E. destruct (stop_spec delay c gone ts s T G) as [_ D]. destruct (D _ _ _ E) as (_ & R & P & us & -> & H & _).
  split; [exact R|]. split; [intros Hr; now apply P|]. intros Hr Hc. destruct (P Hr) as [Q O]. specialize (O Hc). split; [exact O|].
  intros p Hp Hi. destruct (H p) as [K|[K|(t & Ht & K)]].
  - destruct Hi as [-> |Hi]; [now left|now right].
  - unfold own in K. rewrite Q, O in K. destruct K as [K|[]]. lia.
  - lia.
  - exists t. rewrite in_app_iff. auto.
Qed.
(** stop() signals only the processes that were looked after, or that the pid file named
    meanwhile; never all processes, the own group or init. *)
Theorem C105_signals s ts delay c gone s' ts' l t g : good s -> Forall (fun t => pidfile t <> 1) ts -> stop delay c gone ts s = Ok (s', ts', l) -> In (t, g) l ->
  (g = TERM \/ g = KILL) /\ 1 < Z.abs t /\ (Z.abs t = pid s \/ In (Z.abs t) (old_pids s) \/ exists u, In u ts /\ Z.abs t = pidfile u).
Proof.
  intros G T E I. destruct (stop_spec delay c gone ts s T G) as [_ D]. destruct (D _ _ _ E) as (_ & _ & _ & us & -> & _ & F).
  destruct (F t g I) as (X & Y & Z0). split; [exact X|]. split; [exact Y|]. destruct Z0 as [[K|K]|(u & Hu & K)]; [auto|auto|].
  right; right. exists u. rewrite in_app_iff. auto.
Qed.
(** kill() reaches the group of each process that is looked after. *)
Theorem C105_kill s sig gone : good s -> exists r, kill sig gone s = Ok r /\ forall p, 0 < p -> p = pid s \/ In p (old_pids s) -> In (- p, sig) r.
Proof.
  intros G. destruct (kill_spec sig gone s G) as (r & E & _ & H). exists r. split; [exact E|]. intros p Hp Hi. apply H; [|lia].
  destruct Hi as [-> |Hi]; [now left|now right].
Qed.
(** What waitpid() told is the status, without a pid file: it changes only when the process
    ends, and then it is the process's. *)
Theorem C105_status_partial delay c ts s s' ts' : Forall (fun t => pidfile t <= 0 /\ answer t <> NoChild) ts -> wait delay c ts s = Ok (s', ts') ->
  (pid s' = pid s /\ estatus s' = estatus s)
  \/ (0 < pid s /\ pid s' = -1 /\ exists us t vs x, ts = us ++ t :: vs ++ ts' /\ Forall (fun u => answer u = Still \/ answer u = Failed) us /\ answer t = Exited x /\ estatus s' = Some x).
Proof. apply wait_status. Qed.
(** Waiting without limit returns in the round in which the process ends and its children, if
    they are waited for, are gone; also if the pid file names the process itself. *)
Theorem C105_returns c us t ts s x : good s -> running s = true -> 0 < pid s -> Forall (fun u => answer u = Still \/ answer u = Failed) us ->
  answer t = Exited x -> pidfile t <= 0 \/ pidfile t = pid s -> (c = true -> forall p, p = pid s \/ In p (old_pids s) -> alive t p = false) ->
  exists s', wait (-1) c (us ++ t :: ts) s = Ok (s', ts) /\ running s' = false /\ pid s' = -1 /\ estatus s' = Some x /\ (c = true -> old_pids s' = []).
Proof.
  intros [Gs _ _] R P F A X C. unfold wait. rewrite Gs, R. cbn [orb]. apply loop_ends; auto.
  intros Hc p [<- |Hi]; apply C; auto.
Qed.
(** wait(0) never waits: a single round. *)
Theorem C105_poll c t ts s : good s -> exists s', wait 0 c (t :: ts) s = Ok (s', ts) \/ wait 0 c (t :: ts) s = Ok (s, t :: ts).
Proof.
  intros [Gs _ _]. unfold wait. rewrite Gs. destruct (running s || _)%bool; [|exists s; now right].
  cbn [loop]. destruct (round s None c t) as [[m ms] x]. rewrite Bool.andb_false_r. cbn [andb]. eexists. left. reflexivity.
Qed.
(** SIGTERM comes first, SIGKILL later; if the children are to be spared, only processes are
    signalled, no groups. *)
Theorem C105_gentle s ts delay c gone s' ts' l : good s -> Forall (fun t => pidfile t <> 1) ts -> stop delay c gone ts s = Ok (s', ts', l) ->
  exists a b, l = a ++ b /\ Forall (fun x => snd x = TERM) a /\ Forall (fun x => snd x = KILL) b /\ (c = false -> Forall (fun x : signal => 0 < fst x) l).
Proof. intros G T E. eapply stop_shape; eassumption. Qed.
(** A process that still runs when stop() is called is sent SIGTERM, and if it still runs when
    the time is over SIGKILL. *)
Theorem C105_escalates s t u ts delay c gone s' ts' l : good s -> running s = true -> 0 < pid s -> answer t = Still -> stop delay c gone (t :: ts) s = Ok (s', ts', l) ->
  In (if c then - pid s else pid s, TERM) l
  /\ (answer u = Still -> delay = 0 \/ (0 < delay /\ late u = true) -> hd_error ts = Some u -> In (if c then - pid s else pid s, KILL) l).
Proof.
  intros G R P A. unfold stop. rewrite (wait_still 0 true t ts s G R P A (or_introl eq_refl)). cbn [bind]. rewrite R.
  destruct (kop_main c TERM gone s G R P) as (a & -> & Ia). cbn [bind]. intros E. split.
  - destruct (wait delay c ts s) as [[s2 ts2]| |]; cbn [bind] in E; [|discriminate|discriminate].
    destruct (running s2); [|inversion E; subst; exact Ia].
    destruct (kill_or_primary c KILL gone s2) as [b| |]; cbn [bind] in E; [|discriminate|discriminate].
    destruct (wait (-1) c ts2 s2) as [[s3 ts3]| |]; cbn [bind] in E; [|discriminate|discriminate].
    inversion E; subst. apply in_app_iff. now left.
  - intros U D Hh. destruct ts as [|v ts]; [discriminate|]. inversion Hh; subst v. revert E.
    rewrite (wait_still delay c u ts s G R P U D). cbn [bind]. rewrite R.
    destruct (kop_main c KILL gone s G R P) as (b & -> & Ib). cbn [bind].
    destruct (wait (-1) c ts s) as [[s3 ts3]| |]; cbn [bind]; [|discriminate|discriminate].
    intros E. inversion E; subst. apply in_app_iff. now right.
Qed.
(** Waiting for the children without limit returns only when none are left, even if the main
    process was found dead before. *)
Theorem C105_children ts s s' ts' : wait (-1) true ts s = Ok (s', ts') -> running s = true \/ old_pids s <> [] -> old_pids s' = [].
Proof.
  unfold wait. destruct (sane s); [|discriminate]. intros E H.
  assert (X : (running s || (true && negb (isempty (old_pids s))))%bool = true).
  { destruct H as [-> |H]; [reflexivity|]. destruct (old_pids s); [congruence|]. apply Bool.orb_true_r. }
  rewrite X in E. revert E. apply loop_none. lia.
Qed.
(** A pid file that says 1 makes stop() fail its assertion. *)
Theorem C105_pid1_refuted : exists s ts delay gone, good s /\ stop delay true gone ts s = Fault.
Proof.
  exists (St 100 true None []), [Tick (Exited 0) 1 (fun _ => true) false], 0, (fun _ => false).
  split; [apply C105_started; [lia|constructor]|reflexivity].
Qed.
(** With a pid file, the status that waitpid() told is lost: the process it names is no child,
    so that the next wait() copies a variable that was never written. *)
Theorem C105_status_refuted : exists s ts s1 ts1 s2 ts2 x, good s /\ wait 0 true ts s = Ok (s1, ts1) /\ estatus s1 = Some x /\ wait 0 true ts1 s1 = Ok (s2, ts2) /\ estatus s2 = None.
Proof.
  exists (St 100 true None []), [Tick (Exited 7) 200 (fun _ => true) false; Tick NoChild 200 (fun _ => true) false].
  do 4 eexists. exists 7. split; [apply C105_started; [lia|constructor]|]. repeat split; reflexivity.
Qed.
(** After wait(x, false) has found the main process dead, stop() does not stop its children
    although it is told to: it sends nothing and leaves them. *)
Theorem C105_children_refuted : exists s ts s1 ts1 s2 ts2 gone, good s /\ running s = true /\ wait (-1) false ts s = Ok (s1, ts1)
  /\ stop (-1) true gone ts1 s1 = Ok (s2, ts2, []) /\ old_pids s2 = [pid s] /\ Forall (fun t => alive t (pid s) = true) ts.
Proof.
  exists (St 100 true None []), [Tick (Exited 0) (-1) (fun _ => true) false; Tick Still (-1) (fun _ => true) false].
  do 4 eexists. exists (fun _ => false). split; [apply C105_started; [lia|constructor]|]. repeat split; try reflexivity. repeat constructor.
Qed.
(** A process that ignores SIGTERM: both signals are sent to its group; the leftover child is
    gone in the last round. *)
Example C105_stop_example : let up := Tick Still (-1) (fun _ => true) true in
  stop 50 true (fun _ => false) [up; up; Tick (Exited 9) (-1) (fun _ => true) false; Tick Still (-1) (fun _ => false) false] (St 100 true None [])
  = Ok (St (-1) false (Some 9) [], [], [(-100, TERM); (-100, KILL)]).
Proof. reflexivity. Qed.

Print Assumptions C105_safe_partial.
Print Assumptions C105_stopped.
Print Assumptions C105_signals.
Print Assumptions C105_kill.
Print Assumptions C105_status_partial.
Print Assumptions C105_returns.
Print Assumptions C105_poll.
Print Assumptions C105_gentle.
Print Assumptions C105_escalates.
Print Assumptions C105_children.
Print Assumptions C105_pid1_refuted.
Print Assumptions C105_status_refuted.
Print Assumptions C105_children_refuted.
