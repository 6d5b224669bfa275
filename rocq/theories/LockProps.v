(** Lock files: WvLockDev and WvLockFile *)
From Verif Require Import Base Ctype DecSpec UrlModel IntFmtModel IntFmtProofs LockModel LockSpec LockProofs LockProofs2 LockProofs3.
Local Open Scope nat_scope.

(** *** Mutual exclusion *)
(** WvLockDev: at most one object, in all processes, holds the lock, and then the lock file is
    there: if no two calls of lock() overlap, whatever else happens at the same time,
    wherever processes end, and whatever the lock file said at first *)
Theorem C75_dev_serial (w : world) (o : option bytes) (l : list event) : what w = Dev -> good_pids w -> (forall t, o = Some t -> readable t) ->
  always one_lock_at_a_time w (init o) l ->
  exists s, run w (init o) l = Ok s /\ (forall a b, 0 < held w (past s) a -> 0 < held w (past s) b -> a = b) /\ forall a, 0 < held w (past s) a -> lockfile s <> None.
Proof.
  intros D P R A. destruct (always_run w (serial w) one_lock_at_a_time) with (l := l) (s := init o) as (s & E & K & B); [intros; apply serial_step; auto|apply serial_init; exact R|apply book_init|exact A|].
  exists s. split; [exact E|]. assert (O : forall a, 0 < held w (past s) a -> owner s a) by (intros a H; left; rewrite (b_count w s B); lia). split.
  - intros a b Ha Hb. apply (o_uniq w s (r_own w s K)); auto.
  - intros a Ha. destruct (o_text w s (r_own w s K) a (O a Ha)) as (i & Ei & _). unfold lockfile. rewrite Ei. discriminate.
Qed.
Print Assumptions C75_dev_serial.
(** ... and if all calls overlap as they like, but processes end only when they do not hold the
    lock and nobody is looking *)
Theorem C75_dev_orderly (w : world) (l : list event) : what w = Dev -> good_pids w -> always (orderly_ends w) w (init None) l ->
  exists s, run w (init None) l = Ok s /\ (forall a b, 0 < held w (past s) a -> 0 < held w (past s) b -> a = b) /\ forall a, 0 < held w (past s) a -> lockfile s <> None.
Proof.
  intros D P A. destruct (always_run w (calm w) (orderly_ends w)) with (l := l) (s := init None) as (s & E & K & B); [intros; apply calm_step; auto|apply calm_init|apply book_init|exact A|].
  exists s. split; [exact E|]. assert (O : forall a, 0 < held w (past s) a -> owner s a) by (intros a H; left; rewrite (b_count w s B); lia). split.
  - intros a b Ha Hb. apply (o_uniq w s (c_own w s K)); auto.
  - intros a Ha. destruct (o_text w s (c_own w s K) a (O a Ha)) as (i & Ei & _). unfold lockfile. rewrite Ei. discriminate.
Qed.
Print Assumptions C75_dev_orderly.
(** WvLockFile: at most one process holds the lock, and then the file says its number, if calls
    of lock() and unlock() overlap nothing; wherever processes end *)
Theorem C75_file (w : world) (o : option bytes) (l : list event) : what w = File -> good_pids w -> (forall a b, proc w a = proc w b -> a = b) -> (forall t, o = Some t -> readable t) ->
  always one_at_a_time w (init o) l ->
  exists s, run w (init o) l = Ok s /\ (forall a b, 0 < held w (past s) a -> 0 < held w (past s) b -> a = b) /\
    forall a, 0 < held w (past s) a -> saying (lockfile s) (SaysPid (pid w (proc w a))).
Proof.
  intros D P J R A. destruct (always_run w (excl w) one_at_a_time) with (l := l) (s := init o) as (s & E & K & B); [intros; apply excl_step; auto|apply excl_init; exact R|apply book_init|exact A|].
  exists s. split; [exact E|]. assert (O : forall a, 0 < held w (past s) a -> holder s a) by (intros a H; unfold holder; rewrite (b_count w s B); lia). split.
  - intros a b Ha Hb. apply (x_uniq w s K); auto.
  - intros a Ha. destruct (x_text w s K a (O a Ha)) as (i & Ei & T). unfold lockfile. rewrite Ei. cbn. rewrite T. pose proof (P (proc w a)) as Pa. exists (sdec (pid w (proc w a))). split; [apply ft_line; exact Pa|]. split; [apply me_atoi; exact Pa|].
    destruct (me_digits _ Pa) as [Hd Hn]. pose proof (trim_spaces 0 _ Hd Hn) as Q. cbn [repeat app] in Q. rewrite Q. apply me_atoi. exact Pa.
Qed.
Print Assumptions C75_file.

(** *** What each call does when nothing interrupts it *)
Fixpoint eval (n : nat) (w : world) (s : st) (p : prog) : option (st * Z) :=
  match p with
  | Ret r => Some (s, r)
  | Undef => None
  | _ => match n with O => None | S n => let (s, p) := syscall w s p false in eval n w s p end
  end.
Definition same_files (s s' : st) : Prop := named s' = named s /\ texts s' = texts s /\ fresh s' = fresh s /\ live s' = live s.
Lemma syscall_same w s s' p : same_files s s' -> snd (syscall w s' p false) = snd (syscall w s p false) /\ same_files (fst (syscall w s p false)) (fst (syscall w s' p false)).
Proof.
  intros (E1 & E2 & E3 & E4). destruct p; cbn; unfold gone; rewrite ?E1, ?E2, ?E3, ?E4; try (split; [reflexivity|repeat split; assumption]).
  - destruct (named s) eqn:En; cbn; (split; [reflexivity|]); unfold same_files; cbn; rewrite ?E1, ?E2, ?E3, ?E4; auto.
  - destruct (named s) eqn:En; cbn; (split; [reflexivity|]); unfold same_files; cbn; rewrite ?E1, ?E2, ?E3, ?E4; auto.
Qed.
Lemma idle_go w a n s : busy s a = None -> run w s (repeat (Go a false) n) = Ok s.
Proof. intros H. induction n as [|n IH]; [reflexivity|]. cbn [repeat run step]. rewrite H. exact IH. Qed.
Lemma eval_go w a c n : forall s s0 p s1 r, same_files s0 s -> busy s a = Some (c, p) -> (forall r, p <> Ret r) -> eval n w s0 p = Some (s1, r) ->
  exists s', run w s (repeat (Go a false) n) = Ok s' /\ same_files s1 s' /\ past s' = past s ++ [Returned a c r].
Proof.
  induction n as [|n IH]; intros s s0 p s1 r Sm Hb Np E; [destruct p; try discriminate; destruct (Np _ eq_refl)|].
  assert (E' : (let (s2, p2) := syscall w s0 p false in eval n w s2 p2) = Some (s1, r)) by (destruct p; try exact E; [destruct (Np _ eq_refl)|discriminate]). clear E.
  cbn [repeat run step]. rewrite Hb. destruct (syscall_same w s0 s p Sm) as [Ep Es]. destruct (syscall w s0 p false) as [s2 p2]. pose proof (syscall_rest w s p false) as Rs. destruct (syscall w s p false) as [s3 p3]. cbn [fst snd] in *. subst p3. destruct Rs as (R1 & R2 & R3 & R4).
  destruct (match p2 with Ret r => Some (inl r) | Undef => Some (inr tt) | _ => None end) as [[r'|[]]|] eqn:Ek.
  - assert (p2 = Ret r') by (destruct p2; congruence). subst p2. assert (Q : Some (s2, r') = Some (s1, r)) by (destruct n; exact E'). injection Q as <- <-. cbn [go_on bind]. rewrite idle_go by (unfold returned; destruct c; [destruct (r' =? 0)%Z|..]; cbn; apply upd_same). eexists. split; [reflexivity|].
    unfold returned, same_files in *. destruct c; [destruct (r' =? 0)%Z|..]; cbn; rewrite R4; tauto.
  - assert (p2 = Undef) by (destruct p2; congruence). subst p2. destruct n; discriminate.
  - assert (G : go_on s3 a c p2 = Ok (set_busy s3 (upd (busy s3) a (Some (c, p2))))) by (destruct p2; try reflexivity; discriminate). rewrite G. cbn [bind].
    destruct (IH (set_busy s3 (upd (busy s3) a (Some (c, p2)))) s2 p2 s1 r) as (s' & Er & Sm' & Ps); [exact Es|cbn; apply upd_same|intros r' ->; discriminate|exact E'|]. exists s'. split; [exact Er|]. split; [exact Sm'|]. rewrite Ps. cbn. rewrite R4. reflexivity.
Qed.
Lemma alone_result w s a c p s1 r (F : option bytes -> Prop) :
  (exists s0, same_files s s0 /\ past s0 = past s ++ [Called a c] /\ step w s (Call a c) = Ok (set_busy s0 (upd (busy s0) a (Some (c, p))))) -> (forall r, p <> Ret r) ->
  eval 9 w s p = Some (s1, r) -> F (lockfile s1) -> result w s a c r F.
Proof.
  intros (s0 & S0 & P0 & Es) Np E Hf. unfold result, alone. cbn [run]. rewrite Es. cbn [bind].
  destruct (eval_go w a c 9 (set_busy s0 (upd (busy s0) a (Some (c, p)))) s p s1 r) as (s' & Er & Sm & Ps); [exact S0|cbn; apply upd_same|exact Np|exact E|].
  exists s'. split; [exact Er|]. split; [rewrite Ps; cbn; rewrite P0, <- app_assoc; reflexivity|]. destruct Sm as (E1 & E2 & _). unfold lockfile in *. rewrite E1, E2. exact Hf.
Qed.
Lemma own_ft me : (0 < me < 2 ^ 31)%Z -> saying (Some (ft me)) (SaysPid me).
Proof.
  intros R. cbn. exists (sdec me). split; [apply ft_line; exact R|]. split; [apply me_atoi; exact R|]. destruct (me_digits _ R) as [Hd Hn]. pose proof (trim_spaces 0 _ Hd Hn) as Q. cbn [repeat app] in Q. rewrite Q. apply me_atoi. exact R.
Qed.
Lemma own_dt me : (0 < me < 2 ^ 31)%Z -> saying (Some (dt me)) (SaysPid me).
Proof.
  intros R. cbn. destruct (dt_line me R) as (l & E & T). exists l. split; [exact E|]. rewrite T, me_atoi by exact R. split; [|reflexivity]. destruct (dt_readable me R l E) as [[z Ez] _].
  assert (El : l = repeat " "%char (10 - length (sdec me)) ++ sdec me).
  { unfold dt in E. rewrite app_assoc, line_plain in E; [congruence|]. apply Forall_app. split; [apply Forall_forall; intros c H; apply repeat_spec in H; subst c; auto|]. eapply Forall_impl; [|apply me_digits; exact R]. intros c H. pose proof (isd_not c H). tauto. }
  subst l. unfold atoi. rewrite skip_spaces. exact (me_atoi me R).
Qed.
Lemma gone_living w s p : gone w s p false = true <-> (0 < p)%Z /\ ~ living w s p.
Proof.
  unfold gone, living. destruct (Z.ltb_spec 0 p) as [H|H].
  - rewrite negb_true_iff. split.
    + intros E. split; [exact H|]. intros (n & Hn & Ep). assert (T : existsb (fun n => (pid w n =? p)%Z) (live s) = true) by (apply existsb_exists; exists n; rewrite Ep, Z.eqb_refl; auto). congruence.
    + intros [_ N]. destruct (existsb _ _) eqn:T; [|reflexivity]. exfalso. apply N. apply existsb_exists in T. destruct T as (n & Hn & E). apply Z.eqb_eq in E. eauto.
  - destruct (p <? -1)%Z; split; try discriminate; lia.
Qed.
Section Alone.
Variables (w : world) (s : st) (a : nat) (x : says).
Hypothesis P : good_pids w.
Hypothesis Hl : In (proc w a) (live s).
Hypothesis Hb : busy s a = None.
Hypothesis Hx : saying (lockfile s) x.
Notation me := (pid w (proc w a)).
Lemma called_file c : what w = File -> exists s0, same_files s s0 /\ past s0 = past s ++ [Called a c] /\
  step w s (Call a c) = Ok (set_busy s0 (upd (busy s0) a (Some (c, match c with Lock => file_lock me | Unlock => file_unlock me | Check => file_check me end)))).
Proof. intros D. cbn [step]. rewrite (proj2 (is_live_in s (proc w a)) Hl), Hb, D. destruct c; (eexists; split; [|split; [|reflexivity]]; [repeat split; reflexivity|reflexivity]). Qed.
Lemma called_dev c p : what w = Dev -> (c = Lock /\ count s a = 0 /\ p = dev_lock me) \/ (c = Unlock /\ count s a = 1 /\ p = dev_unlock) -> exists s0, same_files s s0 /\ past s0 = past s ++ [Called a c] /\
  step w s (Call a c) = Ok (set_busy s0 (upd (busy s0) a (Some (c, p)))).
Proof. intros D H. cbn [step]. rewrite (proj2 (is_live_in s (proc w a)) Hl), Hb, D. destruct H as [(-> & Ec & ->)|(-> & Ec & ->)]; cbn [call_dev count note]; rewrite Ec; (eexists; split; [|split; [|reflexivity]]; [repeat split; reflexivity|reflexivity]). Qed.
Lemma eval_more n : forall m s p y, eval n w s p = Some y -> eval (n + m) w s p = Some y.
Proof. induction n as [|n IH]; intros m s0 p y H; [destruct p; try discriminate; destruct m; exact H|]. destruct p; cbn [eval Nat.add] in *; try exact H; destruct (syscall w s0 _ false); auto. Qed.
Definition cleaned (s : st) : st := match named s with None => s | Some _ => set_fs s None (texts s) (fresh s) end.
Lemma cleaned_file s0 : lockfile (cleaned s0) = None.
Proof. unfold cleaned, lockfile. destruct (named s0) eqn:E; [reflexivity|rewrite E; reflexivity]. Qed.
Notation open x := (vacant w s x).
Lemma open_dec : open x \/ ~ open x.
Proof. destruct x as [| |p]; cbn; auto. destruct (gone w s p false) eqn:G; [left; apply gone_living; exact G|right; intros H; apply gone_living in H; congruence]. Qed.
Lemma eval_unlink s0 k n y : eval n w (cleaned s0) (k 0%Z) = Some y -> eval (S n) w s0 (Unlink (fun _ => k 0%Z)) = Some y.
Proof. intros H. cbn [eval syscall]. unfold cleaned in H. destruct (named s0); exact H. Qed.
Lemma e_access n s0 k : eval (S n) w s0 (Access k) = eval n w s0 (k false).
Proof. reflexivity. Qed.
Lemma e_open n s0 k : eval (S n) w s0 (OpenOld k) = eval n w s0 (k (named s0)).
Proof. reflexivity. Qed.
Lemma e_line n s0 i k : eval (S n) w s0 (Getline i k) = eval n w s0 (k (first_line (texts s0 i))).
Proof. reflexivity. Qed.
Lemma e_kill n s0 q k : eval (S n) w s0 (Kill q k) = eval n w s0 (k (gone w s0 q false)).
Proof. reflexivity. Qed.
Lemma e_unlink n s0 k : eval (S n) w s0 (Unlink k) = match named s0 with Some _ => eval n w (set_fs s0 None (texts s0) (fresh s0)) (k true) | None => eval n w s0 (k false) end.
Proof. cbn [eval syscall]. destruct (named s0); reflexivity. Qed.
Lemma e_new n s0 k : eval (S n) w s0 (OpenNew k) = match named s0 with Some _ => eval n w s0 (k Exists) | None => eval n w (set_fs s0 (Some (fresh s0)) (upd (texts s0) (fresh s0) []) (S (fresh s0))) (k (Created (fresh s0))) end.
Proof. cbn [eval syscall]. destruct (named s0); reflexivity. Qed.
Lemma e_print n s0 i t k : eval (S n) w s0 (Print i t k) = eval n w (set_fs s0 (named s0) (upd (texts s0) i (texts s0 i ++ t)) (fresh s0)) k.
Proof. reflexivity. Qed.
Lemma e_ret n s0 r : eval n w s0 (Ret r) = Some (s0, r).
Proof. destruct n; reflexivity. Qed.
Lemma eval_open k n y : open x -> eval n w (cleaned s) (k 0%Z) = Some y -> eval (5 + n) w s (readpid k) = Some y.
Proof.
  intros O E. unfold readpid. change (5 + n) with (S (S (3 + n))). rewrite e_access, e_open. unfold lockfile in Hx. destruct (named s) as [i|] eqn:En.
  - unfold opened. change (3 + n) with (S (2 + n)). rewrite e_line. destruct x as [| |p]; cbn in Hx, O; [destruct Hx| |].
    + rewrite Hx. unfold first_line, got_line, blank_file. apply eval_unlink. change (S n) with (1 + n). rewrite Nat.add_comm. apply eval_more. exact E.
    + destruct Hx as (l & El & Ea & _). rewrite El. unfold got_line. rewrite Ea. apply gone_living in O. destruct (Z.eqb_spec p (-1)) as [->|]; [discriminate|]. change (2 + n) with (S (S n)). rewrite e_kill, O. unfold asked. apply eval_unlink. exact E.
  - unfold opened, blank_file. apply eval_unlink. change (S (S n)) with (2 + n). rewrite Nat.add_comm. apply eval_more. exact E.
Qed.
Lemma eval_held k n p y : x = SaysPid p -> ~ open x -> eval n w s (k p) = Some y -> eval (5 + n) w s (readpid k) = Some y.
Proof.
  intros Ex O E. unfold readpid. change (5 + n) with (S (S (S (2 + n)))). rewrite e_access, e_open. rewrite Ex in Hx, O. unfold lockfile in Hx. destruct (named s) as [i|] eqn:En; [|destruct Hx]. cbn in Hx. destruct Hx as (l & El & Ea & _). unfold opened. rewrite e_line, El. unfold got_line. rewrite Ea.
  destruct (p =? -1)%Z; [rewrite (Nat.add_comm 2 n); apply eval_more; exact E|]. change (2 + n) with (S (S n)). rewrite e_kill. destruct (gone w s p false) eqn:G; [exfalso; apply O; apply gone_living; exact G|]. unfold asked. change (S n) with (1 + n). rewrite Nat.add_comm. apply eval_more. exact E.
Qed.
Lemma eval_make s0 t n : named s0 = None -> exists s1, eval (2 + n) w s0 (OpenNew (fun m => match m with Created i => print_text (Ok t) i | _ => Ret 0 end)) = Some (s1, 1%Z) /\ lockfile s1 = Some t.
Proof. intros E. cbn [eval syscall Nat.add]. rewrite E. cbn [print_text eval syscall]. eexists. split; [destruct n; reflexivity|]. unfold lockfile. cbn. rewrite !upd_same. reflexivity. Qed.
Lemma cleaned_none s0 : named (cleaned s0) = None.
Proof. unfold cleaned. destruct (named s0) eqn:E; [reflexivity|exact E]. Qed.
Lemma lock_file : what w = File ->
  (open x -> result w s a Lock 1 (fun f => saying f (SaysPid me))) /\ (~ open x -> result w s a Lock 0 (fun f => f = lockfile s)).
Proof.
  intros D. pose proof (P (proc w a)) as Pa. split; intros O.
  - destruct (eval_make (cleaned s) (ft me) 2 (cleaned_none s)) as (s1 & E1 & F1). eapply (alone_result w s a Lock (file_lock me) s1 1); [apply (called_file Lock D)|discriminate| |rewrite F1; apply own_ft; exact Pa].
    apply (eval_open (file_locking me) 4 _ O). unfold file_locking, is_ours. cbn [Z.eqb orb]. rewrite <- E1. cbn [eval syscall Nat.add]. rewrite cleaned_none. cbn [file_make]. rewrite file_text_is by exact Pa. reflexivity.
  - destruct x as [| |p] eqn:Ex; [destruct (O I)|destruct (O I)|]. rewrite <- Ex in *. eapply (alone_result w s a Lock (file_lock me) s 0); [apply (called_file Lock D)|discriminate| |reflexivity].
    apply (eval_held (file_locking me) 4 p _ Ex O). unfold file_locking. destruct (is_ours me p); [|reflexivity]. cbn [eval syscall]. unfold lockfile in Hx. rewrite Ex in Hx. destruct (named s); [reflexivity|destruct Hx].
Qed.
Lemma check_file : what w = File ->
  (open x -> result w s a Check 1 (fun f => f = None)) /\
  (forall p, x = SaysPid p -> ~ open x -> result w s a Check (of_bool (is_ours me p)) (fun f => f = lockfile s)).
Proof.
  intros D. split.
  - intros O. eapply (alone_result w s a Check (file_check me) (cleaned s) 1); [apply (called_file Check D)|discriminate| |apply cleaned_file]. apply (eval_open (fun q => Ret (of_bool (is_ours me q))) 4 _ O). reflexivity.
  - intros p Ex O. eapply (alone_result w s a Check (file_check me) s); [apply (called_file Check D)|discriminate| |reflexivity]. apply (eval_held (fun q => Ret (of_bool (is_ours me q))) 4 p _ Ex O). reflexivity.
Qed.
Lemma unlock_file : what w = File ->
  (open x \/ x = SaysPid 0 \/ x = SaysPid me -> result w s a Unlock 1 (fun f => f = None)) /\
  (~ open x -> x <> SaysPid 0 -> x <> SaysPid me -> result w s a Unlock 0 (fun f => f = lockfile s)).
Proof.
  intros D. pose proof (P (proc w a)) as Pa.
  assert (After : forall s0, named s0 = None -> eval 3 w s0 (readpid file_after) = Some (s0, 1%Z)) by (intros s0 E; unfold readpid; cbn; rewrite E; cbn; rewrite E; reflexivity).
  assert (Go : forall s0, eval 4 w s0 (Unlink (fun _ => readpid file_after)) = Some (cleaned s0, 1%Z)).
  { intros s0. rewrite e_unlink. destruct (named s0) as [i|] eqn:En.
    - rewrite (After (set_fs s0 None (texts s0) (fresh s0)) eq_refl). unfold cleaned. rewrite En. reflexivity.
    - rewrite (After s0 En). unfold cleaned. rewrite En. reflexivity. }
  split.
  - intros O. destruct open_dec as [Op|Op].
    + eapply (alone_result w s a Unlock (file_unlock me) (cleaned (cleaned s)) 1); [apply (called_file Unlock D)|discriminate| |apply cleaned_file]. apply (eval_open (file_unlocking me) 4 _ Op). unfold file_unlocking, is_ours. cbn [Z.eqb orb]. apply Go.
    + assert (exists p, x = SaysPid p /\ is_ours me p = true) as (p & Ex & Ho). { destruct O as [O|[O|O]]; [contradiction|exists 0%Z; auto|exists me]. split; [exact O|]. unfold is_ours. rewrite Z.eqb_refl. apply orb_true_r. }
      eapply (alone_result w s a Unlock (file_unlock me) (cleaned s) 1); [apply (called_file Unlock D)|discriminate| |apply cleaned_file]. apply (eval_held (file_unlocking me) 4 p _ Ex Op). unfold file_unlocking. rewrite Ho. apply Go.
  - intros O N0 Nm. destruct x as [| |p] eqn:Ex; [destruct (O I)|destruct (O I)|]. rewrite <- Ex in *. eapply (alone_result w s a Unlock (file_unlock me) s 0); [apply (called_file Unlock D)|discriminate| |reflexivity].
    apply (eval_held (file_unlocking me) 4 p _ Ex O). unfold file_unlocking, is_ours. destruct (Z.eqb_spec p 0) as [->|]; [congruence|]. destruct (Z.eqb_spec p me) as [->|]; [congruence|]. reflexivity.
Qed.
Lemma lock_dev : what w = Dev -> count s a = 0 ->
  (x = SaysFree \/ stale w s x -> result w s a Lock 1 (fun f => saying f (SaysPid me))) /\ (x <> SaysFree -> ~ stale w s x -> result w s a Lock 0 (fun f => f = lockfile s)).
Proof.
  intros D Ec. pose proof (P (proc w a)) as Pa. pose proof (called_dev Lock (dev_lock me) D (or_introl (conj eq_refl (conj Ec eq_refl)))) as Cl.
  assert (Ev : forall r s1, eval 9 w s (dev_lock me) = Some (s1, r) -> forall F : option bytes -> Prop, F (lockfile s1) -> result w s a Lock r F) by (intros; eapply alone_result; eauto; discriminate).
  split.
  - intros O. assert (exists s1, eval 9 w s (dev_lock me) = Some (s1, 1%Z) /\ lockfile s1 = Some (dt me)) as (s1 & E & L); [|eapply Ev; [exact E|]; rewrite L; apply own_dt; exact Pa].
    unfold dev_lock. rewrite e_new. unfold lockfile in Hx. destruct (named s) as [i|] eqn:En.
    + destruct O as [->|O]; [destruct Hx|]. destruct x as [| |p]; cbn in O; try tauto. cbn in Hx. destruct Hx as (l & El & _ & Ea). unfold dev_make. rewrite e_open, En. unfold dev_opened. rewrite e_line, El. unfold dev_line. rewrite Ea. apply gone_living in O. pose proof (proj1 (proj1 (gone_living w s p) O)) as Hp. destruct (Z.eqb_spec p 0); [lia|]. destruct (Z.eqb_spec p (-1)); [lia|]. cbn [orb]. rewrite e_kill, O. unfold dev_asked. rewrite e_unlink, En. unfold dev_removed. rewrite e_new. cbn [named set_fs]. unfold dev_again. rewrite dev_text_is by exact Pa. unfold print_text. rewrite e_print, e_ret. eexists. split; [reflexivity|]. unfold lockfile. cbn. rewrite !upd_same. reflexivity.
    + unfold dev_make. rewrite dev_text_is by exact Pa. unfold print_text. rewrite e_print, e_ret. eexists. split; [reflexivity|]. unfold lockfile. cbn. rewrite !upd_same. reflexivity.
  - intros O1 O2. eapply Ev; [|reflexivity]. unfold dev_lock. rewrite e_new. unfold lockfile in Hx. destruct (named s) as [i|] eqn:En; [|destruct x; [congruence|destruct Hx|destruct Hx]].
    unfold dev_make. rewrite e_open, En. unfold dev_opened. rewrite e_line. destruct x as [| |p]; [congruence| |].
    + cbn in Hx. rewrite Hx. apply e_ret.
    + cbn in Hx. destruct Hx as (l & El & _ & Ea). rewrite El. unfold dev_line. rewrite Ea. destruct ((p =? 0)%Z || (p =? -1)%Z); [apply e_ret|]. rewrite e_kill. destruct (gone w s p false) eqn:G; [exfalso; apply O2; apply gone_living; exact G|apply e_ret].
Qed.
Lemma unlock_dev : what w = Dev -> count s a = 1 -> result w s a Unlock 0 (fun f => f = None).
Proof.
  intros D Ec. eapply (alone_result w s a Unlock dev_unlock (cleaned s) 0); [apply (called_dev Unlock dev_unlock D); auto|discriminate| |apply cleaned_file]. unfold dev_unlock, cleaned. rewrite e_unlink. destruct (named s) eqn:En; apply e_ret.
Qed.
End Alone.

(** WvLockDev::lock() takes the lock, and writes the number of its process, if there is no lock
    file, or one of a process that has ended; else it fails and leaves the file as it is.
    unlock() removes the file. *)
Theorem C75_dev_calls (w : world) (s : st) (a : nat) (x : says) : what w = Dev -> good_pids w -> In (proc w a) (live s) -> busy s a = None -> saying (lockfile s) x ->
  (count s a = 0 -> x = SaysFree \/ stale w s x -> result w s a Lock 1 (fun f => saying f (SaysPid (pid w (proc w a))))) /\
  (count s a = 0 -> x <> SaysFree -> ~ stale w s x -> result w s a Lock 0 (fun f => f = lockfile s)) /\
  (count s a = 1 -> result w s a Unlock 0 (fun f => f = None)) /\
  (count s a <> 0 -> result w s a Lock 1 (fun f => f = lockfile s)) /\
  (count s a <> 1 -> result w s a Unlock 0 (fun f => f = lockfile s)) /\
  result w s a Check (of_bool (negb (count s a =? 0))) (fun f => f = lockfile s).
Proof.
  intros D P Hl Hb Hx.
  assert (Now : forall c s0 r, step w s (Call a c) = Ok s0 -> busy s0 a = None -> past s0 = past s ++ [Called a c; Returned a c r] -> lockfile s0 = lockfile s -> result w s a c r (fun f => f = lockfile s)).
  { intros c s0 r E B0 Ps L. exists s0. split; [|auto]. unfold alone. cbn [run]. rewrite E. apply idle_go. exact B0. }
  assert (Es : forall c, step w s (Call a c) = call_dev w (note s (Called a c)) a c) by (intros c; cbn [step]; rewrite (proj2 (is_live_in s (proc w a)) Hl), Hb, D; reflexivity).
  split; [intros Ec; eapply lock_dev; eauto|]. split; [intros Ec; eapply lock_dev; eauto|]. split; [intros Ec; eapply unlock_dev; eauto|]. split; [|split].
  - intros Ec. destruct (count s a) as [|n] eqn:En; [congruence|]. eapply Now; [rewrite Es; cbn [call_dev count note]; rewrite En; reflexivity|exact Hb|cbn; rewrite <- app_assoc; reflexivity|reflexivity].
  - intros Ec. destruct (count s a) as [|[|n]] eqn:En; [|congruence|]; (eapply Now; [rewrite Es; cbn [call_dev count note]; rewrite En; reflexivity|exact Hb|cbn; rewrite <- app_assoc; reflexivity|reflexivity]).
  - eapply Now; [rewrite Es; cbn [call_dev count note]; reflexivity|exact Hb|cbn; rewrite <- app_assoc; reflexivity|reflexivity].
Qed.
Print Assumptions C75_dev_calls.
(** WvLockFile::lock() takes the lock, and writes the number of its process, if there is no lock
    file, a blank one, or one of a process that has ended; else it fails and leaves the file as
    it is.  unlock() succeeds, and removes the file, if it is one of these, or says 0 or its own
    number.  isok() says the same, and cleans up. *)
Theorem C75_file_calls (w : world) (s : st) (a : nat) (x : says) : what w = File -> good_pids w -> In (proc w a) (live s) -> busy s a = None -> saying (lockfile s) x ->
  let me := pid w (proc w a) in
  (vacant w s x -> result w s a Lock 1 (fun f => saying f (SaysPid me)) /\ result w s a Unlock 1 (fun f => f = None) /\ result w s a Check 1 (fun f => f = None)) /\
  (forall p, x = SaysPid p -> ~ stale w s x -> result w s a Lock 0 (fun f => f = lockfile s) /\
     (p = 0%Z \/ p = me -> result w s a Unlock 1 (fun f => f = None) /\ result w s a Check 1 (fun f => f = lockfile s)) /\
     (p <> 0%Z -> p <> me -> result w s a Unlock 0 (fun f => f = lockfile s) /\ result w s a Check 0 (fun f => f = lockfile s))).
Proof.
  intros D P Hl Hb Hx me. destruct (lock_file w s a x P Hl Hb Hx D) as [L1 L2]. destruct (unlock_file w s a x P Hl Hb Hx D) as [U1 U2]. destruct (check_file w s a x Hl Hb Hx D) as [C1 C2].
  split; [intros V; split; [auto|split; auto]|]. intros p Ex N. assert (V : ~ vacant w s x) by (subst x; exact N). split; [auto|]. specialize (C2 p Ex V). unfold is_ours in C2. split.
  - intros Hp. split; [apply U1; right; destruct Hp as [->|Hp]; [auto|right; subst x p; reflexivity]|]. destruct Hp as [->| ->]; [exact C2|]. fold me in C2. rewrite Z.eqb_refl, orb_true_r in C2. exact C2.
  - intros N0 Nm. split; [apply U2; [exact V|congruence|subst x; unfold me in Nm; congruence]|]. fold me in C2. rewrite (proj2 (Z.eqb_neq p 0) N0), (proj2 (Z.eqb_neq p me) Nm) in C2. exact C2.
Qed.
Print Assumptions C75_file_calls.

(** *** What goes wrong *)
Definition few (t : style) : world := World t (fun a => a) (fun n => 100 + Z.of_nat n mod 1000)%Z.
Definition left_by_99 : option bytes := Some (B "        99" ++ [newline]).
Definition go (a n : nat) : list event := repeat (Go a false) n.
Definition seen (w : world) (s : st) (l : list event) : option (list obs * list nat * option bytes) :=
  match run w s l with Ok s => Some (past s, live s, lockfile s) | _ => None end.
Lemma seen_run w s l p n f : seen w s l = Some (p, n, f) -> exists s', run w s l = Ok s' /\ past s' = p /\ live s' = n /\ lockfile s' = f.
Proof. unfold seen. destruct (run w s l) as [s'| |]; try discriminate. intros E. injection E as <- <- <-. exists s'. auto. Qed.
Ltac see := match goal with |- exists s, run ?w ?s0 ?l = Ok s /\ _ =>
  let r := eval vm_compute in (seen w s0 l) in match r with Some (?p, ?n, ?f) =>
    let Q := fresh "Q" in assert (Q : seen w s0 l = Some (p, n, f)) by (vm_compute; reflexivity);
    let s' := fresh "s" in let E := fresh "E" in let Ep := fresh "Ep" in let En := fresh "En" in let Ef := fresh "Ef" in
    destruct (seen_run _ _ _ _ _ _ Q) as (s' & E & Ep & En & Ef); exists s'; split; [exact E|rewrite ?Ep, ?En, ?Ef; clear; repeat split; try reflexivity] end end.
(** Two processes find the lock file of one that has ended, and both take the lock *)
Theorem C75_dev_stale_refuted : exists s, run (few Dev) (init left_by_99) ([Start 1; Start 2] ++ Call 1 Lock :: go 1 4 ++ Call 2 Lock :: go 2 4 ++ go 1 3 ++ go 2 3) = Ok s /\
  held (few Dev) (past s) 1 = 1 /\ held (few Dev) (past s) 2 = 1 /\ live s = [2; 1].
Proof. see. Qed.
Print Assumptions C75_dev_stale_refuted.
(** A process ends after unlock() while another is looking at its lock file *)
Theorem C75_dev_exit_refuted : exists s, run (few Dev) (init None) ([Start 1; Start 2; Start 3] ++ Call 1 Lock :: go 1 2 ++ Call 2 Lock :: go 2 3 ++ Call 1 Unlock :: go 1 1 ++ [End 1] ++ Call 3 Lock :: go 3 2 ++ go 2 4) = Ok s /\
  held (few Dev) (past s) 2 = 1 /\ held (few Dev) (past s) 3 = 1 /\ live s = [3; 2].
Proof. see. Qed.
Print Assumptions C75_dev_exit_refuted.
(** The new lock file cannot be made, and lock() still succeeds; nor can the next one tell *)
Theorem C75_dev_open_refuted : exists s, run (few Dev) (init left_by_99) ([Start 1; Start 2] ++ Call 1 Lock :: go 1 5 ++ [Go 1 true] ++ alone 2 Lock) = Ok s /\
  held (few Dev) (past s) 1 = 1 /\ held (few Dev) (past s) 2 = 1 /\ live s = [2; 1].
Proof. see. Qed.
Print Assumptions C75_dev_open_refuted.
(** A process that ends inside lock() leaves a blank file, and nobody gets the lock any more *)
Theorem C75_dev_blank_refuted : exists s, run (few Dev) (init None) ([Start 1; Start 2] ++ Call 1 Lock :: go 1 1 ++ [End 1] ++ alone 2 Lock) = Ok s /\
  live s = [2] /\ lockfile s = Some [] /\ last (past s) (Started 0) = Returned 2 Lock 0 /\ forall a, held (few Dev) (past s) a = 0.
Proof. see. intros [|[|[|a]]]; reflexivity. Qed.
Print Assumptions C75_dev_blank_refuted.
(** Two processes lock at the same time, nobody ends and nothing fails *)
Theorem C75_file_race_refuted : exists s, run (few File) (init None) ([Start 1; Start 2] ++ Call 1 Lock :: go 1 4 ++ Call 2 Lock :: go 2 3 ++ go 1 1 ++ go 2 3) = Ok s /\
  held (few File) (past s) 1 = 1 /\ held (few File) (past s) 2 = 1 /\ live s = [2; 1].
Proof. see. Qed.
Print Assumptions C75_file_race_refuted.
(** unlock() looks once more, and removes the lock file of the next one *)
Theorem C75_file_unlock_refuted : exists s, run (few File) (init None) ([Start 1; Start 2; Start 3] ++ alone 1 Lock ++ Call 1 Unlock :: go 1 7 ++ alone 2 Lock ++ go 1 1 ++ alone 3 Lock) = Ok s /\
  held (few File) (past s) 2 = 1 /\ held (few File) (past s) 3 = 1 /\ live s = [3; 2; 1].
Proof. see. Qed.
Print Assumptions C75_file_unlock_refuted.
(** isok() that cannot open the lock file removes it *)
Theorem C75_file_open_refuted : exists s, run (few File) (init None) ([Start 1; Start 2] ++ alone 1 Lock ++ [Call 2 Check; Go 2 false; Go 2 true; Go 2 false] ++ alone 2 Lock) = Ok s /\
  held (few File) (past s) 1 = 1 /\ held (few File) (past s) 2 = 1 /\ live s = [2; 1].
Proof. see. Qed.
Print Assumptions C75_file_open_refuted.

(** *** Examples *)
Example C75_pids t : good_pids (few t).
Proof. intros n. cbn [pid few]. pose proof (Z.mod_pos_bound (Z.of_nat n) 1000 ltac:(lia)). lia. Qed.
Example C75_readable : forall t, left_by_99 = Some t -> readable t.
Proof. intros t E. injection E as <-. intros l E. vm_compute in E. injection E as <-. split; eexists; vm_compute; reflexivity. Qed.
(** The conditions, checked by computation, for objects below 4 *)
Definition small (e : event) : bool := match e with Call a _ | Go a _ => a <? 4 | _ => true end.
Fixpoint checks (cond : st -> event -> bool) (w : world) (s : st) (l : list event) : bool :=
  match l with
  | [] => true
  | e :: r => small e && cond s e && match step w s e with Ok s => checks cond w s r | _ => true end
  end.
Lemma small_step w s e s' : small e = true -> (forall b, 4 <= b -> busy s b = None) -> step w s e = Ok s' -> forall b, 4 <= b -> busy s' b = None.
Proof.
  assert (G : forall s a c p s', a < 4 -> (forall b, 4 <= b -> busy s b = None) -> go_on s a c p = Ok s' -> forall b, 4 <= b -> busy s' b = None).
  { clear. intros s a c p s' Ha H E b Hb. destruct p; cbn in E; try discriminate; injection E as <-; [|cbn; rewrite upd_other by lia; auto..]. unfold returned. destruct c; [destruct (r =? 0)%Z|..]; cbn; rewrite upd_other by lia; auto. }
  intros Se H E b Hb. destruct e as [n|n|a c|a f]; cbn [small step] in Se, E.
  - destruct (existsb _ _); injection E as <-; cbn; auto.
  - destruct (is_live s n); injection E as <-; cbn; auto. destruct (proc w b =? n); auto.
  - apply Nat.ltb_lt in Se. destruct (is_live s (proc w a)); [|injection E as <-; auto]. destruct (busy s a); [injection E as <-; auto|]. destruct (what w).
    + destruct c; cbn [call_file] in E; (eapply G; [exact Se| |exact E|exact Hb]; cbn; auto).
    + destruct c; cbn [call_dev] in E; cbn [count note] in E; [destruct (count s a)|destruct (count s a) as [|[|?]]|]; try (injection E as <-; cbn; auto; fail); (eapply G; [exact Se| |exact E|exact Hb]; cbn; auto).
  - apply Nat.ltb_lt in Se. destruct (busy s a) as [[c p]|]; [|injection E as <-; auto]. pose proof (syscall_rest w s p f) as (_ & B1 & _). destruct (syscall w s p f) as [s1 p1]. cbn in B1. eapply G; [exact Se| |exact E|exact Hb]. rewrite B1. exact H.
Qed.
Lemma checks_always w (condb : st -> event -> bool) (cond : st -> event -> Prop) (l : list event) :
  (forall s e, (forall b, 4 <= b -> busy s b = None) -> condb s e = true -> cond s e) ->
  forall s, (forall b, 4 <= b -> busy s b = None) -> checks condb w s l = true -> always cond w s l.
Proof.
  intros C. induction l as [|e l IH]; intros s H E; [exact I|]. cbn [checks] in E. apply andb_prop in E. destruct E as [E E2]. apply andb_prop in E. destruct E as [E0 E1]. cbn [always]. split; [apply C; auto|].
  destruct (step w s e) as [s'| |] eqn:Es; auto. apply IH; auto. eapply small_step; eauto.
Qed.
Definition four (s : st) (ok : option (call * prog) -> bool) : bool := ok (busy s 0) && ok (busy s 1) && ok (busy s 2) && ok (busy s 3).
Lemma four_all s ok : four s ok = true -> ok None = true -> (forall b, 4 <= b -> busy s b = None) -> forall b, ok (busy s b) = true.
Proof.
  unfold four. intros E N H b. repeat (apply andb_prop in E; destruct E as [E ?]). destruct b as [|[|[|[|b]]]]; auto. rewrite H by lia. exact N.
Qed.
Definition not_next (s : st) (a : nat) (bad : prog -> bool) : bool := match busy s a with Some (_, p) => negb (bad p) | None => true end.
Lemma not_next_ok s a bad (what : prog -> Prop) : not_next s a bad = true -> (forall p, what p -> bad p = true) -> ~ next_is s a what.
Proof. unfold not_next. intros E Q (c & p & Eb & W). rewrite Eb in E. rewrite (Q p W) in E. discriminate. Qed.
Definition serial_b (s : st) (e : event) : bool :=
  match e with
  | Call a Lock => four s (fun o => match o with Some (Lock, _) => false | _ => true end)
  | Go a true => not_next s a (fun p => match p with OpenNew _ => true | _ => false end)
  | _ => true
  end.
Lemma serial_b_ok s e : (forall b, 4 <= b -> busy s b = None) -> serial_b s e = true -> one_lock_at_a_time s e.
Proof.
  intros H E. destruct e as [n|n|a []|a []]; cbn in *; auto.
  - intros b p Eb. pose proof (four_all s _ E eq_refl H b) as Q. cbn in Q. rewrite Eb in Q. discriminate.
  - eapply not_next_ok; [exact E|]. intros []; cbn; tauto.
Qed.
Definition orderly_b (t : style) (s : st) (e : event) : bool :=
  match e with
  | End n => four s (fun o => match o with Some _ => false | _ => true end) && (held (few t) (past s) n =? 0)
  | Go a true => not_next s a (fun p => match p with Unlink _ => true | _ => false end)
  | _ => true
  end.
Lemma orderly_b_ok t s e : (forall b, 4 <= b -> busy s b = None) -> orderly_b t s e = true -> orderly_ends (few t) s e.
Proof.
  intros H E. destruct e as [n|n|a c|a []]; cbn [orderly_b orderly_ends] in *; auto.
  - apply andb_prop in E. destruct E as [E1 E2]. split; [|intros a <-; apply Nat.eqb_eq; exact E2]. intros b. pose proof (four_all s _ E1 eq_refl H b) as Q. cbn in Q. destruct (busy s b); [discriminate|reflexivity].
  - eapply not_next_ok; [exact E|]. intros []; cbn; tauto.
Qed.
Definition one_b (s : st) (e : event) : bool :=
  match e with
  | Call a Check => four s (fun o => match o with Some (Check, _) | None => true | _ => false end)
  | Call a _ => four s (fun o => match o with Some _ => false | _ => true end)
  | Go a true => not_next s a (fun p => match p with Print _ _ _ | Getline _ _ | OpenOld _ => true | _ => false end)
  | _ => true
  end.
Lemma one_b_ok s e : (forall b, 4 <= b -> busy s b = None) -> one_b s e = true -> one_at_a_time s e.
Proof.
  intros H E. destruct e as [n|n|a []|a []]; cbn [one_b one_at_a_time] in *; auto.
  1,2: intros b; pose proof (four_all s _ E eq_refl H b) as Q; cbn in Q; destruct (busy s b); [discriminate|reflexivity].
  - intros b c p Eb. pose proof (four_all s _ E eq_refl H b) as Q. cbn in Q. rewrite Eb in Q. destruct c; [discriminate|discriminate|reflexivity].
  - eapply not_next_ok; [exact E|]. intros []; cbn; tauto.
Qed.
(** An old lock file; two who look at it, one after the other; the owner ends while the other looks *)
Definition serial_case : list event := [Start 1; Start 2; Start 3] ++ Call 1 Lock :: go 1 4 ++ [Call 2 Check] ++ go 1 3 ++ Call 2 Lock :: go 2 3 ++ [End 1] ++ go 2 4 ++ Call 2 Unlock :: Call 3 Lock :: go 3 1 ++ go 2 1 ++ go 3 2 ++ alone 3 Lock.
Example C75_dev_serial_ex : always one_lock_at_a_time (few Dev) (init left_by_99) serial_case /\
  exists s, run (few Dev) (init left_by_99) serial_case = Ok s /\ held (few Dev) (past s) 3 = 1 /\ live s = [3; 2].
Proof. split; [eapply checks_always; [apply serial_b_ok|auto|vm_compute; reflexivity]|see]. Qed.
(** Three at once *)
Definition orderly_case : list event := [Start 1; Start 2; Start 3] ++ Call 1 Lock :: Call 2 Lock :: Call 3 Lock :: go 1 1 ++ go 2 2 ++ go 1 1 ++ go 2 2 ++ go 3 1 ++ Call 1 Unlock :: go 1 1 ++ go 3 1 ++ [End 1] ++ alone 2 Lock.
Example C75_dev_orderly_ex : always (orderly_ends (few Dev)) (few Dev) (init None) orderly_case /\
  exists s, run (few Dev) (init None) orderly_case = Ok s /\ held (few Dev) (past s) 2 = 1 /\ live s = [3; 2].
Proof. split; [eapply checks_always; [apply orderly_b_ok|auto|vm_compute; reflexivity]|see]. Qed.
(** Two look at once, the owner ends, and the other cleans up and locks *)
Definition file_case : list event := [Start 1; Start 2] ++ alone 1 Lock ++ Call 2 Check :: Call 1 Check :: go 2 2 ++ go 1 2 ++ [End 1] ++ go 2 5 ++ alone 2 Lock.
Example C75_file_ex : always one_at_a_time (few File) (init None) file_case /\
  exists s, run (few File) (init None) file_case = Ok s /\ held (few File) (past s) 2 = 1 /\ live s = [2].
Proof. split; [eapply checks_always; [apply one_b_ok|auto|vm_compute; reflexivity]|see]. Qed.
(** A lock of process 99, which has ended, as the calls find it *)
Example C75_calls_ex t : exists s, run (few t) (init left_by_99) [Start 1] = Ok s /\ In (proc (few t) 1) (live s) /\ busy s 1 = None /\ count s 1 = 0 /\ saying (lockfile s) (SaysPid 99) /\ stale (few t) s (SaysPid 99).
Proof.
  eexists. split; [reflexivity|]. split; [left; reflexivity|]. split; [reflexivity|]. split; [reflexivity|]. split; [eexists; split; [vm_compute; reflexivity|split; vm_compute; reflexivity]|]. split; [lia|]. intros (n & [<-|[]] & E). discriminate.
Qed.
