(** C29, C30, C31: transactions over another generator. *)
From Verif Require Import Base Ctype KeyModel KeySpec TempModel TempSpec TreeProofs TempProofs TxnModel TxnSpec TxnProofs TxnProofs2 TxnProofs3 TxnProofs4.
Local Open Scope nat_scope.

Lemma seen t k : INV t -> Forall plain k -> xget t k = view t k.
Proof. intros [W H] P. apply xget_ok; auto. Qed.
Lemma held g k : Forall plain k -> tget g k = has g k.
Proof. intros P. rewrite tget_has by (left; assumption). destruct (plain_slashed _ P) as [-> _]. reflexivity. Qed.

(** C29: whatever was done before, the transaction shows the contents the steps
    describe, and so does the base. *)
Theorem C29_get os ns t k : run xinit os ns t -> Forall good_op os -> Forall plain k ->
  xget t k = sview (steps os) k /\ tget (base t) k = sbase (steps os) k.
Proof.
  intros H G P. destruct (runs _ _ _ H G) as [(Hi & Eb & Ev & _) _]. rewrite seen, held by assumption. split; [apply Ev, P|apply Eb, P].
Qed.
(** A series of sets shows in the transaction as it would have in the base, and
    leaves the base as it was. *)
Theorem C29_own_writes os ns t hs ns' t' k : run xinit os ns t -> Forall good_op os ->
  Forall (fun h => Forall plain (fst h)) hs -> run t (map (fun h => Set_ (fst h) (snd h)) hs) ns' t' -> Forall plain k ->
  xget t' k = fold_left (fun m h => set_spec m (fst h) (snd h)) hs (xget t) k /\ tget (base t') k = tget (base t) k.
Proof.
  intros H G Ph H' P. destruct (runs _ _ _ H G) as [S _].
  assert (G' : Forall good_op (map (fun h => Set_ (fst h) (snd h)) hs)) by (apply Forall_map; exact Ph).
  destruct (run_ok _ _ _ _ H' _ S G') as ((Hi' & Eb' & Ev' & _) & _). pose proof S as (Hi & Eb & Ev & _). rewrite seen, !held by assumption. rewrite (Ev' k P), (Eb' k P), (Eb k P). clear - P Hi Ev.
  assert (E : xget t k = sview (steps os) k) by (rewrite seen by assumption; apply Ev, P). clear Ev Hi.
  revert E. generalize (steps os). generalize (xget t). induction hs as [|h hs IH]; intros m s E; cbn [fold_left map]; [auto|].
  destruct (IH (set_spec m (fst h) (snd h)) (step s (Set_ (fst h) (snd h)))) as [I1 I2]; [|split; [|exact I2]].
  - cbn [step sview]. apply set_ext, E.
  - exact I1.
Qed.
(** The iterator is null only for keys that do not exist, and otherwise lists the
    keys just below, each once, with their values. *)
Theorem C29_iterator os ns t k : run xinit os ns t -> Forall good_op os -> Forall plain k ->
  match xiter t k with
  | None => sview (steps os) k = None
  | Some l => NoDup (map (fun x => map tolower (fst x)) l) /\ Forall (fun x => plain (fst x) /\ snd x <> None) l /\
      forall s v, plain s -> sview (steps os) (k ++ [s]) = Some v <-> exists s0, In (s0, Some v) l /\ teq s0 s = true
  end.
Proof.
  intros H G P. destruct (runs _ _ _ H G) as [(Hi & _ & Ev & _) _]. pose proof (xiter_ok t k Hi P) as X. destruct (xiter t k) as [l|].
  - destruct X as (N & F & X). split; [exact N|]. split; [exact F|]. intros s v Ps. rewrite <- Ev by (apply app_one_plain; assumption). apply X, Ps.
  - rewrite <- Ev by exact P. exact X.
Qed.

(** C30: commit makes the base hold what the transaction shows, and refresh makes
    the transaction show what the base holds; neither changes the other side. *)
Theorem C30_commit os ns t t' n k : run xinit os ns t -> Forall good_op os -> xcommit t = (t', n) -> Forall plain k ->
  tget (base t') k = xget t k /\ xget t' k = xget t k.
Proof.
  intros H G E P. destruct (runs _ _ _ H G) as [S _]. pose proof S as (Hi & _). destruct (xcommit_ok t t' n Hi E) as (Hi' & B & C & _).
  rewrite !seen, held by assumption. split; [apply B, P|]. unfold view at 1. rewrite C. apply B, P.
Qed.
Theorem C30_refresh os ns t t' n k : run xinit os ns t -> Forall good_op os -> xrefresh t = (t', n) -> Forall plain k ->
  xget t' k = tget (base t) k /\ tget (base t') k = tget (base t) k.
Proof.
  intros H G E P. destruct (runs _ _ _ H G) as [S _]. pose proof S as (Hi & _). destruct (xrefresh_ok t t' n Hi E) as (Hi' & B & C & _).
  rewrite seen, !held by assumption. unfold view. rewrite C, B. auto.
Qed.

(** C31: what is notified by a set in the transaction, a set in the base and a
    refresh is exactly what changes in the transaction, except for one kind of
    set. *)
Theorem C31_exact_partial os ns t o t' n : run xinit os ns t -> Forall good_op os -> good_op o -> perform t o = (t', n) -> ~ unheard (steps os) o ->
  (forall q w, In (q, w) n -> Forall plain q /\ xget t' q = w /\ xget t q <> w) /\
  NoDup (map (fun x => map (map tolower) (fst x)) n) /\
  (forall q, Forall plain q -> xget t q <> xget t' q -> exists q0 w, In (q0, w) n /\ same q0 q = true).
Proof.
  intros H G Go E U. destruct (runs _ _ _ H G) as [S _]. destruct (perform_ok t _ o t' n S Go E) as [S' [[U' _]|[_ T]]]; [elim U; exact U'|].
  pose proof S as (Hi & _). pose proof S' as (Hi' & _).
  assert (X : n = [] /\ same_contents (view t') (view t) \/ tells (view t) (view t') n) by (destruct o; auto). destruct X as [[-> X]|[T1 A O]].
  - split; [intros q w []|]. split; [constructor|]. intros q P N. elim N. rewrite !seen by assumption. symmetry. apply X, P.
  - split; [|split; [exact O|]].
    + intros q w Hq. destruct (T1 q w Hq) as (P & A1 & A2). rewrite !seen by assumption. auto.
    + intros q P N. rewrite !seen in N by assumption. apply A; assumption.
Qed.
(** That kind of set changes the value and says nothing. *)
Theorem C31_unheard os ns t k v t' n : run xinit os ns t -> Forall good_op os -> Forall plain k -> xset t k v = (t', n) -> unheard (steps os) (Set_ k v) ->
  n = [] /\ xget t' k = v /\ xget t k <> v.
Proof.
  intros H G P E U. destruct (runs _ _ _ H G) as [S _]. destruct (perform_ok t _ (Set_ k v) t' n S P E) as [S' [[_ N]|[N _]]]; [|elim N; exact U].
  split; [exact N|]. pose proof S as (Hi & _ & Ev & _). pose proof S' as (Hi' & _ & Ev' & _). rewrite !seen by assumption. rewrite (Ev' k P), (Ev k P).
  destruct U as (_ & D & _ & (y & b & ->)). split; [|exact D]. cbn [step sview]. unfold set_spec. rewrite same_refl. reflexivity.
Qed.
(** An observer of the transaction stays right as long as no such set is made. *)
Theorem C31_mirror_partial os ns t k : run xinit os ns t -> Forall good_op os -> all_heard (start nothing) os -> Forall plain k ->
  replay ns nothing k = xget t k.
Proof.
  intros H G A P. destruct (runs _ _ _ H G) as [(Hi & _) R]. rewrite seen by assumption. apply R; assumption.
Qed.
Theorem C31_commit_silent os ns t t' n : run xinit os ns t -> Forall good_op os -> xcommit t = (t', n) -> n = [].
Proof. intros H G E. destruct (runs _ _ _ H G) as [(Hi & _) _]. apply (xcommit_ok t t' n Hi E). Qed.

(** An execution: base a := x; a/b := y and c := z in the transaction; c removed
    and a/d := w in the base; commit; and at any time the order of the tables may
    change. *)
Definition ex_os : list op :=
  [BaseSet [B "a"] (Some (B "x")); Set_ [B "a"; B "b"] (Some (B "y")); Set_ [B "C"] (Some (B "z")); BaseSet [B "a"; B "d"; []] None;
   BaseSet [B "a"; B "d"] (Some (B "w")); Set_ [B "a"; B "b"] None].
Definition go (x : txn * list notif) (o : op) : txn * list notif := let (t', n) := perform (fst x) o in (t', snd x ++ n).
Definition drive (t : txn) (os : list op) : txn * list notif := fold_left go os (t, []).
Lemma drive_run : forall os ns0 t, exists ns, snd (fold_left go os (t, ns0)) = ns0 ++ ns /\ run t os ns (fst (fold_left go os (t, ns0))).
Proof.
  induction os as [|o os IH]; intros ns0 t; cbn [fold_left].
  - exists []. rewrite app_nil_r. split; [reflexivity|constructor].
  - unfold go at 2 4. cbn [fst snd]. destruct (perform t o) as [t1 n] eqn:E. destruct (IH (ns0 ++ n) t1) as (ns & En & R). exists (n ++ ns). rewrite app_assoc. split; [exact En|]. econstructor; eauto.
Qed.
Lemma drives t os : run t os (snd (drive t os)) (fst (drive t os)).
Proof. unfold drive. destruct (drive_run os [] t) as (n & E & R). rewrite E. exact R. Qed.
Lemma plain_ex s : In s [B "a"; B "b"; B "C"; B "d"; B "c"; B "q"] -> plain s.
Proof. intros Hs. repeat (destruct Hs as [<-|Hs]; [repeat split; try discriminate; intros Hi; repeat (destruct Hi as [Hi|Hi]; [discriminate|]); destruct Hi|]). destruct Hs. Qed.
Ltac plains := repeat (apply Forall_cons; [apply plain_ex; cbn; tauto|]); apply Forall_nil.
Ltac ops := repeat (apply (Forall_cons (P := good_op))); try (apply (Forall_nil good_op)); cbn [good_op].
Lemma ex_good : Forall good_op ex_os.
Proof.
  ops.
  - left. plains.
  - plains.
  - plains.
  - right. exists [B "a"; B "d"]. split; [discriminate|]. split; [plains|reflexivity].
  - left. plains.
  - plains.
Qed.
Definition ex_end : txn * list notif := Eval vm_compute in drive xinit ex_os.
Example C29_ex : run xinit ex_os (snd ex_end) (fst ex_end) /\ Forall good_op ex_os /\
  xget (fst ex_end) [B "a"] = Some (B "x") /\ xget (fst ex_end) [B "c"] = Some (B "z") /\ tget (base (fst ex_end)) [B "c"] = None /\
  xget (fst ex_end) [B "a"; B "b"] = None /\ xget (fst ex_end) [B "a"; B "d"] = Some (B "w") /\
  xiter (fst ex_end) [B "a"] = Some [(B "d", Some (B "w"))].
Proof.
  split; [exact (drives xinit ex_os)|]. split; [exact ex_good|]. vm_compute. repeat split; reflexivity.
Qed.
Example C30_ex : xcommit (fst ex_end) = (fst (xcommit (fst ex_end)), []) /\ chg (fst ex_end) <> None /\
  tget (base (fst (xcommit (fst ex_end)))) [B "C"] = Some (B "z") /\
  snd (xrefresh (fst ex_end)) = [([B "C"], None)].
Proof. vm_compute. repeat split; try reflexivity; discriminate. Qed.
Example C31_ex : snd ex_end = [([], Some []); ([B "a"], Some (B "x")); ([B "a"; B "b"], Some (B "y")); ([B "C"], Some (B "z")); ([B "a"; B "d"], Some (B "w")); ([B "a"; B "b"], None)] /\
  ~ unheard (steps ex_os) (Set_ [B "c"] (Some (B "q"))) /\ unheard (steps ex_os) (Set_ [B "a"] (Some (B "q"))).
Proof.
  split; [vm_compute; reflexivity|]. split.
  - intros (H & _). vm_compute in H. discriminate.
  - vm_compute. split; [reflexivity|]. split; [discriminate|]. split; eexists _, _; reflexivity.
Qed.

(** The set that is not heard: a is x in the base; a/b is set in the transaction;
    then a := q. An observer still has x. *)
Theorem C31_mirror_refuted : exists os ns t, run xinit os ns t /\ Forall good_op os /\ Forall plain [B "a"] /\
  xget t [B "a"] = Some (B "q") /\ replay ns nothing [B "a"] = Some (B "x").
Proof.
  set (os := [BaseSet [B "a"] (Some (B "x")); Set_ [B "a"; B "b"] (Some (B "y")); Set_ [B "a"] (Some (B "q"))]).
  exists os, (snd (drive xinit os)), (fst (drive xinit os)). split; [apply drives|]. split; [|split; [plains|vm_compute; split; reflexivity]].
  ops; [left| |]; plains.
Qed.
(** Keys that end in a slash are outside C29: they are taken for the key without
    it where the transaction has changes, and not where it has none; removing one
    leaves the keys below. *)
Theorem C29_slash_get_refuted : exists os t ns, run xinit os ns t /\ Forall good_op os /\ canonical [B "a"; []] /\
  xget t [B "a"; []] = Some (B "x") /\ tget (base (fst (xcommit t))) [B "a"; []] = None.
Proof.
  set (os := [Set_ [B "a"] (Some (B "x"))]). exists os, (fst (drive xinit os)), (snd (drive xinit os)).
  split; [apply drives|]. split; [ops; plains|]. split; [right; exists [B "a"]; split; [discriminate|]; split; [plains|reflexivity]|].
  vm_compute. split; reflexivity.
Qed.
Theorem C29_slash_set_refuted : exists os t ns, run xinit os ns t /\ Forall good_op os /\
  xget t [B "a"] = Some (B "x") /\ xget (fst (xset t [B "a"; []] (Some (B "q")))) [B "a"] = Some (B "q") /\
  tget (fst (tset (base (fst (xcommit t))) [B "a"; []] (Some (B "q")))) [B "a"] = Some (B "x").
Proof.
  set (os := [Set_ [B "a"] (Some (B "x"))]). exists os, (fst (drive xinit os)), (snd (drive xinit os)).
  split; [apply drives|]. split; [ops; plains|]. vm_compute. repeat split; reflexivity.
Qed.
Theorem C29_slash_remove_refuted : exists os t ns, run xinit os ns t /\ Forall good_op os /\
  xget t [B "a"; B "b"] = Some (B "x") /\ xget (fst (xset t [B "a"; []] None)) [B "a"; B "b"] = Some (B "x") /\
  tget (fst (tset (base t) [B "a"; []] None)) [B "a"; B "b"] = None.
Proof.
  set (os := [BaseSet [B "a"; B "b"] (Some (B "x"))]). exists os, (fst (drive xinit os)), (snd (drive xinit os)).
  split; [apply drives|]. split; [ops; left; plains|]. vm_compute. repeat split; reflexivity.
Qed.

Print Assumptions C29_get.
Print Assumptions C29_own_writes.
Print Assumptions C29_iterator.
Print Assumptions C30_commit.
Print Assumptions C30_refresh.
Print Assumptions C31_exact_partial.
Print Assumptions C31_unheard.
Print Assumptions C31_mirror_partial.
Print Assumptions C31_commit_silent.
Print Assumptions C31_mirror_refuted.
Print Assumptions C29_slash_get_refuted.
Print Assumptions C29_slash_set_refuted.
Print Assumptions C29_slash_remove_refuted.
