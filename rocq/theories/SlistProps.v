(** C65: stream lists. *)
From Verif Require Import Base BaseFacts SlistModel SlistSpec SlistProofs.
From Coq Require Import Lia ZArith.
Local Open Scope nat_scope.

(** Whatever streams do in their callbacks, with nested select() too, as long as the
    rules of [allowed] are kept: no destroyed stream is touched and no assertion fails. *)
Theorem C65_safe (es : list event) : polite init es -> run init es <> Fault.
Proof. intros P E. destruct (run_inv es init init_inv P) as [H|(c' & H & _)]; congruence. Qed.
Print Assumptions C65_safe.

(** A stream is destroyed exactly when nobody holds it, the list does not own it, it is
    not about to be called and not being called.  So listed streams are alive. *)
Theorem C65_lifetime (es : list event) (c : conf) : polite init es -> run init es = Ok c ->
  (forall s, hp (st c) s = None <-> held c s = 0 /\ ~ In (s, true) (main (st c)) /\ ~ In s (todo c) /\ ~ In (FCall s) (stack c)) /\
  (forall s, In s (listed c) -> alive c s).
Proof.
  intros P E. destruct (run_inv es init init_inv P) as [H|(c' & H & Hi)]; [congruence|]. assert (c' = c) by congruence. subst c'.
  split; [intros s; apply dead_iff, Hi|]. intros s I N. apply (dead_iff c s Hi) in N as (N1 & N2 & _).
  unfold listed in I. apply in_map_iff in I as ([x [|]] & <- & I); cbn [fst] in *; [contradiction|].
  destruct Hi as (_ & _ & Hu & _). pose proof (Hu x I). lia.
Qed.
Print Assumptions C65_lifetime.

(** select() finds the listed streams that are ready, each once and in their order, drops
    those that are not ok, and starts a round of callbacks if there is one of either or
    the list's alarm is due. *)
Theorem C65_select (es : list event) (c : conf) (due : bool) (ready : nat -> bool) : polite init es -> run init es = Ok c ->
  exists c', do_act c (ASelect due ready) = Ok c' /\
    (forall s, In s (todo c') <-> In s (listed c) /\ ready s = true) /\ NoDup (todo c') /\
    (NoDup (listed c) -> todo c' = filter ready (listed c)) /\
    listed c' = filter (okay c) (listed c) /\
    (stack c' = FLoop :: stack c /\ (due = true \/ exists s, In s (listed c) /\ (ready s = true \/ okay c s = false)) \/
     stack c' = stack c /\ due = false /\ forall s, In s (listed c) -> ready s = false /\ okay c s = true).
Proof.
  intros P E. destruct (run_inv es init init_inv P) as [H|(c0 & H & Hi)]; [congruence|]. assert (c0 = c) by congruence. subst c0.
  destruct (select_inv c due ready Hi) as (c' & E' & Hi' & (A1 & A2 & A3) & _). exists c'. split; [exact E'|].
  assert (T : forall s, In s (todo c') <-> In s (listed c) /\ ready s = true).
  { intros s. unfold todo, listed. rewrite A2, addsure_in. cbn. tauto. }
  split; [exact T|]. split; [unfold todo; rewrite A2; apply addsure_nodup; constructor|].
  split; [intros N; unfold todo, listed; rewrite A2, addsure_order; [reflexivity|exact N]|].
  split.
  { unfold listed. rewrite A1. clear. induction (main (st c)) as [|a m IH]; [reflexivity|]. cbn. unfold okay, okf in *.
    destruct (match hp (st c) (fst a) with Some (_, k) => k | None => false end); cbn; rewrite IH; reflexivity. }
  rewrite A3. destruct due; [left; auto|]. cbn [orb].
  match goal with |- context[existsb ?f ?l] => destruct (existsb f l) eqn:Ed end.
  { left. split; [reflexivity|]. right. apply existsb_exists in Ed as (a & I & D). exists (fst a). split; [apply in_map; exact I|]. right.
    unfold okay. unfold okf in D. destruct (hp (st c) (fst a)) as [[? []]|]; try discriminate; reflexivity. }
  cbn [orb]. destruct (sure (st c')) as [|a r] eqn:Es; cbn [negb].
  - right. split; [reflexivity|]. split; [reflexivity|]. intros s I. split.
    + destruct (ready s) eqn:Er; [|reflexivity]. assert (I' : In s (todo c')) by (apply T; auto). unfold todo in I'. rewrite Es in I'. destruct I'.
    + unfold listed in I. apply in_map_iff in I as (a & <- & I). destruct (okay c (fst a)) eqn:Eo; [reflexivity|].
      assert (X : existsb (fun a => negb (okf (hp (st c)) (fst a))) (main (st c)) = true); [|pose proof (eq_trans (eq_sym X) Ed); discriminate].
      apply existsb_exists. exists a. split; [exact I|]. unfold okay in Eo. unfold okf. rewrite Eo. reflexivity.
  - left. split; [reflexivity|]. right. assert (I : In (fst a) (todo c')) by (unfold todo; rewrite Es; left; reflexivity). apply T in I as [I1 I2]. eauto.
Qed.
Print Assumptions C65_select.

(** A round, if no callback selects on the list again: the streams found ready are called
    one after the other, in order; when it ends each was called exactly once, except
    those taken off the list by unlink() before.  Streams added or closed meanwhile make
    no difference. *)
Theorem C65_round (c c' : conf) (es : list event) : NoDup (todo c) -> no_select es -> run c (es ++ [EDone]) = Ok c' ->
  sub (calls es) (todo c) /\ NoDup (calls es) /\
  (forall s, In s (todo c) -> In s (calls es) \/ In (EAct (AUnlink s)) es) /\
  (forall s u v, es = u ++ EAct (AUnlink s) :: v -> ~ In s (calls v)).
Proof.
  intros N NS R.
  assert (K : exists c1, run c es = Ok c1 /\ todo c1 = []).
  { clear N NS. revert c R. induction es as [|e es IH]; intros c R; cbn [app run] in R.
    - destruct (step c EDone) as [c1| |] eqn:E; cbn in R; try discriminate. exists c. split; [reflexivity|].
      pose proof (step_todo c EDone c1 E ltac:(discriminate)) as [T _]. exact T.
    - cbn [run]. destruct (step c e) as [c1| |]; cbn [bind] in *; try discriminate. apply IH, R. }
  destruct K as (c1 & R1 & T). destruct (round es c c1 R1 NS) as (H1 & H2 & H3). rewrite T, app_nil_r in H1.
  split; [exact H1|]. split; [|split; [|exact H3]].
  - clear - H1 N. induction H1; [constructor| |]; inversion N; subst; auto. constructor; auto. intros I. apply H2. eapply sub_in; eauto.
  - intros s I. destruct (H2 s I) as [K|[K|K]]; auto. rewrite T in K. destruct K.
Qed.
Print Assumptions C65_round.

(** select() waits no longer than the caller, any stream or the alarm asks, no shorter
    than one of them, and not at all if the alarm is due or a stream is not ok. *)
Theorem C65_timeout (alarm t : Z) (wants : list (Z * bool)) : let r := pre_timeout alarm wants t in
  (alarm = 0%Z \/ (exists w, In w wants /\ snd w = false) -> r = 0%Z) /\
  (alarm <> 0%Z -> (forall w, In w wants -> snd w = true) ->
     sooner r t /\ sooner r alarm /\ (forall w, In w wants -> sooner r (fst w)) /\ In r (t :: alarm :: map fst wants)).
Proof.
  unfold pre_timeout. cbn zeta. split.
  - intros H. replace (_ || _) with true; [reflexivity|]. symmetry. apply Bool.orb_true_iff. destruct H as [->|(w & I & D)]; [left; reflexivity|right].
    apply existsb_exists. exists w. rewrite D. auto.
  - intros H1 H2. replace (_ || _) with false.
    2: { symmetry. apply Bool.orb_false_iff. split; [apply Z.eqb_neq, H1|]. clear - H2. induction wants as [|w ws IH]; [reflexivity|]. cbn. rewrite (H2 w (or_introl eq_refl)). cbn. apply IH. intros; apply H2; right; assumption. }
    destruct (lowers wants t) as (A & A2 & A3). set (u := fold_left (fun t w => lower t (fst w)) wants t) in *.
    destruct (lower_sooner u alarm) as (B1 & B2 & B3).
    split; [exact (sooner_trans _ _ _ B1 A)|]. split; [exact B2|]. split; [intros w I; exact (sooner_trans _ _ _ B1 (A2 w I))|].
    destruct B3 as [->| ->]; [|right; left; reflexivity]. destruct A3 as [->|A3]; [left; reflexivity|right; right; exact A3].
Qed.
Print Assumptions C65_timeout.

(** A case: four streams, the list owns three of them.  The callback of 1 takes 2 off the
    list, closes 3 and adds 5; 3 is still called.  The next select() drops 3. *)
Definition ex_ready : nat -> bool := fun s => Nat.leb s 3.
Definition ex_setup : list event :=
  [EAct (ANew 1); EAct (AAppend 1 true); EAct (ANew 2); EAct (AAppend 2 true); EAct (ANew 3); EAct (AAppend 3 false); EAct (ANew 4); EAct (AAppend 4 true)].
Definition ex_round : list event :=
  [ECall 1; EAct (AUnlink 2); EAct (AClose 3); EAct (ANew 5); EAct (AAppend 5 true); EReturn 1; ECall 3; EReturn 3].
Definition view (r : res conf) := match r with Ok c => Some (main (st c), todo c, stack c, map (fun s => match hp (st c) s with Some (n, k) => Some (n, k) | None => None end) [1; 2; 3; 4; 5]) | _ => None end.
Example ex_slist :
  view (run init (ex_setup ++ [EAct (ASelect false ex_ready)])) =
    Some ([(1, true); (2, true); (3, false); (4, true)], [1; 2; 3], [FLoop], [Some (2, true); Some (2, true); Some (2, true); Some (1, true); None]) /\
  view (run init (ex_setup ++ [EAct (ASelect false ex_ready)] ++ ex_round ++ [EDone])) =
    Some ([(1, true); (3, false); (4, true); (5, true)], [], [], [Some (1, true); None; Some (1, false); Some (1, true); Some (1, true)]) /\
  view (run init (ex_setup ++ [EAct (ASelect false ex_ready)] ++ ex_round ++ [EDone; EAct (ASelect false (fun _ => false))])) =
    Some ([(1, true); (4, true); (5, true)], [], [FLoop], [Some (1, true); None; Some (1, false); Some (1, true); Some (1, true)]).
Proof. vm_compute. auto. Qed.
Example ex_polite : polite init (ex_setup ++ [EAct (ASelect false ex_ready)] ++ ex_round).
Proof.
  cbn [app ex_setup ex_round].
  repeat (split; [cbn -[step]; first [exact I|reflexivity|discriminate|split; [lia|right; left; cbn; intuition discriminate]
                                     |split; [cbn; lia|right; right; left; reflexivity]|vm_compute; discriminate]|
                  let c := fresh "c" in let E := fresh "E" in intros c E; vm_compute in E; injection E as <-]).
  exact I.
Qed.
(** A callback that selects again: what was still to be called is asked again. *)
Example ex_nested :
  view (run init (ex_setup ++ [EAct (ASelect false ex_ready); ECall 1; EAct (ASelect false (fun s => Nat.eqb s 4)); ECall 4; EReturn 4; EDone; EReturn 1; EDone])) =
    Some ([(1, true); (2, true); (3, false); (4, true)], [], [], [Some (1, true); Some (1, true); Some (1, true); Some (1, true); None]).
Proof. vm_compute. reflexivity. Qed.
Example ex_timeout : pre_timeout 700 [(500, true); (-1, true)]%Z (-1) = 500%Z /\ pre_timeout (-1) [(-1, true)]%Z (-1) = (-1)%Z /\ pre_timeout 700 [(500, false)]%Z 100 = 0%Z.
Proof. auto. Qed.
