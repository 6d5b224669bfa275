(** C56: a stack of generators. *)
From Verif Require Import Base BaseFacts Ctype KeyModel KeySpec KeyProofs TempModel TempSpec TreeProofs TempProofs LayerModel LayerSpec LayerProofs.
Local Open Scope nat_scope.

(** Generators that start empty, and any history of them *)
Definition stack (l : list gen) (ns : list notif) : Prop := exists n es, lhistory (repeat tinit n) es ns l /\ Forall event_ok es.
Lemma none_mirrors n : mirrors nothing (repeat tinit n).
Proof. intros k _. induction n as [|n IH]; [reflexivity|exact IH]. Qed.
Lemma stack_ok l ns : stack l ns -> okl l /\ mirrors (replay ns nothing) l.
Proof.
  intros (n & es & H & E). destruct (lhistory_ok _ _ _ _ H nothing) as (O & _ & M); [|exact E|apply none_mirrors|auto].
  apply okl_init, Forall_forall. intros x Hx. symmetry. eapply repeat_spec. exact Hx.
Qed.

(** get() returns what the first generator that has the key holds; exists() tells
    whether there is one. *)
Theorem C56_get l k : lget l k = stacked (map tget l) k /\ (lexists l k = true <-> lget l k <> None).
Proof.
  split; [|rewrite lexists_ok; destruct (lget l k); split; congruence].
  induction l as [|g l IH]; [reflexivity|]. cbn [lget map stacked]. rewrite IH. destruct (tget g k); reflexivity.
Qed.
(** set(): the key has the new value, or is gone with everything below it.  Other keys
    are as they were, except that the keys above, when a value is set, read as the
    first generator has them, empty if it did not have them. *)
Theorem C56_set l ns k v l' n : stack l ns -> l <> [] -> Forall plain k -> lset l k v = (l', n) -> forall q, Forall plain q ->
  lget l' q = match v with
              | Some v => if same k q then Some v
                          else if under q k then match tget (hd tinit l) q with Some x => Some x | None => Some [] end
                          else lget l q
              | None => if under k q then None else lget l q
              end.
Proof.
  intros S Ne P H q Q. destruct (stack_ok _ _ S) as (O & M). unfold lset, lsetv in H. assert (C : Forall (fun kv : key * option bytes => canonical (fst kv)) [(k, v)]) by (constructor; [left; exact P|constructor]).
  destruct (setv_loop_ok [(k, v)] C l [] l' n _ O H M) as (O' & (l2 & -> & F) & _). cbn [app] in *. rewrite !lget_plain by exact Q. clear H M S O O' n.
  assert (E : forall g g', (forall k0, Forall plain k0 -> has g' k0 = fold_left set_key [(k, v)] (has g) k0) -> has g' q = set_spec (has g) k v q).
  { intros g g' Hg. rewrite Hg by exact Q. cbn [fold_left set_key]. destruct (plain_slashed _ P) as [-> _]. reflexivity. }
  destruct v as [v|].
  - destruct F as [|g g' l l2 Hg F]; [congruence|]. cbn [hd lhas]. rewrite (E g g' Hg). unfold set_spec. rewrite tget_has by (left; exact Q). destruct (plain_slashed _ Q) as [-> _].
    destruct (same k q) eqn:Sk; [reflexivity|]. destruct (under q k) eqn:U; [destruct (has g q); reflexivity|]. destruct (has g q); [reflexivity|].
    clear Hg Ne. induction F as [|g0 g0' l l2 Hg F IH]; [reflexivity|]. cbn [lhas]. rewrite (E g0 g0' Hg). unfold set_spec. rewrite Sk, U, IH. reflexivity.
  - clear Ne. induction F as [|g0 g0' l l2 Hg F IH]; [destruct (under k q); reflexivity|]. cbn [lhas]. rewrite (E g0 g0' Hg). unfold set_spec in *. destruct (under k q); [exact IH|]. rewrite IH. reflexivity.
Qed.
(** Someone who applies all notifications, those of changes made behind the back of
    the list included, knows the contents. *)
Theorem C56_mirror l ns k : stack l ns -> Forall plain k -> replay ns nothing k = lget l k.
Proof. intros S P. destruct (stack_ok _ _ S) as (_ & M). rewrite lget_plain by exact P. apply M, P. Qed.
(** iterator() lists each key just below once, whatever its letter case in the several
    generators, with the value that get() returns. *)
Theorem C56_iterator l ns k : stack l ns -> canonical k -> let o := liter l k in
  NoDup (map (fun x => map tolower (fst x)) o) /\ Forall (fun x => plain (fst x)) o /\
  forall s v, plain s -> lget l (named k ++ [s]) = Some v <-> exists s0, In (s0, v) o /\ teq s0 s = true.
Proof.
  intros S C. destruct (stack_ok _ _ S) as (O & _). destruct (liter_ok l k O C) as (N & P & H). split; [exact N|]. split; [exact P|].
  intros s v Ps. rewrite lget_plain by (apply Forall_app; split; [apply canonical_named, C|auto]). apply H, Ps.
Qed.
Theorem C56_haschildren l ns k : stack l ns -> canonical k -> lhaschildren l k = true <-> exists s, plain s /\ lget l (named k ++ [s]) <> None.
Proof.
  intros S C. destruct (stack_ok _ _ S) as (O & _). pose proof (canonical_named k C) as Pn.
  assert (G : forall s, plain s -> lget l (named k ++ [s]) = lhas l (named k ++ [s])) by (intros s Ps; apply lget_plain, Forall_app; auto).
  assert (X : lhaschildren l k = true <-> exists s, plain s /\ lhas l (named k ++ [s]) <> None).
  { clear G S. unfold lhaschildren. induction l as [|g l IH]; cbn [existsb lhas].
    - split; [discriminate|]. intros (s & _ & X). congruence.
    - rewrite orb_true_iff, (IH (Forall_inv_tail O)). pose proof (titer_ok g k (Forall_inv O) C) as T.
      assert (Y : thaschildren g k = true <-> exists s, plain s /\ has g (named k ++ [s]) <> None).
      { unfold thaschildren, titer in *. destruct (root g) as [t|].
        2:{ split; [discriminate|]. intros (s & Ps & X). rewrite (T s Ps) in X. congruence. }
        destruct (find t k) as [nd|].
        2:{ split; [discriminate|]. intros (s & Ps & X). rewrite (T s Ps) in X. congruence. }
        destruct T as (Pi & _ & T). destruct (tch nd) as [|c ch].
        - split; [discriminate|]. intros (s & Ps & X). destruct (has g (named k ++ [s])) as [v|] eqn:E; [|congruence]. apply T in E; [|exact Ps]. destruct E as (s0 & [] & _).
        - split; [intros _|reflexivity]. cbn [map] in Pi. pose proof (Forall_inv Pi) as Pc. cbn [fst] in Pc. exists (tkey c). split; [exact Pc|].
          assert (E : has g (named k ++ [tkey c]) = Some (tval c)) by (apply T; [exact Pc|]; exists (tkey c); split; [left; reflexivity|apply teq_refl]). congruence. }
      rewrite Y. split.
      + intros [(s & Ps & X)|(s & Ps & X)]; exists s; (split; [exact Ps|]); destruct (has g (named k ++ [s])); congruence.
      + intros (s & Ps & X). destruct (has g (named k ++ [s])) eqn:E; [left|right]; exists s; (split; [exact Ps|]); congruence. }
  rewrite X. split; intros (s & Ps & Y); exists s; (split; [exact Ps|]); [rewrite G by exact Ps|rewrite <- G by exact Ps]; exact Y.
Qed.

Definition one (k : key) (v : bytes) : gen := fst (tset tinit k (Some v)).
(** Setting a key changes what the keys above it read as: the list sets all its
    generators, and the first one now has them. *)
Theorem C56_parent_refuted : exists l es ns l' n, lhistory (repeat tinit 2) es ns l /\ Forall event_ok es /\
  lset l [B "a"; B "b"] (Some (B "1")) = (l', n) /\ lget l [B "a"] = Some (B "x") /\ lget l' [B "a"] = Some [].
Proof.
  exists ([tinit] ++ [one [B "a"] (B "x")]). destruct (set_one [tinit] tinit [] ([B "a"], Some (B "x"))) as [g n] eqn:E. destruct (lset ([tinit] ++ [one [B "a"] (B "x")]) [B "a"; B "b"] (Some (B "1"))) as [l' n'] eqn:E2.
  exists [LInner [B "a"] (Some (B "x"))], (n ++ []), l', n'. split.
  - change (repeat tinit 2) with ([tinit] ++ tinit :: []). eapply L_inner; [exact E|]. vm_compute in E. injection E as <- <-. apply L_end.
  - split; [constructor; [|constructor]; left; constructor; [|constructor]; split; [discriminate|]; split; intros [X|[]]; discriminate|]. split; [reflexivity|]. split; [reflexivity|]. vm_compute in E2. injection E2 as <- <-. reflexivity.
Qed.
(** While a key is being removed, it is notified as having the value of a generator
    further down. *)
Theorem C56_glitch_refuted : exists l ns l' n, stack l ns /\ lset l [B "a"] None = (l', n) /\ n = [([B "a"], Some (B "x")); ([B "a"], None)].
Proof.
  destruct (lset (repeat tinit 2) [B "a"] (Some (B "x"))) as [l n] eqn:E. destruct (lset l [B "a"] None) as [l' n'] eqn:E2. exists l, (n ++ []), l', n'. split.
  - exists 2, [LSet [([B "a"], Some (B "x"))]]. split; [eapply L_set; [exact E|apply L_end]|]. constructor; [|constructor]. constructor; [|constructor]. left. constructor; [|constructor]. split; [discriminate|]. split; intros [X|[]]; discriminate.
  - split; [exact E2|]. vm_compute in E. injection E as <- <-. vm_compute in E2. injection E2 as <- <-. reflexivity.
Qed.

(** A stack of two, with keys in both, in one and in different letter case *)
Definition ex_l : list gen := [fst (tset (one [B "a"] (B "1")) [B "c"; B "d"] (Some (B "2"))); fst (tset (one [B "A"] (B "9")) [B "e"] (Some (B "3")))].
Example ex_stack : exists ns, stack ex_l ns.
Proof.
  assert (P : forall s, In s [B "a"; B "c"; B "d"; B "A"; B "e"] -> plain s).
  { intros s H. cbn [In] in H. repeat (destruct H as [<-|H]; [split; [discriminate|]; split; intros [X|[]]; discriminate|]). contradiction. }
  eexists. exists 2, [LInner [B "a"] (Some (B "1")); LInner [B "c"; B "d"] (Some (B "2")); LInner [B "A"] (Some (B "9")); LInner [B "e"] (Some (B "3"))]. split.
  - change (repeat tinit 2) with ([] ++ tinit :: [tinit]). eapply L_inner; [reflexivity|]. eapply L_inner; [reflexivity|].
    match goal with |- lhistory ([] ++ ?g :: [tinit]) _ _ _ => change ([] ++ g :: [tinit]) with ([g] ++ tinit :: []) end. eapply L_inner; [reflexivity|]. eapply L_inner; [reflexivity|]. apply L_end.
  - repeat (constructor; [left; repeat (constructor; [apply P; cbn [In]; auto 9|]); constructor|]). constructor.
Qed.
Example ex_values : lget ex_l [B "A"] = Some (B "1") /\ lget ex_l [B "e"] = Some (B "3") /\ lget ex_l [B "c"; B "d"] = Some (B "2") /\
  liter ex_l [] = [(B "a", B "1"); (B "c", []); (B "e", B "3")] /\ lhaschildren ex_l [B "c"] = true /\ lhaschildren ex_l [B "e"] = false.
Proof. vm_compute. repeat split; reflexivity. Qed.
Print Assumptions C56_set.
Print Assumptions C56_mirror.
Print Assumptions C56_iterator.
Print Assumptions C56_haschildren.
