(** Proofs about the subprocess queue. *)
From Verif Require Import Base BaseFacts QueueModel QueueSpec.
From Coq Require Import Sorting.Permutation.
Local Open Scope nat_scope.

Definition name (e : ent) : nat * nat := (cookie e, proc e).
Definition job (e : ent) : bool := cookie e =? 0.
Definition alone (l : list ent) : Prop := cookie_running l = true -> length l = 1.
Definition ids (l : list ent) : list nat := map proc l.

Lemma drop_in x l : ~ In x l -> drop x l = l.
Proof.
  induction l as [|y l IH]; intros H; [reflexivity|]. cbn [drop]. destruct (Nat.eqb_spec (fst x) (fst y)) as [A|A], (Nat.eqb_spec (snd x) (snd y)) as [C|C]; cbn [andb]; try (rewrite IH; [reflexivity|intros Q; apply H; right; exact Q]).
  elim H. left. destruct x, y; cbn in *; congruence.
Qed.
Lemma drop_mid x a b : ~ In x a -> drop x (a ++ x :: b) = a ++ b.
Proof.
  induction a as [|y a IH]; intros H; cbn [app drop]; [rewrite !Nat.eqb_refl; reflexivity|]. destruct (Nat.eqb_spec (fst x) (fst y)) as [A|A], (Nat.eqb_spec (snd x) (snd y)) as [C|C]; cbn [andb]; try (rewrite IH; [reflexivity|intros Q; apply H; right; exact Q]).
  elim H. left. destruct x, y; cbn in *; congruence.
Qed.
Definition live_from (l : list (nat * nat)) (tr : list event) : list (nat * nat) :=
  fold_left (fun l e => match e with Start c p => l ++ [(c, p)] | Finish c p => drop (c, p) l end) tr l.
Lemma live_app a b : live (a ++ b) = live_from (live a) b.
Proof. unfold live, live_from. apply fold_left_app. Qed.

Lemma cleanup_cons ended e r : cleanup ended (e :: r) = let '(keep, again, ev) := cleanup ended r in
      if ended (proc e) then (keep, (if redo e then [set_redo e false] else []) ++ again, Finish (cookie e) (proc e) :: ev) else (e :: keep, again, ev).
Proof. reflexivity. Qed.
Lemma start_cons max rq e r : start max rq (e :: r) = if length rq <? max then
        if negb (cookie e =? 0) && negb (isempty rq) then (rq, e :: r, [])
        else if cookie_running rq then (rq, e :: r, [])
        else let '(rq', wq', ev) := start max (rq ++ [e]) r in (rq', wq', Start (cookie e) (proc e) :: ev)
      else (rq, e :: r, []).
Proof. reflexivity. Qed.

(** A sublist of a good running queue is good. *)
Inductive sub : list ent -> list ent -> Prop :=
| sub_nil : sub [] []
| sub_skip e a b : sub a b -> sub a (e :: b)
| sub_keep e a b : sub a b -> sub (e :: a) (e :: b).
Lemma sub_len a b : sub a b -> length a <= length b.
Proof. induction 1; cbn; lia. Qed.
Lemma sub_refl a : sub a a.
Proof. induction a; constructor; assumption. Qed.
Lemma sub_in a b x : sub a b -> In x a -> In x b.
Proof. induction 1 as [|e a b S IH|e a b S IH]; cbn; intros H; [exact H|right; apply IH, H|]. destruct H as [<-|H]; [left; reflexivity|right; apply IH, H]. Qed.
Lemma sub_alone a b : sub a b -> alone b -> alone a.
Proof.
  intros S H. unfold alone, cookie_running in *. intros Q. apply existsb_exists in Q. destruct Q as (x & I & X). assert (Hb : length b = 1) by (apply H, existsb_exists; exists x; split; [eapply sub_in; eassumption|exact X]).
  pose proof (sub_len _ _ S). destruct a; [contradiction|cbn in *; lia].
Qed.
Lemma sub_app2 c a b : sub a b -> sub (c ++ a) (c ++ b).
Proof. intros S. induction c; [exact S|constructor; exact IHc]. Qed.

Definition good (max : nat) (l : list ent) : Prop := length l <= max /\ alone l.
Lemma good_sub max a b : sub a b -> good max b -> good max a.
Proof. intros S [L A]. split; [pose proof (sub_len _ _ S); lia|eapply sub_alone; eassumption]. Qed.

(** Every prefix of the events from running queue [l] keeps a good running set. *)
Definition safe (max : nat) (l : list (nat * nat)) : Prop := length l <= max /\ (forall c p, In (c, p) l -> c <> 0 -> l = [(c, p)]).
Lemma good_safe max l : good max l -> safe max (map name l).
Proof.
  intros [L A]. split; [rewrite map_length; exact L|]. intros c p I C. apply in_map_iff in I. destruct I as (e & E & I). injection E as <- <-.
  assert (H : length l = 1) by (apply A, existsb_exists; exists e; split; [exact I|]; destruct (Nat.eqb_spec (cookie e) 0); [contradiction|reflexivity]). destruct l as [|x [|]]; try discriminate. destruct I as [<-|[]]. reflexivity.
Qed.
Definition all_safe (max : nat) (l : list (nat * nat)) (tr : list event) : Prop := forall a b, tr = a ++ b -> safe max (live_from l a).
Lemma all_safe_nil max l : safe max l -> all_safe max l [].
Proof. intros H a b E. destruct a; [exact H|discriminate]. Qed.
Lemma all_safe_cons max l e tr : safe max l -> all_safe max (live_from l [e]) tr -> all_safe max l (e :: tr).
Proof. intros H K a b E. destruct a as [|x a]; [exact H|]. injection E as <- E. apply (K a b E). Qed.
Lemma all_safe_app max l a b : all_safe max l a -> all_safe max (live_from l a) b -> all_safe max l (a ++ b).
Proof.
  revert l. induction a as [|e a IH]; intros l H K; [exact K|]. cbn [app]. apply all_safe_cons; [apply (H [] (e :: a)); reflexivity|]. apply IH; [|exact K]. intros u v E. apply (H (e :: u) v). cbn. congruence.
Qed.

Lemma cleanup_ok ended l keep again ev : cleanup ended l = (keep, again, ev) ->
  sub keep l /\ Forall (fun e => redo e = false /\ exists x, In x l /\ redo x = true /\ name x = name e) again /\
  (forall e, In e l -> In e keep \/ (In (Finish (cookie e) (proc e)) ev /\ (redo e = true -> In (set_redo e false) again))).
Proof.
  revert keep again ev. induction l as [|e l IH]; intros keep again ev E; [injection E as <- <- <-; split; [constructor|split; [constructor|intros ? []]]|].
  rewrite cleanup_cons in E. destruct (cleanup ended l) as [[k a] v] eqn:C. destruct (IH _ _ _ eq_refl) as (S & F & K). destruct (ended (proc e)).
  - injection E as <- <- <-. split; [constructor; exact S|]. split.
    + apply Forall_app. split; [destruct (redo e) eqn:R; constructor; [|constructor]; split; [reflexivity|]; exists e; split; [left; reflexivity|split; [exact R|reflexivity]]|]. eapply Forall_impl; [|exact F]. intros x (R & y & I & Q). split; [exact R|]. exists y. split; [right; exact I|exact Q].
    + intros x [<-|I]; [right; split; [left; reflexivity|intros ->; apply in_or_app; left; left; reflexivity]|]. destruct (K x I) as [Q|[Q1 Q2]]; [left; exact Q|right; split; [right; exact Q1|intros R; apply in_or_app; right; apply Q2, R]].
  - injection E as <- <- <-. split; [constructor; exact S|]. split.
    + eapply Forall_impl; [|exact F]. intros x (R & y & I & Q). split; [exact R|]. exists y. split; [right; exact I|exact Q].
    + intros x [<-|I]; [left; left; reflexivity|]. destruct (K x I) as [Q|Q]; [left; right; exact Q|right; exact Q].
Qed.
Lemma cleanup_live ended max l keep again ev : cleanup ended l = (keep, again, ev) -> forall pre, NoDup (map name (pre ++ l)) -> good max (pre ++ l) ->
  all_safe max (map name (pre ++ l)) ev /\ live_from (map name (pre ++ l)) ev = map name (pre ++ keep).
Proof.
  revert keep again ev. induction l as [|e l IH]; intros keep again ev E pre N G.
  - injection E as <- <- <-. split; [apply all_safe_nil, good_safe, G|reflexivity].
  - rewrite cleanup_cons in E. destruct (cleanup ended l) as [[k a] v] eqn:C. destruct (ended (proc e)).
    + injection E as <- <- <-. assert (D : live_from (map name (pre ++ e :: l)) [Finish (cookie e) (proc e)] = map name (pre ++ l)).
      { cbn. change (cookie e, proc e) with (name e). rewrite map_app. cbn [map]. rewrite drop_mid; [rewrite map_app; reflexivity|]. rewrite map_app in N. cbn [map] in N. apply NoDup_remove_2 in N. intros Q. apply N, in_or_app. left. exact Q. }
      assert (N' : NoDup (map name (pre ++ l))) by (rewrite map_app in *; cbn [map] in N; apply NoDup_remove_1 in N; exact N).
      assert (G' : good max (pre ++ l)) by (eapply good_sub; [|exact G]; apply sub_app2; constructor; apply sub_refl).
      destruct (IH _ _ _ eq_refl pre N' G') as [A Lv]. split.
      * apply all_safe_cons; [apply good_safe, G|]. rewrite D. exact A.
      * change (Finish (cookie e) (proc e) :: v) with ([Finish (cookie e) (proc e)] ++ v). unfold live_from in *. rewrite fold_left_app. rewrite D. exact Lv.
    + injection E as <- <- <-. replace (pre ++ e :: l) with ((pre ++ [e]) ++ l) in * by (rewrite <- app_assoc; reflexivity). replace (pre ++ e :: k) with ((pre ++ [e]) ++ k) by (rewrite <- app_assoc; reflexivity). apply (IH _ _ _ eq_refl (pre ++ [e]) N G).
Qed.
Lemma start_live max wq : forall rq rq' wq' ev, start max rq wq = (rq', wq', ev) -> good max rq ->
  good max rq' /\ all_safe max (map name rq) ev /\ live_from (map name rq) ev = map name rq' /\ rq ++ wq = rq' ++ wq' /\
  (wq' = [] \/ length rq' >= max \/ (rq' <> [] /\ (cookie_running rq' = true \/ exists e r, wq' = e :: r /\ cookie e <> 0))).
Proof.
  induction wq as [|e wq IH]; intros rq rq' wq' ev E G.
  - injection E as <- <- <-. split; [exact G|]. split; [apply all_safe_nil, good_safe, G|]. split; [reflexivity|]. split; [reflexivity|]. left. reflexivity.
  - assert (Stop : (rq, e :: wq, @nil event) = (rq', wq', ev) -> (length rq >= max \/ (rq <> [] /\ (cookie_running rq = true \/ cookie e <> 0))) -> good max rq' /\ all_safe max (map name rq) ev /\ live_from (map name rq) ev = map name rq' /\ rq ++ e :: wq = rq' ++ wq' /\
      (wq' = [] \/ length rq' >= max \/ (rq' <> [] /\ (cookie_running rq' = true \/ exists e r, wq' = e :: r /\ cookie e <> 0)))).
    { intros Q W. injection Q as <- <- <-. split; [exact G|]. split; [apply all_safe_nil, good_safe, G|]. split; [reflexivity|]. split; [reflexivity|]. right. destruct W as [W|[W1 [W2|W2]]]; [left; exact W|right; split; [exact W1|left; exact W2]|right; split; [exact W1|right; exists e, wq; auto]]. }
    rewrite start_cons in E. destruct (Nat.ltb_spec (length rq) max) as [L|L]; [|apply Stop; [exact E|left; exact L]].
    destruct (negb (cookie e =? 0) && negb (isempty rq)) eqn:S1.
    { apply Stop; [exact E|]. apply andb_true_iff in S1. destruct S1 as [S1 S2]. right. split; [destruct rq; discriminate|right; destruct (Nat.eqb_spec (cookie e) 0); [discriminate|assumption]]. }
    destruct (cookie_running rq) eqn:S2; [apply Stop; [exact E|]; right; split; [destruct rq; discriminate|left; reflexivity]|].
    destruct (start max (rq ++ [e]) wq) as [[r1 w1] v1] eqn:C. injection E as <- <- <-.
    assert (G' : good max (rq ++ [e])).
    { split; [rewrite app_length; cbn; lia|]. intros Q. unfold cookie_running in Q, S2. rewrite existsb_app, S2 in Q. cbn in Q. rewrite orb_false_r in Q. rewrite Q in S1. cbn [andb] in S1. destruct rq; [reflexivity|discriminate]. }
    destruct (IH _ _ _ _ C G') as (H1 & H2 & H3 & H4 & H5). split; [exact H1|]. rewrite map_app in H2, H3. split; [apply all_safe_cons; [apply good_safe, G|exact H2]|]. split; [exact H3|]. split; [rewrite <- app_assoc in H4; exact H4|exact H5].
Qed.

(** ** The invariant *)
Definition names_ok (q : queue) : Prop := NoDup (ids (runq q ++ waitq q)) /\ Forall (fun e => redo e = true -> cookie e <> 0) (runq q ++ waitq q).
Definition inv (max : nat) (q : queue) : Prop := good max (runq q) /\ names_ok q.

Lemma mark_shape c l l' : mark c l = Some l' -> exists u e v, l = u ++ e :: v /\ cookie e = c /\ Forall (fun x => cookie x <> c) u /\
  l' = u ++ (match v with [] => e | _ => set_redo e true end) :: v.
Proof.
  revert l'. induction l as [|e l IH]; intros l' E; [discriminate|]. cbn [mark] in E. destruct (Nat.eqb_spec (cookie e) c).
  - injection E as <-. exists [], e, l. repeat split; [assumption|constructor].
  - destruct (mark c l) as [l2|]; [|discriminate]. injection E as <-. destruct (IH _ eq_refl) as (u & x & v & -> & C & F & ->). exists (e :: u), x, v. repeat split; [exact C|constructor; assumption].
Qed.
Lemma mark_none c l : mark c l = None -> Forall (fun x => cookie x <> c) l.
Proof. induction l as [|e l IH]; intros E; [constructor|]. cbn [mark] in E. destruct (Nat.eqb_spec (cookie e) c); [discriminate|]. destruct (mark c l); [discriminate|]. constructor; auto. Qed.
Lemma set_last v e b : proc (match v : list ent with [] => e | _ => set_redo e b end) = proc e /\ cookie (match v with [] => e | _ => set_redo e b end) = cookie e.
Proof. destruct v; split; reflexivity. Qed.
Lemma sub_ids a b : sub a b -> forall w, NoDup (ids (b ++ w)) -> NoDup (ids (a ++ w)).
Proof.
  intros S w. unfold ids. rewrite !map_app. induction S as [|e a b S IH|e a b S IH]; cbn; intros N; [exact N|apply IH; inversion N; assumption|]. inversion N as [|x l I N' E]; subst. constructor; [|apply IH, N'].
  intros Q. apply I. apply in_app_or in Q. apply in_or_app. destruct Q as [Q|Q]; [left|right; exact Q]. apply in_map_iff in Q. destruct Q as (y & Ey & Iy). rewrite <- Ey. apply in_map. eapply sub_in; eassumption.
Qed.
Lemma cleanup_perm ended l keep again ev : cleanup ended l = (keep, again, ev) -> exists gone, Permutation (ids l) (ids keep ++ ids again ++ gone).
Proof.
  revert keep again ev. induction l as [|e l IH]; intros keep again ev E; [injection E as <- <- <-; exists []; constructor|]. rewrite cleanup_cons in E. destruct (cleanup ended l) as [[k a] v]. destruct (IH _ _ _ eq_refl) as (g & P). destruct (ended (proc e)).
  - injection E as <- <- <-. destruct (redo e).
    + exists g. cbn. etransitivity; [constructor; exact P|]. apply Permutation_middle.
    + exists (proc e :: g). cbn [ids map app]. etransitivity; [constructor; exact P|]. rewrite !app_assoc. apply Permutation_middle.
  - injection E as <- <- <-. exists g. cbn. constructor. exact P.
Qed.
Lemma NoDup_app_l {A} (a b : list A) : NoDup (a ++ b) -> NoDup a.
Proof. induction a; cbn; intros H; [constructor|]. inversion H; subst. constructor; [intros Q; apply H2, in_or_app; left; exact Q|apply IHa; assumption]. Qed.

Lemma go_ok max ended q : inv max q -> exists q' ev, go max ended q = Ok (q', ev) /\ inv max q' /\
  all_safe max (map name (runq q)) ev /\ live_from (map name (runq q)) ev = map name (runq q') /\
  incl (ids (runq q' ++ waitq q')) (ids (runq q ++ waitq q)).
Proof.
  intros [G [N R]]. unfold go. destruct (cleanup ended (runq q)) as [[keep again] ev1] eqn:C. destruct (start max keep (waitq q ++ again)) as [[rq wq] ev2] eqn:S.
  destruct (cleanup_ok _ _ _ _ _ C) as (Sb & Fa & _). 
  assert (Nr : NoDup (map name (runq q))). { apply (NoDup_map_inv snd). rewrite map_map. change (NoDup (ids (runq q))). unfold ids in N. rewrite map_app in N. apply NoDup_app_l in N. exact N. }
  destruct (cleanup_live _ max _ _ _ _ C [] Nr G) as [A1 L1]. cbn [app] in A1, L1. destruct (start_live _ _ _ _ _ _ S (good_sub _ _ _ Sb G)) as (G' & A2 & L2 & E2 & _).
  destruct G' as [Gl Ga]. replace (length rq <=? max) with true by (symmetry; apply Nat.leb_le, Gl). eexists. eexists. split; [reflexivity|]. cbn [runq waitq].
  assert (P : incl (ids (rq ++ wq)) (ids (runq q ++ waitq q))).
  { rewrite <- E2. unfold ids. rewrite !map_app. intros x I. apply in_app_or in I. apply in_or_app. destruct I as [I|I].
    - left. apply in_map_iff in I. destruct I as (y & <- & I). apply in_map. eapply sub_in; eassumption.
    - apply in_app_or in I. destruct I as [I|I]; [right; exact I|left]. apply in_map_iff in I. destruct I as (y & <- & I). rewrite Forall_forall in Fa. destruct (Fa y I) as (_ & z & Iz & _ & E). apply (in_map proc) in Iz. unfold name in E. injection E as _ E. rewrite <- E. exact Iz. }
  split; [|split; [|split; [|exact P]]].
  - split; [split; assumption|]. split.
    + cbn [runq waitq]. rewrite <- E2. destruct (cleanup_perm _ _ _ _ _ C) as (gone & Pm). unfold ids in *. rewrite !map_app in *.
      assert (Pm2 : Permutation (map proc (runq q) ++ map proc (waitq q)) ((map proc keep ++ map proc (waitq q) ++ map proc again) ++ gone)).
      { etransitivity; [apply Permutation_app_tail, Pm|]. rewrite <- !app_assoc. apply Permutation_app_head. rewrite !app_assoc. etransitivity; [apply Permutation_app_comm|]. rewrite !app_assoc. reflexivity. }
      eapply NoDup_app_l. eapply Permutation_NoDup; [exact Pm2|exact N].
    + cbn [runq waitq]. rewrite <- E2. apply Forall_app in R. destruct R as [R1 R2]. apply Forall_app. split; [|apply Forall_app; split; [exact R2|]].
      * rewrite Forall_forall in *. intros x I. apply R1. eapply sub_in; eassumption.
      * eapply Forall_impl; [|exact Fa]. intros x [Q _]. congruence.
  - apply all_safe_app; [exact A1|]. rewrite L1. exact A2.
  - unfold live_from in *. rewrite fold_left_app. rewrite L1. exact L2.
Qed.
Lemma add_ok max q c p : inv max q -> ~ In p (ids (runq q ++ waitq q)) -> inv max (add q c p) /\ runq (add q c p) = runq q /\ incl (ids (runq (add q c p) ++ waitq (add q c p))) (p :: ids (runq q ++ waitq q)).
Proof.
  intros [G [N R]] F. set (x := {| cookie := c; proc := p; redo := false |}).
  assert (Fresh : inv max {| runq := runq q; waitq := waitq q ++ [x] |} /\ incl (ids (runq q ++ waitq q ++ [x])) (p :: ids (runq q ++ waitq q))).
  { split; [split; [exact G|]; split; cbn [runq waitq]|].
    - rewrite app_assoc. unfold ids in *. rewrite map_app. cbn [map]. apply (Permutation_NoDup (Permutation_app_comm [proc x] _)). constructor; [exact F|exact N].
    - rewrite app_assoc. apply Forall_app. split; [exact R|]. constructor; [discriminate|constructor].
    - rewrite app_assoc. unfold ids. rewrite map_app. intros y I. apply in_app_or in I. destruct I as [I|[<-|[]]]; [right; exact I|left; reflexivity]. }
  unfold add. destruct (Nat.eqb_spec c 0) as [->|C]; [split; [apply Fresh|split; [reflexivity|apply Fresh]]|]. destruct (mark c (waitq q)) as [w|] eqn:M; [|split; [apply Fresh|split; [reflexivity|apply Fresh]]].
  destruct (mark_shape _ _ _ M) as (u & e & v & E & Ce & _ & ->). assert (Ids : ids (runq q ++ u ++ (match v with [] => e | _ => set_redo e true end) :: v) = ids (runq q ++ waitq q)).
  { rewrite E. unfold ids. rewrite !map_app. cbn [map]. destruct (set_last v e true) as [-> _]. reflexivity. }
  cbn [runq waitq]. split; [|split; [reflexivity|rewrite Ids; intros y I; right; exact I]]. split; [exact G|]. split; cbn [runq waitq]; [rewrite Ids; exact N|]. rewrite E in R. rewrite !Forall_app in *. destruct R as (R1 & R2 & R3). split; [exact R1|]. split; [exact R2|]. constructor; [|apply (Forall_inv_tail R3)]. intros _. destruct (set_last v e true) as [_ ->]. congruence.
Qed.
Lemma run_ok max l : forall q, inv max q -> NoDup (added l) -> (forall p, In p (added l) -> ~ In p (ids (runq q ++ waitq q))) ->
  exists q' ev, run max q l = Ok (q', ev) /\ inv max q' /\ all_safe max (map name (runq q)) ev /\ live_from (map name (runq q)) ev = map name (runq q') /\
  incl (ids (runq q' ++ waitq q')) (added l ++ ids (runq q ++ waitq q)).
Proof.
  induction l as [|o l IH]; intros q I N F; cbn [run].
  - exists q, []. split; [reflexivity|]. split; [exact I|]. split; [apply all_safe_nil, good_safe, I|]. split; [reflexivity|]. intros x Hx. exact Hx.
  - destruct o as [c p|ended]; cbn [step].
    + cbn [bind]. cbn [added flat_map app] in *. inversion N as [|x y Np N' Exy]; subst. destruct (add_ok max q c p I (F p (or_introl eq_refl))) as (I1 & Er & Ic). destruct (IH (add q c p) I1 N') as (q' & ev & E & Iq & S & L & Cc).
      { intros x Hx Q. apply Ic in Q. destruct Q as [<-|Q]; [contradiction|]. apply (F x (or_intror Hx) Q). }
      rewrite E. cbn [bind app]. exists q', ev. rewrite Er in *. split; [reflexivity|]. split; [exact Iq|]. split; [exact S|]. split; [exact L|]. intros x Hx. apply Cc in Hx. apply in_app_or in Hx. destruct Hx as [Hx|Hx]; [right; apply in_or_app; left; exact Hx|]. apply Ic in Hx. destruct Hx as [<-|Hx]; [left; reflexivity|right; apply in_or_app; right; exact Hx].
    + destruct (go_ok max ended q I) as (q1 & ev1 & E1 & I1 & S1 & L1 & C1). rewrite E1. cbn [bind]. cbn [added flat_map app] in *. destruct (IH q1 I1 N) as (q' & ev & E & Iq & S & L & Cc); [intros x Hx Q; apply (F x Hx), C1, Q|].
      rewrite E. cbn [bind]. exists q', (ev1 ++ ev). split; [reflexivity|]. split; [exact Iq|]. split; [apply all_safe_app; [exact S1|rewrite L1; exact S]|]. split; [unfold live_from in *; rewrite fold_left_app, L1; exact L|]. intros x Hx. apply Cc in Hx. apply in_app_or in Hx. apply in_or_app. destruct Hx as [Hx|Hx]; [left; exact Hx|right; apply C1, Hx].
Qed.
Lemma run_app max a : forall b q, run max q (a ++ b) = let! (q1, e1) := run max q a in let! (q2, e2) := run max q1 b in Ok (q2, e1 ++ e2).
Proof.
  induction a as [|o a IH]; intros b q; cbn [app run].
  - cbn [bind]. destruct (run max q b) as [[q' e']| |]; reflexivity.
  - destruct (step max q o) as [[q1 e1]| |]; cbn [bind]; try reflexivity. rewrite IH. destruct (run max q1 a) as [[q2 e2]| |]; cbn [bind]; try reflexivity. destruct (run max q2 b) as [[q3 e3]| |]; cbn [bind]; try reflexivity. rewrite app_assoc. reflexivity.
Qed.
Lemma inv_empty max : inv max empty.
Proof. split; [split; [cbn; lia|intros Q; discriminate]|]. split; constructor. Qed.
