(** Proofs that WvCont does what continuations are *)
From Verif Require Import Base ContModel ContSpec.
Local Open Scope nat_scope.

(** ** Counting *)
Lemma upd_same {A} (f : nat -> A) n x : upd f n x n = x.
Proof. unfold upd. rewrite Nat.eqb_refl. reflexivity. Qed.
Lemma upd_other {A} (f : nat -> A) n x m : m <> n -> upd f n x m = f m.
Proof. intros H. unfold upd. rewrite (proj2 (Nat.eqb_neq m n) H). reflexivity. Qed.
Lemma filter_same {A} (f g : A -> bool) l : (forall x, In x l -> f x = g x) -> filter f l = filter g l.
Proof. induction l as [|x l IH]; intros H; [reflexivity|]. cbn. rewrite (H x (or_introl eq_refl)), IH; [reflexivity|]. intros y Hy. apply H. right. exact Hy. Qed.
Lemma refs_new h n e d : refs (upd h n (Some e)) (S n) d = refs h n d + (if Nat.eqb e d then 1 else 0).
Proof.
  unfold refs. rewrite seq_S, filter_app, app_length. cbn [filter plus]. rewrite upd_same. f_equal; [|destruct (Nat.eqb e d); reflexivity].
  f_equal. apply filter_same. intros x Hx. apply in_seq in Hx. rewrite upd_other by lia. reflexivity.
Qed.
Lemma refs_drop h n k e d : k < n -> h k = Some e -> refs h n d = refs (upd h k None) n d + (if Nat.eqb e d then 1 else 0).
Proof.
  intros L E. unfold refs. replace n with (k + S (n - S k)) by lia. rewrite seq_app. cbn [seq plus]. rewrite !filter_app, !app_length. cbn [filter]. rewrite upd_same, E.
  rewrite (filter_same (fun h0 => match upd h k None h0 with Some e0 => Nat.eqb e0 d | None => false end) (fun h0 => match h h0 with Some e0 => Nat.eqb e0 d | None => false end) (seq 0 k)) by (intros x Hx; apply in_seq in Hx; rewrite upd_other by lia; reflexivity).
  rewrite (filter_same (fun h0 => match upd h k None h0 with Some e0 => Nat.eqb e0 d | None => false end) (fun h0 => match h h0 with Some e0 => Nat.eqb e0 d | None => false end) (seq (S k) (n - S k))) by (intros x Hx; apply in_seq in Hx; rewrite upd_other by lia; reflexivity).
  destruct (Nat.eqb e d); cbn [length]; lia.
Qed.
Lemma refs_pos h n k d : k < n -> h k = Some d -> 1 <= refs h n d.
Proof. intros L E. rewrite (refs_drop h n k d d L E), Nat.eqb_refl. lia. Qed.
Lemma refs_zero h n d : (forall k, h k <> Some d) -> refs h n d = 0.
Proof. intros H. unfold refs. replace (filter _ _) with (@nil nat); [reflexivity|]. symmetry. induction (seq 0 n) as [|x l IH]; [reflexivity|]. cbn. destruct (h x) as [e|] eqn:E; [|exact IH]. destruct (Nat.eqb_spec e d) as [->|]; [elim (H x E)|exact IH]. Qed.
Fixpoint weight (d : nat) (l : list (nat * caller)) : nat :=
  match l with [] => 0 | (e, a) :: r => (if Nat.eqb e d then match a with Gets _ => 1 | Dropping _ => 2 end else 0) + weight d r end.
Lemma weight_in d l : weight d l = 0 <-> ~ In d (map fst l).
Proof.
  induction l as [|[e a] l IH]; cbn; [tauto|]. destruct (Nat.eqb_spec e d) as [->|N]; [split; [destruct a; lia|tauto]|]. rewrite IH. intuition.
Qed.

(** ** Contexts *)
Definition tk (s : st) (d : nat) : option nat := match datas s d with Some x => task x | None => None end.
Definition owner (s : st) (l : list (nat * caller)) : option nat := match l with [] => None | (d, _) :: _ => tk s d end.
Definition ctx_of (s : st) (l : list (nat * caller)) : ctx :=
  match l with [] => top s | (d, _) :: _ => match tk s d with Some t => saved (tasks s t) | None => Loop end end.
Definition conv (d : nat) (a : caller) : after := match a with Gets k => ToCode k | Dropping k => ToDtor d k end.
Definition head (l : list (nat * caller)) : option nat := match l with [] => None | (d, _) :: _ => Some d end.
Fixpoint chain (s : st) (l : list (nat * caller)) : Prop :=
  match l with
  | [] => True
  | (d, a) :: r =>
      (exists x t, datas s d = Some x /\ mydepth x = length l /\ task x = Some t /\ arg (tasks s t) = d) /\
      ctx_of s r = InRun d (head r) (owner s r) (conv d a) /\ chain s r
  end.
Definition owned (s : st) : Prop :=
  forall d t, tk s d = Some t -> t < ntask s /\ recycled (tasks s t) = false /\ ~ In t (free s) /\ (forall e, tk s e = Some t -> e = d).
Definition spare (s : st) : Prop :=
  NoDup (free s) /\ forall t, In t (free s) -> t < ntask s /\ running (tasks s t) = false /\ saved (tasks s t) = Loop.
(** No task is forgotten *)
Definition kept (s : st) : Prop := forall t, t < ntask s -> In t (free s) \/ exists d, tk s d = Some t.
Definition dok (i : ist) (s : st) (d : nat) : Prop :=
  match conts i d, datas s d with
  | None, None => True
  | Some c, Some x =>
      links x = refs (handles i) (nhandle i) d + weight d (stack i) /\ finishing x = dying c /\ fn x = body c /\
      match state_of c with
      | Idle => mydepth x = 0 /\ weight d (stack i) = 0 /\ (forall t, task x = Some t -> running (tasks s t) = false /\ saved (tasks s t) = Loop)
      | Waiting k => mydepth x = 0 /\ weight d (stack i) = 0 /\ exists t, task x = Some t /\ running (tasks s t) = true /\ saved (tasks s t) = AtYield k /\ arg (tasks s t) = d
      | Active => weight d (stack i) <> 0
      end
  | _, _ => False
  end.
Record corep (P : nat -> Prop) (i : ist) (s : st) : Prop := {
  k_nd : ndata s = ncont i;
  k_nobj : nobj s = nhandle i;
  k_objs : forall h, objs s h = handles i h;
  k_said : said s = heard i;
  k_hfresh : forall h, nhandle i <= h -> handles i h = None;
  k_dfresh : forall d, ncont i <= d -> conts i d = None;
  k_hd : forall h d, handles i h = Some d -> conts i d <> None;
  k_depth : depth s = length (stack i);
  k_dok : forall d, P d -> dok i s d;
  k_own : owned s;
  k_free : spare s;
  k_kept : kept s;
  k_nodup : NoDup (map fst (stack i));
  k_chain : chain s (stack i);
  k_drop : forall d k, In (d, Dropping k) (stack i) -> refs (handles i) (nhandle i) d = 0 /\ is_dying i d = true;
  k_run : forall d t, In d (map fst (tl (stack i))) -> tk s d = Some t -> running (tasks s t) = true }.
Definition core := corep (fun _ => True).
Record rel (i : ist) (s : st) : Prop := {
  r_core : core i s;
  r_curdata : curdata s = head (stack i);
  r_cur : cur s = owner s (stack i);
  r_top : forall t, owner s (stack i) = Some t -> running (tasks s t) = true }.

(** States that differ in nothing that matters to contexts *)
Record like (s s' : st) : Prop := {
  l_tk : forall d, tk s' d = tk s d;
  l_depth : forall d, option_map mydepth (datas s' d) = option_map mydepth (datas s d);
  l_task : forall t, tasks s' t = tasks s t;
  l_top : top s' = top s }.
Lemma like_owner s s' l : like s s' -> owner s' l = owner s l.
Proof. intros L. destruct l as [|[d a] l]; [reflexivity|]. apply (l_tk s s' L). Qed.
Lemma like_ctx s s' l : like s s' -> ctx_of s' l = ctx_of s l.
Proof. intros L. destruct l as [|[d a] l]; cbn; [apply (l_top s s' L)|]. rewrite (l_tk s s' L). destruct (tk s d); [rewrite (l_task s s' L)|]; reflexivity. Qed.
Lemma like_chain s s' l : like s s' -> chain s l -> chain s' l.
Proof.
  intros L. induction l as [|[d a] l IH]; [tauto|]. cbn [chain]. rewrite (like_ctx s s' l L), (like_owner s s' l L). intros ((x & t & A & B & C & D) & E & F). split; [|auto].
  pose proof (l_tk s s' L d) as T. pose proof (l_depth s s' L d) as M. unfold tk in T. rewrite A in T, M. destruct (datas s' d) as [y|]; [|discriminate]. cbn in M. exists y, t. split; [reflexivity|]. split; [congruence|]. split; [congruence|]. rewrite (l_task s s' L). exact D.
Qed.

(** ** Coming back to the innermost caller *)
Definition mark (x : data) : data := if Nat.eqb (links x) 1 then finish x else x.
Definition listed (d : nat) (l : list (nat * caller)) : bool := existsb (fun p => Nat.eqb (fst p) d) l.
Lemma listed_in d l : listed d l = true <-> In d (map fst l).
Proof.
  unfold listed. rewrite existsb_exists, in_map_iff. split; [intros (p & A & B); apply Nat.eqb_eq in B; eauto|intros (p & A & B); exists p; split; [exact B|apply Nat.eqb_eq; exact A]].
Qed.
Record marked (r : list (nat * caller)) (s s' : st) : Prop := {
  m_task : forall t, tasks s' t = tasks s t;
  m_top : top s' = top s;
  m_free : free s' = free s;
  m_objs : objs s' = objs s;
  m_nd : ndata s' = ndata s;
  m_nt : ntask s' = ntask s;
  m_no : nobj s' = nobj s;
  m_cd : curdata s' = curdata s;
  m_depth : depth s' = depth s;
  m_said : said s' = said s;
  m_datas : forall d, datas s' d = match datas s d with Some x => Some (if listed d r then mark x else x) | None => None end }.
Lemma mark_task x : task (mark x) = task x.
Proof. unfold mark. destruct (Nat.eqb (links x) 1); reflexivity. Qed.
Lemma mark_depth x : mydepth (mark x) = mydepth x.
Proof. unfold mark. destruct (Nat.eqb (links x) 1); reflexivity. Qed.
Lemma marked_like r s s' : marked r s s' -> like s s'.
Proof.
  intros M. constructor.
  - intros d. unfold tk. rewrite (m_datas r s s' M). destruct (datas s d); [|reflexivity]. destruct (listed d r); [apply mark_task|reflexivity].
  - intros d. rewrite (m_datas r s s' M). destruct (datas s d); [|reflexivity]. destruct (listed d r); cbn; [rewrite mark_depth|]; reflexivity.
  - apply (m_task r s s' M).
  - apply (m_top r s s' M).
Qed.
Lemma steps_add fns a b c : steps fns (a + b) c = steps fns b (steps fns a c).
Proof. revert c. induction a as [|a IH]; intros c; [reflexivity|]. cbn. apply IH. Qed.
Lemma steps_last fns n c : steps fns (S n) c = step fns (fst (steps fns n c)) (snd (steps fns n c)).
Proof. replace (S n) with (n + 1) by lia. rewrite steps_add. reflexivity. Qed.
Lemma save_saved y : save y (saved y) = y.
Proof. destruct y. reflexivity. Qed.
Lemma chain_tk s d a r : chain s ((d, a) :: r) -> exists t, tk s d = Some t.
Proof. intros ((x & t & A & _ & B & _) & _). exists t. unfold tk. rewrite A. exact B. Qed.
(** One level: run is done again *)
Lemma rerun s1 d old a x t r :
  datas s1 d = Some x -> task x = Some t -> recycled (tasks s1 t) = false ->
  cur s1 = owner s1 r -> ctx_of s1 r = InRun d old (owner s1 r) a -> owner s1 r <> Some t -> (owner s1 r = None -> r = []) ->
  exists s2, run s1 d old a = (Back (saved (tasks s1 t)), s2) /\ cur s2 = Some t /\
    (forall u, tasks s2 u = tasks s1 u) /\ top s2 = top s1 /\ free s2 = free s1 /\ objs s2 = objs s1 /\ ndata s2 = ndata s1 /\ ntask s2 = ntask s1 /\ nobj s2 = nobj s1 /\ curdata s2 = curdata s1 /\ depth s2 = depth s1 /\ said s2 = said s1 /\ datas s2 = datas s1.
Proof.
  intros A B C D E F G. unfold run. rewrite A, B, C. destruct (cur s1) as [c|] eqn:Ec.
  - destruct (Nat.eqb_spec c t) as [->|N]; [congruence|].
    assert (T : forall u, upd (tasks s1) c (save (tasks s1 c) (InRun d old (Some c) a)) u = tasks s1 u).
    { intros u. unfold upd. destruct (Nat.eqb_spec u c) as [->|]; [|reflexivity]. rewrite <- D in E. destruct r as [|[e b] r]; [discriminate|]. cbn in D, E. rewrite <- D in E. rewrite <- E. apply save_saved. }
    eexists. split; [f_equal; cbn [set_task tasks]; rewrite T; reflexivity|]. cbn. repeat split; auto.
  - eexists. split; [reflexivity|]. cbn. repeat split; auto. rewrite <- D in E, G. rewrite (G eq_refl) in E. cbn in E. symmetry. exact E.
Qed.
Lemma owner_none s r : chain s r -> owner s r = None -> r = [].
Proof. destruct r as [|[d a] r]; [reflexivity|]. intros C O. destruct (chain_tk s d a r C) as [t T]. cbn in O. congruence. Qed.
Lemma bounce fns r : forall s, chain s r -> NoDup (map fst r) -> owned s -> length r < depth s ->
  exists s', steps fns (length r) (Back (top s), s) = (Back (ctx_of s r), s') /\ marked r s s' /\ (r <> [] -> cur s' = owner s r).
Proof.
  induction r as [|[d a] r IH]; intros s C N O L.
  - exists s. split; [reflexivity|]. split; [|congruence]. constructor; auto. intros d. destruct (datas s d); reflexivity.
  - destruct C as ((x & t & A & B & Ct & D) & E & F). cbn [map] in N. apply NoDup_cons_iff in N. destruct N as [N1 N2]. cbn [length] in *. destruct (IH s F N2 O ltac:(lia)) as (s1 & S1 & M & Hc).
    pose proof (marked_like r s s1 M) as Lk. cbn [length] in L.
    assert (Td : tk s d = Some t) by (unfold tk; rewrite A; exact Ct). destruct (O d t Td) as (O1 & O2 & O3 & O4).
    assert (Ld : listed d r = false) by (apply Bool.not_true_is_false; intros X; apply listed_in in X; contradiction).
    assert (A1 : datas s1 d = Some x) by (rewrite (m_datas r s s1 M), A, Ld; reflexivity).
    set (s2 := set_data (set_cur s1 (owner s r)) d (Some (mark x))).
    assert (Lk2 : like s s2).
    { constructor; cbn [s2 set_data set_cur datas tasks top]; [|intros e|apply (l_task s s1 Lk)|apply (l_top s s1 Lk)].
      - intros e. unfold tk. cbn [s2 set_data set_cur datas]. unfold upd. destruct (Nat.eqb_spec e d) as [->|]; [rewrite A; apply mark_task|]. apply (l_tk s s1 Lk e).
      - unfold upd. destruct (Nat.eqb_spec e d) as [->|]; [rewrite A; cbn; rewrite mark_depth; reflexivity|]. apply (l_depth s s1 Lk e). }
    destruct (rerun s2 d (head r) (conv d a) (mark x) t r) as (s3 & R & R1 & R2 & R3 & R4 & R5 & R6 & R7 & R8 & R9 & R10 & R11 & R12).
    + cbn. apply upd_same.
    + rewrite mark_task. exact Ct.
    + rewrite (l_task s s2 Lk2). exact O2.
    + rewrite (like_owner s s2 r Lk2). reflexivity.
    + rewrite (like_ctx s s2 r Lk2), (like_owner s s2 r Lk2). exact E.
    + rewrite (like_owner s s2 r Lk2). intros X. destruct r as [|[e b] r]; [discriminate|]. cbn in X. apply O4 in X. subst e. apply N1. left. reflexivity.
    + rewrite (like_owner s s2 r Lk2). apply owner_none. exact F.
    + exists s3. split; [|split].
      * rewrite steps_last, S1. cbn [fst snd]. rewrite E. cbn [step]. unfold called. change (datas (set_cur s1 (owner s r)) d) with (datas s1 d). rewrite A1. fold (mark x). fold s2.
        replace (mydepth (mark x) <? depth s2) with true by (symmetry; apply Nat.ltb_lt; rewrite mark_depth, B; cbn; rewrite (m_depth r s s1 M); lia).
        rewrite R. rewrite (l_task s s2 Lk2). destruct (finishing (mark x) && is_running s2 (mark x)); cbn [ctx_of]; rewrite Td; reflexivity.
      * constructor.
        -- intros u. rewrite R2. apply (l_task s s2 Lk2).
        -- rewrite R3. apply (l_top s s2 Lk2).
        -- rewrite R4. apply (m_free r s s1 M).
        -- rewrite R5. apply (m_objs r s s1 M).
        -- rewrite R6. apply (m_nd r s s1 M).
        -- rewrite R7. apply (m_nt r s s1 M).
        -- rewrite R8. apply (m_no r s s1 M).
        -- rewrite R9. apply (m_cd r s s1 M).
        -- rewrite R10. apply (m_depth r s s1 M).
        -- rewrite R11. apply (m_said r s s1 M).
        -- intros e. rewrite R12. cbn [s2 set_data set_cur datas]. unfold upd. cbn [listed existsb fst]. rewrite (Nat.eqb_sym d e). destruct (Nat.eqb_spec e d) as [->|]; [rewrite A; reflexivity|]. apply (m_datas r s s1 M).
      * intros _. rewrite R1. cbn. symmetry. exact Td.
Qed.

(** ** Keeping the relation *)
Lemma chain_frame s s' l :
  (forall d x, In d (map fst l) -> datas s d = Some x -> exists y, datas s' d = Some y /\ mydepth y = mydepth x /\ task y = task x) ->
  (forall d t, In d (map fst l) -> tk s d = Some t -> arg (tasks s' t) = arg (tasks s t)) ->
  (forall d t, In d (map fst (tl l)) -> tk s d = Some t -> saved (tasks s' t) = saved (tasks s t)) ->
  (l <> [] -> top s' = top s) -> chain s l -> chain s' l.
Proof.
  induction l as [|[d a] l IH]; [tauto|]. intros A B C T ((x & t & E & F & G & H) & I & J). cbn [chain map fst tl] in *.
  assert (K : forall e, In e (map fst l) -> tk s' e = tk s e \/ datas s e = None).
  { intros e Ie. unfold tk. destruct (datas s e) as [z|] eqn:Ez; [|auto]. left. destruct (A e z (or_intror Ie) Ez) as (y & -> & _ & ->). reflexivity. }
  split; [|split].
  - destruct (A d x (or_introl eq_refl) E) as (y & Y1 & Y2 & Y3). exists y, t. split; [exact Y1|]. split; [congruence|]. split; [congruence|]. rewrite (B d t (or_introl eq_refl)); [exact H|]. unfold tk. rewrite E. exact G.
  - destruct l as [|[e b] l]; [cbn in *; rewrite T by discriminate; exact I|]. cbn [ctx_of owner] in *. destruct J as ((z & u & Z1 & _ & Z2 & _) & _).
    assert (Te : tk s e = Some u) by (unfold tk; rewrite Z1; exact Z2). destruct (K e (or_introl eq_refl)) as [K1|K1]; [|congruence]. rewrite K1, Te in *. rewrite (C e u (or_introl eq_refl) Te). exact I.
  - apply IH; [intros e z Ie; apply A; right; exact Ie|intros e u Ie; apply B; right; exact Ie|intros e u Ie; apply C; destruct l; [contradiction|right; exact Ie]|intros _; apply T; discriminate|exact J].
Qed.
Lemma chain_data s l : chain s l -> forall d, In d (map fst l) -> exists x t, datas s d = Some x /\ task x = Some t /\ arg (tasks s t) = d /\ 1 <= mydepth x.
Proof.
  induction l as [|[e a] l IH]; [contradiction|]. intros ((x & t & A & B & C & D) & _ & F) d [<-|I]; [|exact (IH F d I)]. exists x, t. cbn in B. repeat split; auto; cbn [fst] in *; try assumption; lia.
Qed.
Lemma dok_frame i s i' s' d :
  dok i s d -> conts i' d = conts i d -> datas s' d = datas s d ->
  refs (handles i') (nhandle i') d = refs (handles i) (nhandle i) d -> weight d (stack i') = weight d (stack i) ->
  (forall t, tk s d = Some t -> weight d (stack i) = 0 -> running (tasks s' t) = running (tasks s t) /\ saved (tasks s' t) = saved (tasks s t) /\ arg (tasks s' t) = arg (tasks s t)) -> dok i' s' d.
Proof.
  unfold dok. intros D -> -> -> -> T. destruct (conts i d) as [c|], (datas s d) as [x|] eqn:Ex; auto. destruct D as (A & B & C & E). split; [exact A|]. split; [exact B|]. split; [exact C|].
  assert (T' : forall t, task x = Some t -> weight d (stack i) = 0 -> running (tasks s' t) = running (tasks s t) /\ saved (tasks s' t) = saved (tasks s t) /\ arg (tasks s' t) = arg (tasks s t)) by (intros t Ht; apply T; unfold tk; rewrite Ex; exact Ht).
  destruct (state_of c).
  - destruct E as (E1 & E2 & E3). split; [exact E1|]. split; [exact E2|]. intros t Ht. destruct (T' t Ht E2) as (-> & -> & _). auto.
  - destruct E as (E1 & E2 & t & E3 & E4 & E5 & E6). split; [exact E1|]. split; [exact E2|]. exists t. destruct (T' t E3 E2) as (-> & -> & ->). auto.
  - exact E.
Qed.
Lemma core_cur P i s x : corep P i s -> corep P i (set_cur s x).
Proof. intros H. constructor; try apply H. apply (chain_frame s); eauto. apply H. Qed.
Lemma core_curdata P i s x : corep P i s -> corep P i (set_curdata s x).
Proof. intros H. constructor; try apply H. apply (chain_frame s); eauto. apply H. Qed.
Lemma core_weaken P i s : core i s -> corep P i s.
Proof. intros H. destruct H. constructor; auto. Qed.
Lemma owned_data s d x y : owned s -> datas s d = Some x -> task y = task x -> owned (set_data s d (Some y)).
Proof.
  intros O E T e t. assert (K : forall e, tk (set_data s d (Some y)) e = tk s e) by (intros z; unfold tk; cbn; unfold upd; destruct (Nat.eqb_spec z d) as [->|]; [rewrite E; exact T|reflexivity]).
  rewrite K. intros H. destruct (O e t H) as (A & B & C & D). split; [exact A|]. split; [exact B|]. split; [exact C|]. intros z. rewrite K. apply D.
Qed.
(** Data of [d] changes *)
Lemma touch i s d x y : corep (fun e => e <> d) i s -> datas s d = Some x -> task y = task x -> (weight d (stack i) = 0 \/ mydepth y = mydepth x) ->
  corep (fun e => e <> d) i (set_data s d (Some y)).
Proof.
  intros H E T W. constructor; try apply H.
  - intros e N. apply (dok_frame i s); auto; [apply (k_dok _ i s H e N)|]. cbn. apply upd_other. exact N.
  - exact (owned_data s d x y (k_own _ i s H) E T).
  - intros t L. destruct (k_kept _ i s H t L) as [F|[e He]]; [left; exact F|]. right. exists e. rewrite <- He. unfold tk. cbn. unfold upd. destruct (Nat.eqb_spec e d) as [->|]; [rewrite E; exact T|reflexivity].
  - apply (chain_frame s); auto; [|apply H]. intros e z Ie Ez. cbn. unfold upd. destruct (Nat.eqb_spec e d) as [->|]; [|eauto].
    destruct W as [W|W]; [apply weight_in in W; contradiction|]. exists y. replace z with x by congruence. auto.
  - intros e t Ie Te. cbn. apply (k_run _ i s H e t Ie). unfold tk in *. cbn in Te. unfold upd in Te. destruct (Nat.eqb_spec e d) as [->|]; [rewrite E, <- T; exact Te|exact Te].
Qed.
(** [d] is good again *)
Lemma settle i s d c c' : corep (fun e => e <> d) i s -> conts i d = Some c -> (dying c = true -> dying c' = true) ->
  dok (set_cont i d (Some c')) s d -> core (set_cont i d (Some c')) s.
Proof.
  intros H E Dy K. constructor; try apply H.
  - intros e L. cbn. unfold upd. destruct (Nat.eqb_spec e d) as [->|]; [|apply (k_dfresh _ i s H e L)]. rewrite (k_dfresh _ i s H d L) in E. discriminate.
  - intros h e He. cbn. unfold upd. destruct (Nat.eqb_spec e d); [discriminate|]. exact (k_hd _ i s H h e He).
  - intros e _. destruct (Nat.eq_dec e d) as [->|N]; [exact K|]. apply (dok_frame i s); auto; [apply (k_dok _ i s H e N)|]. cbn. apply upd_other. exact N.
  - intros e k I. destruct (k_drop _ i s H e k I) as [A B]. split; [exact A|]. unfold is_dying in *. cbn. unfold upd. destruct (Nat.eqb_spec e d) as [->|]; [rewrite E in B; exact (Dy B)|exact B].
Qed.
Lemma core_settle i s d : corep (fun e => e <> d) i s -> dok i s d -> core i s.
Proof. intros H K. constructor; try apply H. intros e _. destruct (Nat.eq_dec e d) as [->|N]; [exact K|apply (k_dok _ i s H e N)]. Qed.
Definition free_task (s : st) (t : nat) : st := set_free (set_task s t (Tsk false true (arg (tasks s t)) (stacksize (tasks s t)) (saved (tasks s t)))) (free s ++ [t]).
Lemma recycle_owned s t : running (tasks s t) = false -> recycled (tasks s t) = false -> recycle s t = Some (free_task s t).
Proof. intros A B. unfold recycle. rewrite A, B. reflexivity. Qed.
Lemma NoDup_snoc {A} (l : list A) x : NoDup l -> ~ In x l -> NoDup (l ++ [x]).
Proof. intros N I. apply NoDup_rev in N. rewrite <- (rev_involutive (l ++ [x])), rev_app_distr. apply NoDup_rev. constructor; [rewrite <- in_rev; exact I|exact N]. Qed.
Lemma no_handle P i s d : corep P i s -> refs (handles i) (nhandle i) d = 0 -> forall h, handles i h <> Some d.
Proof.
  intros H R h Eh. destruct (Nat.le_gt_cases (nhandle i) h) as [L|L]; [rewrite (k_hfresh _ i s H h L) in Eh; discriminate|]. pose proof (refs_pos _ _ _ _ L Eh). lia.
Qed.
(** [d] is deleted *)
Lemma gone i s d x : corep (fun e => e <> d) i s -> datas s d = Some x -> weight d (stack i) = 0 -> refs (handles i) (nhandle i) d = 0 ->
  (forall t, task x = Some t -> running (tasks s t) = false /\ saved (tasks s t) = Loop) ->
  core (set_cont i d None) (set_data (match task x with Some t => free_task s t | None => s end) d None).
Proof.
  intros H E W R T. pose proof (no_handle _ i s d H R) as NH.
  set (s' := set_data _ d None).
  assert (Dt : forall e, e <> d -> datas s' e = datas s e) by (intros e N; subst s'; destruct (task x); cbn; apply upd_other; exact N).
  assert (Dd : datas s' d = None) by (subst s'; destruct (task x); cbn; apply upd_same).
  assert (Tk : forall e, e <> d -> tk s' e = tk s e) by (intros e N; unfold tk; rewrite Dt by exact N; reflexivity).
  assert (Tkd : tk s' d = None) by (unfold tk; rewrite Dd; reflexivity).
  assert (Ts : forall u, task x <> Some u -> tasks s' u = tasks s u) by (intros u N; subst s'; destruct (task x) as [t|]; cbn; [apply upd_other; congruence|reflexivity]).
  assert (Tsv : forall u, saved (tasks s' u) = saved (tasks s u) /\ arg (tasks s' u) = arg (tasks s u)).
  { intros u. subst s'. destruct (task x) as [t|]; cbn; [|auto]. unfold upd. destruct (Nat.eqb_spec u t) as [->|]; auto. }
  assert (Ow : forall e t, e <> d -> tk s e = Some t -> task x <> Some t).
  { intros e t N He Hx. destruct (k_own _ i s H e t He) as (_ & _ & _ & U). elim N. symmetry. apply U. unfold tk. rewrite E. exact Hx. }
  assert (Nt : ntask s' = ntask s) by (subst s'; destruct (task x); reflexivity).
  constructor; try apply H; try (subst s'; destruct (task x); cbn; apply H).
  - intros e L. cbn. unfold upd. destruct (Nat.eqb_spec e d); [reflexivity|]. apply (k_dfresh _ i s H e L).
  - intros h e He. cbn. unfold upd. destruct (Nat.eqb_spec e d) as [->|]; [elim (NH h He)|]. exact (k_hd _ i s H h e He).
  - intros e _. destruct (Nat.eq_dec e d) as [->|N]; [unfold dok; rewrite Dd; cbn; rewrite upd_same; exact I|]. apply (dok_frame i s); auto; [apply (k_dok _ i s H e N)|cbn; apply upd_other; exact N|].
    intros t Ht _. rewrite (Ts t (Ow e t N Ht)). auto.
  - intros e t He. destruct (Nat.eq_dec e d) as [->|N]; [congruence|]. rewrite Tk in He by exact N. destruct (k_own _ i s H e t He) as (A & B & C & U). rewrite Nt, (Ts t (Ow e t N He)). split; [exact A|]. split; [exact B|]. split.
    + subst s'. pose proof (Ow e t N He) as X. destruct (task x) as [u|]; cbn; [|exact C]. intros I. apply in_app_or in I. destruct I as [I|[I|[]]]; [contradiction|congruence].
    + intros z Hz. destruct (Nat.eq_dec z d) as [->|Nz]; [congruence|]. rewrite Tk in Hz by exact Nz. exact (U z Hz).
  - destruct (k_free _ i s H) as [F1 F2]. destruct (task x) as [t|] eqn:Et; [|exact (conj F1 F2)]. assert (Td : tk s d = Some t) by (unfold tk; rewrite E; exact Et). destruct (k_own _ i s H d t Td) as (A & B & C & U). destruct (T t eq_refl) as [T1 T2]. split; subst s'; cbn.
    + apply NoDup_snoc; assumption.
    + intros u I. unfold upd. destruct (Nat.eqb_spec u t) as [->|N]; [auto|]. apply in_app_or in I. destruct I as [I|[I|[]]]; [exact (F2 u I)|congruence].
  - intros t L. rewrite Nt in L. destruct (k_kept _ i s H t L) as [F|[e He]]; [left; subst s'; destruct (task x); cbn; [apply in_or_app; left|]; exact F|].
    destruct (Nat.eq_dec e d) as [->|N]; [|right; exists e; rewrite Tk by exact N; exact He]. left. unfold tk in He. rewrite E in He. subst s'. rewrite He. cbn. apply in_or_app. right. left. reflexivity.
  - apply weight_in in W. assert (Nd : forall e, In e (map fst (stack i)) -> e <> d) by (intros e I ->; contradiction). apply (chain_frame s); try apply H.
    + intros e z I Ez. exists z. rewrite Dt by auto. auto.
    + intros e t I He. apply Tsv.
    + intros e t I He. apply Tsv.
    + intros _. subst s'. destruct (task x); reflexivity.
  - intros e k I. destruct (k_drop _ i s H e k I) as [A B]. split; [exact A|]. unfold is_dying in *. cbn. unfold upd. destruct (Nat.eqb_spec e d); [reflexivity|exact B].
  - apply weight_in in W. intros e t I He. assert (Ie : In e (map fst (stack i))) by (cbn in I; destruct (stack i); [contradiction|right; exact I]). assert (N : e <> d) by congruence. rewrite Tk in He by exact N. rewrite (Ts t (Ow e t N He)). exact (k_run _ i s H e t I He).
Qed.
(** The innermost returns *)
Lemma pop i s d a r x : corep (fun e => e <> d) i s -> stack i = (d, a) :: r -> datas s d = Some x ->
  corep (fun e => e <> d) (set_stack i r) (set_data (set_depth s (depth s - 1)) d (Some (with_depth x 0))).
Proof.
  intros H E Ex. pose proof (k_chain _ i s H) as C. pose proof (k_nodup _ i s H) as N. rewrite E in C, N. cbn [map fst] in N. apply NoDup_cons_iff in N. destruct N as [N1 N2].
  pose proof (k_depth _ i s H) as Dp. rewrite E in Dp. cbn [length] in Dp.
  assert (H' : corep (fun e => e <> d) (set_stack i r) (set_depth s (depth s - 1))).
  { constructor; try apply H.
    - cbn. lia.
    - intros e Ne. apply (dok_frame i s); auto; [apply (k_dok _ i s H e Ne)|]. cbn. rewrite E. cbn. rewrite (proj2 (Nat.eqb_neq d e)) by congruence. reflexivity.
    - exact N2.
    - destruct C as (_ & _ & C). apply (chain_frame s); auto. eauto.
    - intros e k I. apply (k_drop _ i s H e k). rewrite E. right. exact I.
    - intros e t I. apply (k_run _ i s H e t). rewrite E. cbn in *. destruct r; [contradiction|]. right. exact I. }
  apply (touch _ (set_depth s (depth s - 1)) d x); auto. left. cbn. apply weight_in. exact N1.
Qed.
(** A new reference *)
Lemma add_ref i s d x : core i s -> datas s d = Some x -> (forall k, ~ In (d, Dropping k) (stack i)) ->
  core (new_handle i d) (add_obj (set_data s d (Some (with_links x (S (links x))))) d).
Proof.
  intros H E ND. assert (Cd : conts i d <> None) by (pose proof (k_dok _ i s H d I) as K; unfold dok in K; rewrite E in K; destruct (conts i d); [discriminate|contradiction]).
  apply (core_settle _ _ d).
  - pose proof (touch i s d x (with_links x (S (links x))) (core_weaken _ i s H) E eq_refl (or_intror eq_refl)) as H'. constructor; try apply H'.
    + cbn. rewrite (k_nobj _ i s H). reflexivity.
    + intros h. cbn. rewrite (k_nobj _ i s H). unfold upd. destruct (Nat.eqb h (nhandle i)); [reflexivity|apply (k_objs _ i s H)].
    + intros h L. cbn in *. rewrite upd_other by lia. apply (k_hfresh _ i s H). lia.
    + intros h e He. cbn in *. unfold upd in He. destruct (Nat.eqb h (nhandle i)); [congruence|exact (k_hd _ i s H h e He)].
    + intros e N. apply (dok_frame i (set_data s d (Some (with_links x (S (links x)))))); auto; [apply (k_dok _ _ _ H' e N)|]. cbn [new_handle handles nhandle]. rewrite refs_new, (proj2 (Nat.eqb_neq d e)) by congruence. lia.
    + apply (chain_frame (set_data s d (Some (with_links x (S (links x)))))); eauto. apply H'.
    + intros e k Ik. destruct (k_drop _ _ _ H' e k Ik) as [A B]. split; [|exact B]. cbn [new_handle handles nhandle]. rewrite refs_new, A. destruct (Nat.eqb_spec d e) as [->|]; [elim (ND k Ik)|reflexivity].
  - pose proof (k_dok _ i s H d I) as K. unfold dok in *. rewrite E in K. cbn [add_obj set_data datas new_handle conts handles nhandle stack tasks]. rewrite upd_same. destruct (conts i d) as [c|]; [|contradiction]. destruct K as (A & B & C & D). cbn [with_links links finishing fn mydepth task]. rewrite refs_new, Nat.eqb_refl. split; [lia|]. split; [exact B|]. split; [exact C|]. destruct (state_of c); exact D.
Qed.
(** A call *)
Lemma push i s d c x t a :
  corep (fun e => e <> d) i s -> curdata s = head (stack i) -> cur s = owner s (stack i) -> (forall u, owner s (stack i) = Some u -> running (tasks s u) = true) ->
  conts i d = Some c -> datas s d = Some x -> weight d (stack i) = 0 ->
  links x = refs (handles i) (nhandle i) d + (match a with Gets _ => 0 | Dropping _ => 1 end) -> finishing x = dying c -> fn x = body c -> mydepth x = 0 ->
  task x = Some t -> running (tasks s t) = true -> arg (tasks s t) = d ->
  (forall k, a = Dropping k -> refs (handles i) (nhandle i) d = 0 /\ dying c = true) ->
  exists s' y, call s d (conv d a) = (Back (saved (tasks s t)), s') /\
    rel (set_stack (set_cont i d (Some (Cont (body c) Active (dying c)))) ((d, a) :: stack i)) s' /\
    datas s' d = Some y /\ p1 y = p1 x /\ fn y = fn x /\ cur s' = Some t /\ curdata s' = Some d /\ tasks s' t = tasks s t.
Proof.
  intros H Hcd Hcu Hrun Ec Ex W Lx Fx Bx Mx Tx Rt At Dr.
  assert (Td : tk s d = Some t) by (unfold tk; rewrite Ex; exact Tx). destruct (k_own _ i s H d t Td) as (O1 & O2 & O3 & O4).
  pose proof (proj1 (weight_in d (stack i)) W) as Nd.
  assert (Not : owner s (stack i) <> Some t).
  { intros X. destruct (stack i) as [|[e b] r]; [discriminate|]. cbn in X. apply O4 in X. subst e. apply Nd. left. reflexivity. }
  set (x1 := with_depth (with_links x (S (links x))) (S (depth s))).
  set (here := InRun d (head (stack i)) (owner s (stack i)) (conv d a)).
  assert (Hs : exists s', call s d (conv d a) = (Back (saved (tasks s t)), s') /\ datas s' = upd (datas s) d (Some x1) /\
     (forall u, owner s (stack i) <> Some u -> tasks s' u = tasks s u) /\
     (forall u, running (tasks s' u) = running (tasks s u) /\ recycled (tasks s' u) = recycled (tasks s u) /\ arg (tasks s' u) = arg (tasks s u)) /\
     (forall u, owner s (stack i) = Some u -> saved (tasks s' u) = here) /\ (owner s (stack i) = None -> top s' = here) /\ (owner s (stack i) <> None -> top s' = top s) /\
     ndata s' = ndata s /\ ntask s' = ntask s /\ free s' = free s /\ objs s' = objs s /\ nobj s' = nobj s /\ cur s' = Some t /\ curdata s' = Some d /\ depth s' = S (depth s) /\ said s' = said s).
  { unfold call. rewrite Ex, Mx, Nat.eqb_refl. fold x1. unfold run. cbn [set_data set_depth set_curdata datas tasks cur]. rewrite upd_same. change (task x1) with (task x). rewrite Tx, O2, Hcd. fold here. rewrite Hcu. fold here.
    destruct (owner s (stack i)) as [c0|] eqn:Eo.
    - destruct (Nat.eqb_spec c0 t) as [->|N]; [congruence|]. eexists. split; [cbn [set_task tasks]; rewrite upd_other by congruence; reflexivity|]. cbn.
      split; [reflexivity|]. split; [intros u Hu; apply upd_other; congruence|]. split; [intros u; unfold upd; destruct (Nat.eqb_spec u c0) as [->|]; auto|].
      split; [intros u Hu; replace c0 with u by congruence; rewrite upd_same; reflexivity|]. split; [discriminate|]. auto 20.
    - eexists. split; [reflexivity|]. cbn. split; [reflexivity|]. split; [auto|]. split; [auto|]. split; [discriminate|]. split; [reflexivity|]. split; [congruence|]. auto 20. }
  destruct Hs as (s' & S0 & S1 & S2 & S3 & S4 & S5 & S6 & S7 & S8 & S9 & S10 & S11 & S12 & S13 & S14 & S15). exists s', x1.
  assert (Tk : forall e, tk s' e = tk s e) by (intros e; unfold tk; rewrite S1; unfold upd; destruct (Nat.eqb_spec e d) as [->|]; [rewrite Ex|]; reflexivity).
  assert (Ow : owner s' (stack i) = owner s (stack i)) by (destruct (stack i) as [|[e b] r]; [reflexivity|apply Tk]).
  assert (Cx : ctx_of s' (stack i) = here).
  { pose proof (k_chain _ i s H) as C. destruct (stack i) as [|[e b] r]; [apply S5; reflexivity|]. destruct (chain_tk _ _ _ _ C) as [u Hu]. cbn [ctx_of owner] in *. rewrite Tk, Hu. apply S4. exact Hu. }
  assert (Oth : forall e u, e <> d -> tk s e = Some u -> weight e (stack i) = 0 -> owner s (stack i) <> Some u).
  { intros e u Ne He We X. destruct (stack i) as [|[z b] r]; [discriminate|]. cbn in X. destruct (k_own _ i s H e u He) as (_ & _ & _ & U). apply U in X. subst z. apply weight_in in We. apply We. left. reflexivity. }
  assert (Cd : core (set_stack (set_cont i d (Some (Cont (body c) Active (dying c)))) ((d, a) :: stack i)) s').
  { constructor; cbn [set_stack set_cont ncont nhandle handles conts stack heard].
    - rewrite S7. apply H.
    - rewrite S11. apply H.
    - intros h. rewrite S10. apply H.
    - rewrite S15. apply H.
    - apply H.
    - intros e L. unfold upd. destruct (Nat.eqb_spec e d) as [->|]; [|apply (k_dfresh _ i s H e L)]. rewrite (k_dfresh _ i s H d L) in Ec. discriminate.
    - intros h e He. unfold upd. destruct (Nat.eqb_spec e d); [discriminate|]. exact (k_hd _ i s H h e He).
    - rewrite S14, (k_depth _ i s H). reflexivity.
    - intros e _. destruct (Nat.eq_dec e d) as [->|N].
      + unfold dok. cbn [set_stack set_cont ncont nhandle handles conts stack heard]. rewrite upd_same, S1, upd_same. cbn [weight]. rewrite Nat.eqb_refl, W. cbn [links x1 with_depth with_links finishing fn state_of dying body]. destruct a; (split; [lia|split; [exact Fx|split; [exact Bx|lia]]]).
      + apply (dok_frame i s); [apply (k_dok _ i s H e N)|cbn; apply upd_other; exact N|rewrite S1; apply upd_other; exact N|reflexivity|cbn; rewrite (proj2 (Nat.eqb_neq d e)) by congruence; reflexivity|].
        intros u Hu We. rewrite (S2 u (Oth e u N Hu We)). auto.
    - intros e u. rewrite Tk. intros He. destruct (k_own _ i s H e u He) as (A & B & C & U). rewrite S8, S9, (proj1 (proj2 (S3 u))). split; [exact A|]. split; [exact B|]. split; [exact C|]. intros z. rewrite Tk. apply U.
    - destruct (k_free _ i s H) as [F1 F2]. split; rewrite S9; [exact F1|]. intros u Iu. destruct (F2 u Iu) as (A & B & C). rewrite S8, (proj1 (S3 u)), S2; [auto|]. intros X. pose proof (k_chain _ i s H) as Ch. destruct (stack i) as [|[e b] r]; [discriminate|]. cbn in X. destruct (k_own _ i s H e u X) as (_ & _ & Z & _). contradiction.
    - intros u L. rewrite S8 in L. rewrite S9. destruct (k_kept _ i s H u L) as [F|[e He]]; [left; exact F|right; exists e; rewrite Tk; exact He].
    - cbn [map fst]. constructor; [exact Nd|apply H].
    - cbn [chain]. split; [|split].
      + exists x1, t. rewrite S1, upd_same. split; [reflexivity|]. cbn. rewrite (k_depth _ i s H). split; [reflexivity|]. split; [exact Tx|]. rewrite (proj2 (proj2 (S3 t))). exact At.
      + rewrite Cx, Ow. reflexivity.
      + apply (chain_frame s); [| | | |apply H].
        * intros e z Ie Ez. exists z. rewrite S1, upd_other by congruence. auto.
        * intros e u Ie He. apply S3.
        * intros e u Ie He. rewrite S2; [reflexivity|]. intros X. pose proof (k_nodup _ i s H) as N. destruct (stack i) as [|[z b] r]; [discriminate|]. cbn in X, Ie, N. destruct (k_own _ i s H e u He) as (_ & _ & _ & U). apply U in X. subst z. apply NoDup_cons_iff in N. tauto.
        * intros Ne. apply S6. pose proof (k_chain _ i s H) as Ch. intros X. elim Ne. exact (owner_none s _ Ch X).
    - intros e k [Ie|Ie].
      + injection Ie as -> ->. destruct (Dr k eq_refl) as [A B]. split; [exact A|]. unfold is_dying. cbn. rewrite upd_same. exact B.
      + destruct (k_drop _ i s H e k Ie) as [A B]. split; [exact A|]. unfold is_dying in *. cbn. unfold upd. destruct (Nat.eqb_spec e d) as [->|]; [rewrite Ec in B; exact B|exact B].
    - cbn [tl]. intros e u Ie. rewrite Tk. intros He. rewrite (proj1 (S3 u)). pose proof (k_run _ i s H e u) as R. pose proof Hrun as R0. destruct (stack i) as [|[z b] r]; [contradiction|]. destruct Ie as [<-|Ie]; [apply R0; exact He|apply R; [exact Ie|exact He]]. }
  split; [exact S0|]. split; [|split; [rewrite S1; apply upd_same|split; [reflexivity|split; [reflexivity|split; [exact S12|split; [exact S13|apply S2; exact Not]]]]]].
  constructor; [exact Cd|exact S13|cbn; rewrite S12, Tk; symmetry; exact Td|]. cbn. intros u. rewrite Tk, Td. intros [= <-]. rewrite (proj1 (S3 t)). exact Rt.
Qed.
Lemma weight_cases e l : NoDup (map fst l) -> In e (map fst l) ->
  (exists k, In (e, Gets k) l /\ weight e l = 1) \/ (exists k, In (e, Dropping k) l /\ weight e l = 2).
Proof.
  induction l as [|[z a] l IH]; [contradiction|]. cbn [map fst]. intros N. apply NoDup_cons_iff in N. destruct N as [N1 N2]. intros [->|Ie].
  - apply weight_in in N1. cbn [weight]. rewrite Nat.eqb_refl, N1. destruct a as [k|k]; [left|right]; exists k; split; [left; reflexivity|reflexivity|left; reflexivity|reflexivity].
  - cbn [weight]. destruct (Nat.eqb_spec z e) as [->|]; [contradiction|]. destruct (IH N2 Ie) as [(k & A & B)|(k & A & B)]; [left|right]; exists k; split; [right; exact A|exact B|right; exact A|exact B].
Qed.
Lemma swept i s e c z : core i s -> conts i e = Some c -> datas s e = Some z -> In e (map fst (stack i)) ->
  finishing (mark z) = dying c || lost i e /\ conts (sweep i) e = Some (Cont (body c) (state_of c) (dying c || lost i e)).
Proof.
  intros H Ec Ez Ie. pose proof (k_dok _ i s H e I) as K. unfold dok in K. rewrite Ec, Ez in K. destruct K as (A & B & _ & _). split.
  - unfold mark, lost. destruct (weight_cases e _ (k_nodup _ i s H) Ie) as [(k & Ik & W)|(k & Ik & W)]; rewrite W in A.
    + replace (links z =? 1) with (refs (handles i) (nhandle i) e =? 0).
      * destruct (refs (handles i) (nhandle i) e =? 0); cbn; [rewrite Bool.orb_true_r; reflexivity|rewrite Bool.orb_false_r; exact B].
      * rewrite A. destruct (refs (handles i) (nhandle i) e); [reflexivity|]. symmetry. apply Nat.eqb_neq. lia.
    + destruct (k_drop _ i s H e k Ik) as [R D]. unfold is_dying in D. rewrite Ec in D. rewrite R in A. rewrite A. cbn. rewrite B, D. reflexivity.
  - cbn. rewrite Ec. fold (listed e (stack i)). rewrite (proj2 (listed_in e _) Ie). cbn. destruct (lost i e); [rewrite Bool.orb_true_r; reflexivity|]. rewrite Bool.orb_false_r. destruct c; reflexivity.
Qed.
Lemma unswept i e : ~ In e (map fst (stack i)) -> conts (sweep i) e = conts i e.
Proof. intros N. cbn. fold (listed e (stack i)). rewrite (Bool.not_true_is_false (listed e (stack i))) by (rewrite listed_in; exact N). destruct (conts i e); reflexivity. Qed.
(** Something returns, from the innermost continuation to its caller *)
Lemma leave fns i s d a r x t v rn y :
  rel i s -> stack i = (d, a) :: r -> datas s d = Some x -> task x = Some t ->
  let s1 := set_task (set_data s d (Some (with_ret x v))) t (Tsk rn false d (stacksize (tasks s t)) y) in
  let xm := mark (with_ret x v) in
  exists s3, steps fns (S (length r)) (Back (top s1), s1) =
      (if finishing xm && rn then run s3 d (head r) (conv d a)
       else let s4 := set_data (set_depth s3 (depth s3 - 1)) d (Some (with_depth xm 0)) in
            match unlink s4 d with
            | Some s5 => match conv d a with ToCode k => (Exec (k v), set_curdata s5 (head r)) | ToDtor d k => dtor (set_curdata s5 (head r)) d k end
            | None => (Abort, s4)
            end) /\
    corep (fun e => e <> d) (sweep i) s3 /\ cur s3 = owner s3 r /\ ctx_of s3 r = InRun d (head r) (owner s3 r) (conv d a) /\
    curdata s3 = Some d /\ datas s3 d = Some xm /\ tasks s3 t = Tsk rn false d (stacksize (tasks s t)) y.
Proof.
  intros R E Ex Tx s1 xm. pose proof (r_core i s R) as H. pose proof (k_chain _ i s H) as C. pose proof (k_nodup _ i s H) as N. rewrite E in C, N. cbn [map fst] in N. apply NoDup_cons_iff in N. destruct N as [N1 N2].
  destruct C as ((x' & t' & A & B & A1 & A2) & Cx & C). replace x' with x in * by congruence. replace t' with t in * by congruence. clear x' t' A A1.
  pose proof (k_own _ i s H) as O. assert (Td : tk s d = Some t) by (unfold tk; rewrite Ex; exact Tx). destruct (O d t Td) as (O1 & O2 & O3 & O4).
  assert (Tk1 : forall e, tk s1 e = tk s e) by (intros e; unfold tk; cbn; unfold upd; destruct (Nat.eqb_spec e d) as [->|]; [rewrite Ex|]; reflexivity).
  assert (Ts1 : forall u, u <> t -> tasks s1 u = tasks s u) by (intros u Nu; cbn; apply upd_other; exact Nu).
  assert (Tt1 : tasks s1 t = Tsk rn false d (stacksize (tasks s t)) y) by (cbn; apply upd_same).
  assert (Oth : forall e u, e <> d -> tk s e = Some u -> u <> t) by (intros e u Ne He ->; elim Ne; apply O4; exact He).
  assert (Ow1 : owner s1 r = owner s r) by (destruct r as [|[e b] r']; [reflexivity|apply Tk1]).
  assert (Cx1 : ctx_of s1 r = ctx_of s r).
  { destruct r as [|[e b] r']; [reflexivity|]. destruct (chain_tk _ _ _ _ C) as [u Hu]. cbn [ctx_of]. rewrite Tk1, Hu, Ts1; [reflexivity|]. apply (Oth e u); [|exact Hu]. intros ->. apply N1. left. reflexivity. }
  assert (C1 : chain s1 r).
  { apply (chain_frame s); auto.
    - intros e z Ie Ez. exists z. cbn. rewrite upd_other by congruence. auto.
    - intros e u Ie He. rewrite Ts1; [reflexivity|]. apply (Oth e u); congruence.
    - intros e u Ie He. assert (Ie' : In e (map fst r)) by (destruct r; [contradiction|right; exact Ie]). rewrite Ts1; [reflexivity|]. apply (Oth e u); congruence. }
  assert (O' : owned s1).
  { intros e u. rewrite Tk1. intros He. destruct (O e u He) as (Z1 & Z2 & Z3 & Z4). split; [exact Z1|]. split; [|split; [exact Z3|intros z; rewrite Tk1; apply Z4]]. destruct (Nat.eq_dec u t) as [->|Nu]; [rewrite Tt1; reflexivity|rewrite Ts1 by exact Nu; exact Z2]. }
  pose proof (k_depth _ i s H) as Dp. rewrite E in Dp. cbn [length] in Dp.
  destruct (bounce fns r s1 C1 N2 O' ltac:(cbn; lia)) as (s2 & S2 & M & _).
  pose proof (marked_like r s1 s2 M) as Lk. rewrite Cx1, Cx in S2.
  assert (Ld : listed d r = false) by (apply Bool.not_true_is_false; intros X; apply listed_in in X; contradiction).
  assert (D2 : datas s2 d = Some (with_ret x v)) by (rewrite (m_datas r s1 s2 M); cbn; rewrite upd_same, Ld; reflexivity).
  set (s3 := set_data (set_cur s2 (owner s r)) d (Some xm)). exists s3.
  assert (Tk3 : forall e, tk s3 e = tk s e).
  { intros e. rewrite <- Tk1, <- (l_tk s1 s2 Lk). unfold tk. cbn [s3 set_data set_cur datas]. unfold upd. destruct (Nat.eqb_spec e d) as [->|]; [rewrite D2; apply mark_task|reflexivity]. }
  assert (Ts3 : forall u, u <> t -> tasks s3 u = tasks s u) by (intros u Nu; cbn; rewrite (m_task r s1 s2 M); apply Ts1; exact Nu).
  assert (Tt3 : tasks s3 t = Tsk rn false d (stacksize (tasks s t)) y) by (cbn; rewrite (m_task r s1 s2 M); exact Tt1).
  assert (Ow3 : owner s3 r = owner s r) by (destruct r as [|[e b] r']; [reflexivity|apply Tk3]).
  assert (D3 : forall e, e <> d -> datas s3 e = match datas s e with Some z => Some (if listed e r then mark z else z) | None => None end).
  { intros e Ne. cbn [s3 set_data set_cur datas]. rewrite upd_other, (m_datas r s1 s2 M) by exact Ne. cbn. rewrite upd_other by exact Ne. reflexivity. }
  assert (Dd3 : datas s3 d = Some xm) by (cbn; apply upd_same).
  assert (Cx3 : ctx_of s3 r = InRun d (head r) (owner s r) (conv d a)).
  { rewrite <- Cx, <- Cx1, <- (like_ctx s1 s2 r Lk). destruct r as [|[e b] r']; [reflexivity|]. cbn [ctx_of]. rewrite Tk3, (l_tk s1 s2 Lk), Tk1. reflexivity. }
  split; [|split; [|split; [symmetry; exact Ow3|split; [rewrite Ow3; exact Cx3|split; [cbn; rewrite (m_cd r s1 s2 M); cbn; rewrite (r_curdata i s R), E; reflexivity|split; [exact Dd3|exact Tt3]]]]]].
  - rewrite steps_last, S2. cbn [fst snd step]. unfold called. change (datas (set_cur s2 (owner s r)) d) with (datas s2 d). rewrite D2. fold (mark (with_ret x v)). fold xm. fold s3.
    assert (Mx : mydepth xm = S (length r)) by (unfold xm; rewrite mark_depth; exact B).
    assert (Dp3 : depth s3 = S (length r)) by (cbn; rewrite (m_depth r s1 s2 M); exact Dp).
    replace (is_running s3 xm) with rn by (unfold is_running, xm; rewrite mark_task; cbn [task with_ret]; rewrite Tx, Tt3; reflexivity).
    destruct (finishing xm && rn); [reflexivity|]. rewrite Mx, Dp3, Nat.ltb_irrefl, Nat.eqb_refl. cbn [Nat.sub]. rewrite Nat.sub_0_r.
    destruct (unlink _ d); [|reflexivity]. destruct a; cbn [conv]; [|reflexivity]. replace (ret xm) with v by (unfold xm, mark; destruct (_ =? 1); reflexivity). reflexivity.
  - assert (Wl : forall e, e <> d -> listed e r = listed e (stack i)) by (intros e Ne; rewrite E; cbn [listed existsb fst]; rewrite (proj2 (Nat.eqb_neq d e)) by congruence; reflexivity).
    constructor.
    + cbn. rewrite (m_nd r s1 s2 M). apply H.
    + cbn. rewrite (m_no r s1 s2 M). apply H.
    + intros h. cbn. rewrite (m_objs r s1 s2 M). apply H.
    + cbn. rewrite (m_said r s1 s2 M). apply H.
    + apply H.
    + intros e L. cbn. rewrite (k_dfresh _ i s H e L). reflexivity.
    + intros h e He. cbn. pose proof (k_hd _ i s H h e He). destruct (conts i e); [|congruence]. destruct (_ && _); discriminate.
    + cbn. rewrite (m_depth r s1 s2 M). apply H.
    + intros e Ne. destruct (listed e r) eqn:Le.
      * assert (Ie : In e (map fst (stack i))) by (apply listed_in; rewrite <- Wl; assumption). pose proof (k_dok _ i s H e I) as K. unfold dok in *. rewrite D3, Le by exact Ne.
        destruct (datas s e) as [z|] eqn:Ez, (conts i e) as [c|] eqn:Ec; try contradiction.
        -- destruct (swept i s e c z H Ec Ez Ie) as [F ->]. destruct K as (K1 & K2 & K3 & K4). split; [unfold mark; destruct (_ =? 1); exact K1|]. split; [exact F|]. split; [unfold mark; destruct (_ =? 1); exact K3|]. cbn [state_of].
           destruct (state_of c); [destruct K4 as (_ & W & _); apply weight_in in W; contradiction|destruct K4 as (_ & W & _); apply weight_in in W; contradiction|exact K4].
        -- cbn. rewrite Ec. exact I.
      * assert (Ie : ~ In e (map fst (stack i))) by (intros X; apply listed_in in X; rewrite <- Wl in X by exact Ne; congruence).
        apply (dok_frame i s); [apply (k_dok _ i s H e I)|apply unswept; exact Ie|rewrite D3, Le by exact Ne; destruct (datas s e); reflexivity|reflexivity|reflexivity|].
        intros u Hu _. rewrite Ts3; [auto|]. apply (Oth e u Ne Hu).
    + intros e u. rewrite Tk3. intros He. destruct (O e u He) as (Z1 & Z2 & Z3 & Z4). cbn [s3 set_data set_cur ntask free]. rewrite (m_nt r s1 s2 M), (m_free r s1 s2 M). split; [exact Z1|]. split; [|split; [exact Z3|intros z; rewrite Tk3; apply Z4]]. destruct (Nat.eq_dec u t) as [->|Nu]; [cbn; rewrite (m_task r s1 s2 M), Tt1; reflexivity|]. change (recycled (tasks s3 u) = false). rewrite Ts3 by exact Nu. exact Z2.
    + destruct (k_free _ i s H) as [F1 F2]. split; cbn [s3 set_data set_cur ntask free]; rewrite (m_free r s1 s2 M); [exact F1|]. intros u Iu. rewrite (m_nt r s1 s2 M). destruct (F2 u Iu) as (Z1 & Z2 & Z3). assert (Nu : u <> t) by (intros ->; contradiction). split; [exact Z1|]. change (running (tasks s3 u) = false /\ saved (tasks s3 u) = Loop). rewrite Ts3 by exact Nu. auto.
    + intros u L. cbn [s3 set_data set_cur ntask free] in *. rewrite (m_nt r s1 s2 M) in L. rewrite (m_free r s1 s2 M). destruct (k_kept _ i s H u L) as [F|[e He]]; [left; exact F|right; exists e; rewrite Tk3; exact He].
    + apply H.
    + cbn [sweep set_conts stack]. rewrite E. cbn [chain]. split; [|split].
      * exists xm, t. split; [exact Dd3|]. split; [unfold xm; rewrite mark_depth; exact B|]. split; [unfold xm; rewrite mark_task; exact Tx|]. rewrite Tt3. reflexivity.
      * rewrite Cx3, Ow3. reflexivity.
      * apply (chain_frame s); auto.
        -- intros e z Ie Ez. exists (if listed e r then mark z else z). rewrite D3 by congruence. rewrite Ez. split; [reflexivity|]. destruct (listed e r); [rewrite mark_depth, mark_task|]; auto.
        -- intros e u Ie He. rewrite Ts3; [reflexivity|]. apply (Oth e u); congruence.
        -- intros e u Ie He. assert (Ie' : In e (map fst r)) by (destruct r; [contradiction|right; exact Ie]). rewrite Ts3; [reflexivity|]. apply (Oth e u); congruence.
        -- intros _. cbn. rewrite (m_top r s1 s2 M). reflexivity.
    + intros e k Ie. destruct (k_drop _ i s H e k Ie) as [Z1 Z2]. split; [exact Z1|]. unfold is_dying in *. cbn. destruct (conts i e); [|reflexivity]. destruct (_ && _); [reflexivity|exact Z2].
    + cbn [sweep set_conts stack]. rewrite E. cbn [tl]. intros e u Ie. rewrite Tk3. intros He. rewrite Ts3 by (apply (Oth e u); congruence). apply (k_run _ i s H e u); [rewrite E; exact Ie|exact He].
Qed.
(** ** Each step *)
Lemma inner i s d a r : rel i s -> stack i = (d, a) :: r -> exists x c t, datas s d = Some x /\ conts i d = Some c /\ task x = Some t /\ cur s = Some t /\
  arg (tasks s t) = d /\ recycled (tasks s t) = false /\ running (tasks s t) = true /\ finishing x = dying c /\ current s = Some (d, x).
Proof.
  intros R E. pose proof (r_core i s R) as H. pose proof (k_chain _ i s H) as C. rewrite E in C. destruct C as ((x & t & A & _ & B & D) & _ & _).
  pose proof (k_dok _ i s H d I) as K. unfold dok in K. rewrite A in K. destruct (conts i d) as [c|]; [|contradiction]. destruct K as (_ & F & _ & _).
  assert (Td : tk s d = Some t) by (unfold tk; rewrite A; exact B). pose proof (r_cur i s R) as Cu. rewrite E in Cu. cbn in Cu. rewrite Td in Cu.
  exists x, c, t. split; [exact A|]. split; [reflexivity|]. split; [exact B|]. split; [exact Cu|]. split; [exact D|]. split; [apply (k_own _ i s H d t Td)|].
  split; [apply (r_top i s R); rewrite E; exact Td|]. split; [exact F|]. unfold current. rewrite (r_curdata i s R), E. cbn. rewrite A, B, Cu, Nat.eqb_refl. reflexivity.
Qed.
Lemma no_current i s : rel i s -> stack i = [] -> current s = None /\ cur s = None.
Proof. intros R E. unfold current. rewrite (r_curdata i s R), (r_cur i s R), E. auto. Qed.
(** Links of the innermost, after its run *)
Lemma links_mark x : links (mark x) = links x.
Proof. unfold mark. destruct (_ =? 1); reflexivity. Qed.
Lemma fn_mark x : fn (mark x) = fn x.
Proof. unfold mark. destruct (_ =? 1); reflexivity. Qed.
Lemma finishing_ret x v : finishing (mark (with_ret x v)) = finishing (mark x).
Proof. unfold mark. cbn [links with_ret]. destruct (_ =? 1); reflexivity. Qed.
Lemma step_S fns n c : steps fns (S n) c = steps fns n (step fns (fst c) (snd c)).
Proof. reflexivity. Qed.
Definition simulates fns c i s : Prop :=
  match istep fns (Run c) i with
  | (Run c', i') => exists n s', steps fns (S n) (Exec c, s) = (Exec c', s') /\ rel i' s' /\ (heard i' = heard i \/ n = 0)
  | (Ended v, i') => exists s', step fns (Exec c) s = (Done v, s') /\ said s' = heard i'
  | (Failed, i') => exists s', step fns (Exec c) s = (Abort, s') /\ said s' = heard i'
  end.
Lemma owner_same s s' l : (forall d, In d (map fst l) -> tk s' d = tk s d) -> owner s' l = owner s l.
Proof. intros H. destruct l as [|[d a] l]; [reflexivity|]. apply H. left. reflexivity. Qed.
Lemma unlink_last s d x t : datas s d = Some x -> links x = 1 -> task x = Some t -> running (tasks s t) = false -> recycled (tasks s t) = false ->
  unlink s d = Some (set_data (free_task s t) d None).
Proof. intros A B C D E. unfold unlink. rewrite A, B, C, (recycle_owned s t D E). reflexivity. Qed.
Lemma unlink_more s d x n : datas s d = Some x -> links x = S (S n) -> unlink s d = Some (set_data s d (Some (with_links x (S n)))).
Proof. intros A B. unfold unlink. rewrite A, B. reflexivity. Qed.

Lemma sim_ret fns i s v : rel i s -> simulates fns (Ret v) i s.
Proof.
  intros R. unfold simulates. cbn [istep]. pose proof (r_core i s R) as H. destruct (stack i) as [|[d a] r] eqn:E.
  - destruct (no_current i s R E) as [_ Cu]. exists s. cbn [step]. rewrite Cu. split; [reflexivity|apply H].
  - destruct (inner i s d a r R E) as (x & c & t & Ex & Ec & Tx & Cu & At & Rc & Rn & Fx & _).
    destruct (leave fns i s d a r x t v false Loop R E Ex Tx) as (s3 & L & H3 & Cu3 & Cx3 & Cd3 & D3 & T3).
    set (xm := mark (with_ret x v)) in *. assert (Id : In d (map fst (stack i))) by (rewrite E; left; reflexivity).
    destruct (swept i s d c x H Ec Ex Id) as [Fm Sw]. rewrite Sw. rewrite Bool.andb_false_r in L. cbn zeta in L.
    assert (E3 : stack (sweep i) = (d, a) :: r) by exact E.
    pose proof (k_dok _ i s H d I) as K. unfold dok in K. rewrite Ex, Ec in K. destruct K as (K1 & K2 & K3 & _).
    pose proof (k_nodup _ i s H) as N. rewrite E in N. cbn [map fst] in N. apply NoDup_cons_iff in N. destruct N as [N1 N2].
    pose proof (proj2 (weight_in d r) N1) as W. rewrite E in K1. cbn [weight] in K1. rewrite Nat.eqb_refl, W in K1.
    assert (Txm : task xm = Some t) by (unfold xm; rewrite mark_task; exact Tx).
    assert (Td3 : tk s3 d = Some t) by (unfold tk; rewrite D3; exact Txm). destruct (k_own _ _ s3 H3 d t Td3) as (O1 & O2 & O3 & O4).
    pose proof (pop _ s3 d a r xm H3 E3 D3) as H4. set (s4 := set_data (set_depth s3 (depth s3 - 1)) d (Some (with_depth xm 0))) in *.
    assert (D4 : datas s4 d = Some (with_depth xm 0)) by (cbn; apply upd_same).
    assert (Hrun : forall u, owner s3 r = Some u -> running (tasks s3 u) = true).
    { intros u Hu. destruct r as [|[e b] r']; [discriminate|]. apply (k_run _ _ s3 H3 e u); [rewrite E3; left; reflexivity|exact Hu]. }
    assert (Not : owner s3 r <> Some t).
    { intros X. destruct r as [|[e b] r']; [discriminate|]. cbn in X. apply O4 in X. subst e. apply N1. left. reflexivity. }
    assert (St : step fns (Exec (Ret v)) s = (Back (top s), set_task (set_data s d (Some (with_ret x v))) t (Tsk false false d (stacksize (tasks s t)) Loop))).
    { cbn [step]. rewrite Cu, At, Ex, Rc. reflexivity. }
    assert (Lm : links (with_depth xm 0) = refs (handles i) (nhandle i) d + (match a with Gets _ => 1 | Dropping _ => 2 end)) by (cbn; unfold xm; rewrite links_mark; cbn; lia).
    exists (S (length r)). rewrite step_S. cbn [fst snd]. rewrite St.
    match type of L with steps _ _ ?c = _ => match goal with |- context [steps fns (S (length r)) ?c'] => change c' with c end end. rewrite L. clear L St.
    change (lost (sweep i) d) with (lost i d). unfold lost in *.
    assert (Gone : forall s5 cd, refs (handles i) (nhandle i) d = 0 -> corep (fun e => e <> d) (set_stack (sweep i) r) s5 ->
       (exists x5, datas s5 d = Some x5 /\ task x5 = Some t) -> (forall u, tasks s5 u = tasks s3 u) -> (forall e, e <> d -> datas s5 e = datas s3 e) -> cur s5 = cur s3 -> curdata s5 = cd -> cd = head r ->
       rel (set_stack (set_cont (sweep i) d None) r) (set_data (free_task s5 t) d None)).
    { intros s5 cd R0 H5 (x5 & D5 & T5) Ts5 Ds5 Cu5 Cd5 Hcd. assert (G : core (set_cont (set_stack (sweep i) r) d None) (set_data (match task x5 with Some t => free_task s5 t | None => s5 end) d None)).
      { apply gone; auto. rewrite T5. intros u [= <-]. rewrite Ts5, T3. auto. }
      rewrite T5 in G. assert (Ow : owner (set_data (free_task s5 t) d None) r = owner s3 r).
      { apply owner_same. intros e Ie. unfold tk. cbn. rewrite upd_other by congruence. rewrite Ds5 by congruence. reflexivity. }
      constructor; [exact G|cbn; congruence|exact (eq_trans Cu5 (eq_trans Cu3 (eq_sym Ow)))|]. cbn [set_stack set_cont stack]. rewrite Ow. intros u Hu. cbn. rewrite upd_other by congruence. rewrite Ts5. apply Hrun. exact Hu. }
    destruct a as [k|k]; cbn [conv answer].
    + destruct (refs (handles i) (nhandle i) d) as [|n] eqn:Er; cbn [Nat.eqb].
      * rewrite (unlink_last s4 d _ t D4 Lm Txm) by (change (tasks s4 t) with (tasks s3 t); rewrite T3; reflexivity).
        eexists. split; [reflexivity|]. split; [|left; reflexivity].
        apply (Gone (set_curdata s4 (head r)) (head r)); auto; [apply core_curdata; exact H4|eauto|]. intros e Ne. cbn. apply upd_other. exact Ne.
      * rewrite (unlink_more s4 d _ n D4) by lia. eexists. split; [reflexivity|]. split; [|left; reflexivity]. set (s5 := set_data s4 d _).
        assert (H5 : corep (fun e => e <> d) (set_stack (sweep i) r) s5) by (apply (touch _ s4 d (with_depth xm 0)); auto).
        assert (Ow : owner s5 r = owner s3 r) by (apply owner_same; intros e Ie; unfold tk; cbn; rewrite !upd_other by congruence; reflexivity).
        constructor; [|reflexivity|exact (eq_trans Cu3 (eq_sym Ow))|].
        -- apply core_curdata. apply (settle (set_stack (sweep i) r) s5 d (Cont (body c) (state_of c) (dying c || (S n =? 0)))); [exact H5|exact Sw|auto|].
           unfold dok. cbn [set_cont set_stack conts handles nhandle stack datas s5 set_data sweep set_conts]. rewrite !upd_same. cbn [with_links with_depth links finishing fn state_of body dying mydepth task].
           split; [rewrite Er, W; lia|]. split; [unfold xm; rewrite finishing_ret; exact Fm|]. split; [unfold xm; rewrite fn_mark; exact K3|]. split; [reflexivity|]. split; [exact W|]. rewrite Txm. intros u [= <-]. change (tasks s5 t) with (tasks s3 t). rewrite T3. auto.
        -- exact (fun u Hu => Hrun u (eq_trans (eq_sym Ow) Hu)).
    + destruct (k_drop _ i s H d k) as [R0 Dy]; [rewrite E; left; reflexivity|]. rewrite R0 in *. cbn [Nat.eqb plus] in *.
      rewrite (unlink_more s4 d _ 0 D4) by lia. set (s5 := set_data s4 d _).
      assert (H5 : corep (fun e => e <> d) (set_stack (sweep i) r) s5) by (apply (touch _ s4 d (with_depth xm 0)); auto).
      assert (D5 : datas (set_curdata s5 (head r)) d = Some (with_links (with_depth xm 0) 1)) by (cbn; apply upd_same).
      unfold dtor. rewrite D5. unfold is_running. cbn [task with_links with_depth]. rewrite Txm. change (tasks (set_curdata s5 (head r)) t) with (tasks s3 t). rewrite T3. cbn [running].
      rewrite (unlink_last _ d _ t D5 eq_refl Txm) by (change (tasks (set_curdata s5 (head r)) t) with (tasks s3 t); rewrite T3; reflexivity).
      eexists. split; [reflexivity|]. split; [|left; reflexivity].
      apply (Gone (set_curdata s5 (head r)) (head r)); auto; [apply core_curdata; exact H5|eauto|]. intros e Ne. cbn. rewrite !upd_other by exact Ne. reflexivity.
Qed.
Lemma sim_yield fns i s v k : rel i s -> simulates fns (Yield v k) i s.
Proof.
  intros R. unfold simulates. cbn [istep]. pose proof (r_core i s R) as H. destruct (stack i) as [|[d a] r] eqn:E.
  - destruct (no_current i s R E) as [Cu _]. exists s. cbn [step]. rewrite Cu. split; [reflexivity|apply H].
  - destruct (inner i s d a r R E) as (x & c & t & Ex & Ec & Tx & Cu & At & Rc & Rn & Fx & Hcur). unfold is_dying. rewrite Ec.
    destruct (dying c) eqn:Dc; [exists s; cbn [step]; rewrite Hcur, Fx; split; [reflexivity|apply H]|].
    destruct a as [kc|kc]; [|destruct (k_drop _ i s H d kc) as [_ Dy]; [rewrite E; left; reflexivity|]; unfold is_dying in Dy; rewrite Ec in Dy; congruence].
    destruct (leave fns i s d (Gets kc) r x t v true (AtYield k) R E Ex Tx) as (s3 & L & H3 & Cu3 & Cx3 & Cd3 & D3 & T3).
    set (xm := mark (with_ret x v)) in *. assert (Id : In d (map fst (stack i))) by (rewrite E; left; reflexivity).
    destruct (swept i s d c x H Ec Ex Id) as [Fm Sw]. rewrite Sw. cbn [dying]. rewrite Dc in *. cbn [orb] in *. rewrite Bool.andb_true_r in L. cbn zeta in L.
    assert (E3 : stack (sweep i) = (d, Gets kc) :: r) by exact E.
    pose proof (k_dok _ i s H d I) as K. unfold dok in K. rewrite Ex, Ec in K. destruct K as (K1 & K2 & K3 & K4).
    pose proof (k_nodup _ i s H) as N. rewrite E in N. cbn [map fst] in N. apply NoDup_cons_iff in N. destruct N as [N1 N2].
    pose proof (proj2 (weight_in d r) N1) as W. rewrite E in K1. cbn [weight] in K1. rewrite Nat.eqb_refl, W in K1.
    assert (Txm : task xm = Some t) by (unfold xm; rewrite mark_task; exact Tx).
    assert (Td3 : tk s3 d = Some t) by (unfold tk; rewrite D3; exact Txm). destruct (k_own _ _ s3 H3 d t Td3) as (O1 & O2 & O3 & O4).
    assert (Hrun : forall u, owner s3 r = Some u -> running (tasks s3 u) = true).
    { intros u Hu. destruct r as [|[e b] r']; [discriminate|]. apply (k_run _ _ s3 H3 e u); [rewrite E3; left; reflexivity|exact Hu]. }
    assert (Not : owner s3 r <> Some t).
    { intros X. destruct r as [|[e b] r']; [discriminate|]. cbn in X. apply O4 in X. subst e. apply N1. left. reflexivity. }
    assert (St : step fns (Exec (Yield v k)) s = (Back (top s), set_task (set_data s d (Some (with_ret x v))) t (Tsk true false d (stacksize (tasks s t)) (AtYield k)))).
    { cbn [step]. rewrite Hcur, Fx. unfold task_yield. cbn [set_data cur top tasks]. rewrite Cu. unfold save. rewrite Rn, Rc, At. reflexivity. }
    replace (finishing xm) with (lost i d) in L by (unfold xm; rewrite finishing_ret; symmetry; exact Fm).
    pose proof (eq_refl (lost i d)) as Lo. unfold lost at 1 in Lo.
    assert (C3 : chain s3 r) by (pose proof (k_chain _ _ s3 H3) as C3; rewrite E3 in C3; apply C3).
    destruct (lost i d) eqn:Ld.
    + apply Nat.eqb_eq in Lo.
      destruct (rerun s3 d (head r) (conv d (Gets kc)) xm t r D3 Txm O2 Cu3 Cx3 Not (owner_none s3 r C3)) as (s4 & R0 & R1 & R2 & R3 & R4 & R5 & R6 & R7 & R8 & R9 & R10 & R11 & R12).
      rewrite R0 in L. exists (S (S (length r))), s4. split; [|split; [|left; reflexivity]].
      * replace (S (S (S (length r)))) with (1 + (S (length r) + 1)) by lia. rewrite steps_add. cbn [steps fst snd]. rewrite St, steps_add.
        match type of L with steps _ _ ?c = _ => match goal with |- context [steps fns (S (length r)) ?c'] => change c' with c end end. rewrite L. cbn [steps fst snd]. rewrite T3. cbn [saved step]. rewrite R9, Cd3, R12, D3.
        replace (p1 xm) with 0%Z; [reflexivity|]. unfold xm, mark. cbn [links with_ret]. rewrite K1, Lo. reflexivity.
      * assert (Lk : like s3 s4) by (constructor; [intros e; unfold tk; rewrite R12; reflexivity|intros e; rewrite R12; reflexivity|exact R2|exact R3]).
        constructor.
        -- apply (core_settle _ s4 d).
           ++ constructor; try congruence; try apply H3.
              ** rewrite R6. apply H3.
              ** rewrite R8. apply H3.
              ** intros h. rewrite R5. apply H3.
              ** rewrite R11. apply H3.
              ** rewrite R10. apply H3.
              ** intros e Ne. apply (dok_frame (sweep i) s3); auto; [apply (k_dok _ _ s3 H3 e Ne)|rewrite R12; reflexivity|]. intros u _ _. rewrite R2. auto.
              ** intros e u. rewrite (l_tk s3 s4 Lk), R7, R4, R2. intros He. destruct (k_own _ _ s3 H3 e u He) as (Z1 & Z2 & Z3 & Z4). split; [exact Z1|]. split; [exact Z2|]. split; [exact Z3|]. intros z. rewrite (l_tk s3 s4 Lk). apply Z4.
              ** destruct (k_free _ _ s3 H3) as [F1 F2]. split; rewrite R4; [exact F1|]. intros u Iu. rewrite R7, R2. apply F2. exact Iu.
              ** intros u Lu. rewrite R7 in Lu. rewrite R4. destruct (k_kept _ _ s3 H3 u Lu) as [F|[e He]]; [left; exact F|right; exists e; rewrite (l_tk s3 s4 Lk); exact He].
              ** apply (like_chain s3 s4 _ Lk). apply H3.
              ** intros e u Ie He. rewrite (l_tk s3 s4 Lk) in He. rewrite R2. exact (k_run _ _ s3 H3 e u Ie He).
           ++ unfold dok. rewrite Sw, R12, D3. cbn [sweep set_conts handles nhandle stack]. rewrite E. cbn [weight]. rewrite Nat.eqb_refl, W. split; [unfold xm; rewrite links_mark; exact K1|]. split; [unfold xm; rewrite finishing_ret; exact Fm|]. split; [unfold xm; rewrite fn_mark; exact K3|]. cbn [state_of].
              destruct (state_of c); [destruct K4 as (_ & X & _)|destruct K4 as (_ & X & _)|lia]; rewrite E in X; cbn [weight] in X; rewrite Nat.eqb_refl in X; discriminate.
        -- rewrite R9, Cd3. cbn [sweep set_conts stack]. rewrite E. reflexivity.
        -- rewrite R1. cbn [sweep set_conts stack]. rewrite E. cbn [owner]. rewrite (l_tk s3 s4 Lk). symmetry. exact Td3.
        -- cbn [sweep set_conts stack]. rewrite E. cbn [owner]. intros u. rewrite (l_tk s3 s4 Lk), Td3. intros [= <-]. rewrite R2, T3. reflexivity.
    + apply Nat.eqb_neq in Lo. destruct (refs (handles i) (nhandle i) d) as [|n] eqn:Er; [congruence|].
      pose proof (pop _ s3 d (Gets kc) r xm H3 E3 D3) as H4. set (s4 := set_data (set_depth s3 (depth s3 - 1)) d (Some (with_depth xm 0))) in *.
      assert (D4 : datas s4 d = Some (with_depth xm 0)) by (cbn; apply upd_same).
      assert (Lm : links (with_depth xm 0) = S (S n)) by (cbn; unfold xm; rewrite links_mark; cbn; lia).
      rewrite (unlink_more s4 d _ n D4 Lm) in L. exists (S (length r)). rewrite step_S. cbn [fst snd]. rewrite St.
      match type of L with steps _ _ ?c = _ => match goal with |- context [steps fns (S (length r)) ?c'] => change c' with c end end. rewrite L. clear L St.
      eexists. split; [reflexivity|]. split; [|left; reflexivity]. set (s5 := set_data s4 d _).
      assert (H5 : corep (fun e => e <> d) (set_stack (sweep i) r) s5) by (apply (touch _ s4 d (with_depth xm 0)); auto).
      assert (Ow : owner s5 r = owner s3 r) by (apply owner_same; intros e Ie; unfold tk; cbn; rewrite !upd_other by congruence; reflexivity).
      constructor; [|reflexivity|exact (eq_trans Cu3 (eq_sym Ow))|].
      * apply core_curdata. apply (settle (set_stack (sweep i) r) s5 d (Cont (body c) (state_of c) false)); [exact H5|exact Sw|auto|].
        unfold dok. cbn [set_cont set_stack conts handles nhandle stack datas s5 set_data sweep set_conts]. rewrite !upd_same. cbn [with_links with_depth links finishing fn state_of body dying mydepth task].
        split; [rewrite Er, W; lia|]. split; [unfold xm; rewrite finishing_ret; exact Fm|]. split; [unfold xm; rewrite fn_mark; exact K3|]. split; [reflexivity|]. split; [exact W|]. exists t. change (tasks s5 t) with (tasks s3 t). rewrite T3. auto.
      * exact (fun u Hu => Hrun u (eq_trans (eq_sym Ow) Hu)).
Qed.
(** A task is started for [d], which is not running *)
Lemma prep i s s1 d x1 t : corep (fun e => e <> d) i s -> weight d (stack i) = 0 -> datas s1 = upd (datas s) d (Some x1) -> task x1 = Some t ->
  (forall u, u <> t -> tasks s1 u = tasks s u) -> recycled (tasks s1 t) = false -> t < ntask s1 -> ntask s <= ntask s1 ->
  NoDup (free s1) -> (forall u, In u (free s1) -> In u (free s) /\ u <> t) -> (forall e, e <> d -> tk s e <> Some t) -> (forall u, u < ntask s1 -> u <> t -> u < ntask s /\ (In u (free s) -> In u (free s1)) /\ tk s d <> Some u) ->
  top s1 = top s -> ndata s1 = ndata s -> objs s1 = objs s -> nobj s1 = nobj s -> depth s1 = depth s -> said s1 = said s ->
  corep (fun e => e <> d) i s1 /\ owner s1 (stack i) = owner s (stack i) /\ owner s (stack i) <> Some t.
Proof.
  intros H W D T Ts Rc Lt Ln Nf If No Ke E1 E2 E3 E4 E5 E6.
  pose proof (proj1 (weight_in d (stack i)) W) as Nd.
  assert (Tk : forall e, e <> d -> tk s1 e = tk s e) by (intros e N; unfold tk; rewrite D, upd_other by exact N; reflexivity).
  assert (Td : tk s1 d = Some t) by (unfold tk; rewrite D, upd_same; exact T).
  assert (Ts' : forall e u, e <> d -> tk s e = Some u -> tasks s1 u = tasks s u) by (intros e u N He; apply Ts; intros ->; elim (No e N He)).
  split; [|split].
  - constructor; try apply H; try congruence.
    + rewrite E2. apply H.
    + rewrite E4. apply H.
    + intros h. rewrite E3. apply H.
    + rewrite E6. apply H.
    + rewrite E5. apply H.
    + intros e N. apply (dok_frame i s); auto; [apply (k_dok _ i s H e N)|rewrite D; apply upd_other; exact N|]. intros u Hu _. rewrite (Ts' e u N Hu). auto.
    + intros e u He. destruct (Nat.eq_dec e d) as [->|N].
      * replace u with t by congruence. split; [exact Lt|]. split; [exact Rc|]. split; [intros X; apply If in X; tauto|]. intros z Hz. destruct (Nat.eq_dec z d) as [->|Nz]; [reflexivity|]. rewrite Tk in Hz by exact Nz. elim (No z Nz Hz).
      * rewrite Tk in He by exact N. destruct (k_own _ i s H e u He) as (Z1 & Z2 & Z3 & Z4). split; [lia|]. split; [rewrite (Ts' e u N He); exact Z2|]. split; [intros X; apply If in X; tauto|].
        intros z Hz. destruct (Nat.eq_dec z d) as [->|Nz]; [replace u with t in * by congruence; elim (No e N He)|]. rewrite Tk in Hz by exact Nz. exact (Z4 z Hz).
    + destruct (k_free _ i s H) as [F1 F2]. split; [exact Nf|]. intros u Iu. destruct (If u Iu) as [Z1 Z2]. destruct (F2 u Z1) as (Y1 & Y2). rewrite Ts by exact Z2. split; [lia|exact Y2].
    + intros u L. destruct (Nat.eq_dec u t) as [->|Nu]; [right; exists d; exact Td|]. destruct (Ke u L Nu) as (Z1 & Z2 & Z3). destruct (k_kept _ i s H u Z1) as [F|[e He]]; [left; exact (Z2 F)|]. right. exists e. rewrite Tk; [exact He|]. intros ->. contradiction.
    + apply (chain_frame s); try apply H.
      * intros e z Ie Ez. exists z. rewrite D, upd_other by congruence. auto.
      * intros e u Ie He. rewrite (Ts' e u) by congruence. reflexivity.
      * intros e u Ie He. assert (Ie' : In e (map fst (stack i))) by (destruct (stack i); [contradiction|right; exact Ie]). rewrite (Ts' e u) by congruence. reflexivity.
      * auto.
    + intros e u Ie He. assert (Ie' : In e (map fst (stack i))) by (destruct (stack i); [contradiction|right; exact Ie]). rewrite Tk in He by congruence. rewrite (Ts' e u) by congruence. exact (k_run _ i s H e u Ie He).
  - apply owner_same. intros e Ie. apply Tk. congruence.
  - destruct (stack i) as [|[e b] r]; [discriminate|]. cbn. apply No. intros ->. apply Nd. left. reflexivity.
Qed.
Lemma take_in s n l : forall t r, take s n l = Some (t, r) -> NoDup l -> In t l /\ NoDup r /\ (forall u, In u r -> In u l /\ u <> t).
Proof.
  induction l as [|a l IH]; intros t r; cbn; [discriminate|]. intros T N. apply NoDup_cons_iff in N. destruct N as [N1 N2]. destruct (n <=? stacksize (tasks s a)).
  - injection T as <- <-. split; [auto|]. split; [exact N2|]. intros u Hu. split; [auto|]. intros ->. contradiction.
  - destruct (take s n l) as [[u r']|]; [|discriminate]. injection T as <- <-. destruct (IH u r' eq_refl N2) as (A & B & C). split; [auto|]. split.
    + constructor; [|exact B]. intros X. apply C in X. tauto.
    + intros z [->|Hz]; [split; [auto|]; intros ->; contradiction|]. destruct (C z Hz). auto.
Qed.
Lemma take_keeps s n l : forall t r, take s n l = Some (t, r) -> forall u, In u l -> u <> t -> In u r.
Proof.
  induction l as [|a l IH]; intros t r; cbn; [discriminate|]. destruct (n <=? stacksize (tasks s a)).
  - intros [= <- <-] u [->|Hu] N; [contradiction|exact Hu].
  - destruct (take s n l) as [[u r']|]; [|discriminate]. intros [= <- <-] z [->|Hz] N; [left; reflexivity|right; exact (IH u r' eq_refl z Hz N)].
Qed.
Lemma sim_call fns i s h v k : rel i s -> simulates fns (Call h v k) i s.
Proof.
  intros R. unfold simulates. cbn [istep]. pose proof (r_core i s R) as H. cbn [step]. rewrite (k_objs _ i s H h). destruct (handles i h) as [d|] eqn:Eh; [|exists s; split; [reflexivity|apply H]].
  pose proof (k_hd _ i s H h d Eh) as Cn. unfold enter. destruct (conts i d) as [c|] eqn:Ec; [|congruence]. clear Cn.
  pose proof (k_dok _ i s H d I) as K. unfold dok in K. rewrite Ec in K. destruct (datas s d) as [x|] eqn:Ex; [|contradiction]. destruct K as (K1 & K2 & K3 & K4).
  assert (Go : forall s1 x1 t, datas s1 = upd (datas s) d (Some x1) -> links x1 = links x -> mydepth x1 = mydepth x -> finishing x1 = finishing x -> fn x1 = fn x -> p1 x1 = v -> task x1 = Some t ->
    (forall u, u <> t -> tasks s1 u = tasks s u) -> running (tasks s1 t) = true -> recycled (tasks s1 t) = false -> arg (tasks s1 t) = d -> t < ntask s1 -> ntask s <= ntask s1 ->
    NoDup (free s1) -> (forall u, In u (free s1) -> In u (free s) /\ u <> t) -> (forall e, e <> d -> tk s e <> Some t) -> (forall u, u < ntask s1 -> u <> t -> u < ntask s /\ (In u (free s) -> In u (free s1)) /\ tk s d <> Some u) ->
    top s1 = top s -> ndata s1 = ndata s -> objs s1 = objs s -> nobj s1 = nobj s -> depth s1 = depth s -> said s1 = said s -> cur s1 = cur s -> curdata s1 = curdata s ->
    mydepth x = 0 -> weight d (stack i) = 0 ->
    exists s' y, call s1 d (ToCode k) = (Back (saved (tasks s1 t)), s') /\
      rel (set_stack (set_cont i d (Some (Cont (body c) Active (dying c)))) ((d, Gets k) :: stack i)) s' /\
      datas s' d = Some y /\ p1 y = v /\ fn y = body c /\ cur s' = Some t /\ curdata s' = Some d /\ running (tasks s' t) = true /\ arg (tasks s' t) = d).
  { intros s1 x1 t A1 A2 A3 A4 A5 A6 A7 B1 B2 B3 B4 B5 B6 C1 C2 C3 C4 D1 D2 D3 D4 D5 D6 D7 D8 M W.
    destruct (prep i s s1 d x1 t (core_weaken _ i s H) W A1 A7 B1 B3 B5 B6 C1 C2 C3 C4 D1 D2 D3 D4 D5 D6) as (P1 & P2 & P3).
    destruct (push i s1 d c x1 t (Gets k)) as (s' & y & Q1 & Q2 & Q3 & Q4 & Q5 & Q6 & Q7 & Q8).
    - exact P1.
    - rewrite D8. apply R.
    - rewrite D7, P2. apply R.
    - rewrite P2. intros u Hu. rewrite B1 by congruence. apply (r_top i s R u Hu).
    - exact Ec.
    - rewrite A1. apply upd_same.
    - exact W.
    - rewrite A2, K1, W. lia.
    - congruence.
    - congruence.
    - congruence.
    - exact A7.
    - exact B2.
    - exact B4.
    - discriminate.
    - exists s', y. rewrite Q8. split; [exact Q1|]. split; [exact Q2|]. split; [exact Q3|]. split; [congruence|]. split; [congruence|]. auto. }
  destruct (state_of c) as [|k'|] eqn:Es.
  - destruct K4 as (M & W & Kt). destruct (task x) as [t|] eqn:Tx.
    + destruct (Kt t eq_refl) as [Rn Sv]. assert (Td : tk s d = Some t) by (unfold tk; rewrite Ex; exact Tx). destruct (k_own _ i s H d t Td) as (O1 & O2 & O3 & O4).
      destruct (Go (set_data (start s t d) d (Some (with_p1 (with_ret x (-42)) v))) (with_p1 (with_ret x (-42)) v) t) as (s' & y & Q1 & Q2 & Q3 & Q4 & Q5 & Q6 & Q7 & Q8 & Q9); try reflexivity; auto.
      * intros u N. cbn. apply upd_other. exact N.
      * cbn. rewrite upd_same. reflexivity.
      * cbn. rewrite upd_same. reflexivity.
      * cbn. rewrite upd_same. reflexivity.
      * apply (k_free _ i s H).
      * intros u Iu. split; [exact Iu|]. intros ->. contradiction.
      * intros u L N. cbn in *. split; [exact L|]. split; [auto|]. congruence.
      * exists 1, s'. split; [|split; [exact Q2|left; reflexivity]]. cbn [steps fst snd step]. rewrite (k_objs _ i s H h), Eh, Ex. cbn [task with_ret]. rewrite Tx, Rn, Q1. cbn [fst snd set_data start set_task tasks]. rewrite upd_same. cbn [saved step]. rewrite Sv, Q6, Q8, Q9, Q3, Q4, Q5. reflexivity.
    + destruct (k_free _ i s H) as [F1 F2]. destruct (take s (size x) (free s)) as [[t r]|] eqn:Tk.
      * destruct (take_in _ _ _ _ _ Tk F1) as (I1 & I2 & I3). destruct (F2 t I1) as (L1 & L2 & L3).
        destruct (Go (set_data (start (set_free s r) t d) d (Some (with_p1 (with_task (with_ret x (-42)) (Some t)) v))) (with_p1 (with_task (with_ret x (-42)) (Some t)) v) t) as (s' & y & Q1 & Q2 & Q3 & Q4 & Q5 & Q6 & Q7 & Q8 & Q9); try reflexivity; auto.
        -- intros u N. cbn. apply upd_other. exact N.
        -- cbn. rewrite upd_same. reflexivity.
        -- cbn. rewrite upd_same. reflexivity.
        -- cbn. rewrite upd_same. reflexivity.
        -- intros e N He. destruct (k_own _ i s H e t He) as (_ & _ & X & _). contradiction.
        -- intros u L N. cbn in *. split; [exact L|]. split; [intros Iu; apply (take_keeps _ _ _ _ _ Tk u Iu N)|]. unfold tk. rewrite Ex, Tx. discriminate.
        -- exists 1, s'. split; [|split; [exact Q2|left; reflexivity]]. cbn [steps fst snd step]. rewrite (k_objs _ i s H h), Eh, Ex. cbn [task with_ret]. rewrite Tx. unfold start_new. change (size (with_ret x (-42))) with (size x). rewrite Tk. cbn beta iota. rewrite Q1. cbn [fst snd set_data start set_task tasks set_free]. rewrite upd_same. cbn [saved step]. rewrite L3, Q6, Q8, Q9, Q3, Q4, Q5. reflexivity.
      * destruct (Go (set_data (start (add_task s (Tsk false false d (size x) Loop)) (ntask s) d) d (Some (with_p1 (with_task (with_ret x (-42)) (Some (ntask s))) v))) (with_p1 (with_task (with_ret x (-42)) (Some (ntask s))) v) (ntask s)) as (s' & y & Q1 & Q2 & Q3 & Q4 & Q5 & Q6 & Q7 & Q8 & Q9); try reflexivity; auto.
        -- intros u N. cbn. rewrite !upd_other by exact N. reflexivity.
        -- cbn. rewrite upd_same. reflexivity.
        -- cbn. rewrite upd_same. reflexivity.
        -- cbn. rewrite upd_same. reflexivity.
        -- cbn. lia.
        -- intros u Iu. split; [exact Iu|]. intros ->. destruct (F2 _ Iu). lia.
        -- intros e N He. destruct (k_own _ i s H e _ He). lia.
        -- intros u L N. cbn in *. split; [lia|]. split; [auto|]. unfold tk. rewrite Ex, Tx. discriminate.
        -- exists 1, s'. split; [|split; [exact Q2|left; reflexivity]]. cbn [steps fst snd step]. rewrite (k_objs _ i s H h), Eh, Ex. cbn [task with_ret]. rewrite Tx. unfold start_new. change (size (with_ret x (-42))) with (size x). rewrite Tk. cbn beta iota. rewrite Q1. cbn [fst snd set_data start set_task tasks add_task]. rewrite !upd_same. cbn [saved step]. rewrite Q6, Q8, Q9, Q3, Q4, Q5. reflexivity.
  - destruct K4 as (M & W & t & Tx & Rn & Sv & At). assert (Td : tk s d = Some t) by (unfold tk; rewrite Ex; exact Tx). destruct (k_own _ i s H d t Td) as (O1 & O2 & O3 & O4).
    destruct (Go (set_data s d (Some (with_p1 (with_ret x (-42)) v))) (with_p1 (with_ret x (-42)) v) t) as (s' & y & Q1 & Q2 & Q3 & Q4 & Q5 & Q6 & Q7 & Q8 & Q9); try reflexivity; auto.
    + apply (k_free _ i s H).
    + intros u Iu. split; [exact Iu|]. intros ->. contradiction.
    + intros u L N. cbn in *. split; [exact L|]. split; [auto|]. congruence.
    + exists 1, s'. split; [|split; [exact Q2|left; reflexivity]]. cbn [steps fst snd step]. rewrite (k_objs _ i s H h), Eh, Ex. cbn [task with_ret]. rewrite Tx, Rn, Q1. cbn [fst snd set_data tasks]. rewrite Sv. cbn [step]. rewrite Q7, Q3, Q4. reflexivity.
  - pose proof (chain_data s _ (k_chain _ i s H) d) as X. destruct X as (x' & t & X1 & X2 & X3 & X4); [destruct (in_dec Nat.eq_dec d (map fst (stack i))) as [Y|Y]; [exact Y|apply weight_in in Y; contradiction]|].
    replace x' with x in * by congruence. cbn [task with_ret]. rewrite X2. cbn beta iota. unfold call. cbn [set_data datas]. rewrite upd_same. cbn [mydepth with_p1 with_ret]. rewrite (proj2 (Nat.eqb_neq (mydepth x) 0)) by lia.
    eexists. split; [reflexivity|]. destruct (running (tasks s t)); apply H.
Qed.
Lemma other_cont i s d c c' : corep (fun e => e <> d) i s -> conts i d = Some c -> (dying c = true -> dying c' = true) -> corep (fun e => e <> d) (set_cont i d (Some c')) s.
Proof.
  intros H E Dy. constructor; try apply H.
  - intros e L. cbn. unfold upd. destruct (Nat.eqb_spec e d) as [->|]; [|apply (k_dfresh _ i s H e L)]. rewrite (k_dfresh _ i s H d L) in E. discriminate.
  - intros h e He. cbn. unfold upd. destruct (Nat.eqb_spec e d); [discriminate|]. exact (k_hd _ i s H h e He).
  - intros e N. apply (dok_frame i s); auto; [apply (k_dok _ i s H e N)|]. cbn. apply upd_other. exact N.
  - intros e k I. destruct (k_drop _ i s H e k I) as [A B]. split; [exact A|]. unfold is_dying in *. cbn. unfold upd. destruct (Nat.eqb_spec e d) as [->|]; [rewrite E in B; exact (Dy B)|exact B].
Qed.
Definition without (i : ist) (h : nat) : ist := Ist (conts i) (ncont i) (upd (handles i) h None) (nhandle i) (stack i) (heard i).
Lemma drop_handle i s h d : core i s -> handles i h = Some d -> corep (fun e => e <> d) (without i h) (set_obj s h None) /\ refs (handles i) (nhandle i) d = S (refs (handles (without i h)) (nhandle i) d).
Proof.
  intros H Eh. assert (L : h < nhandle i) by (destruct (Nat.le_gt_cases (nhandle i) h) as [L|L]; [rewrite (k_hfresh _ i s H h L) in Eh; discriminate|exact L]).
  pose proof (fun e => refs_drop (handles i) (nhandle i) h d e L Eh) as Rf. split.
  - constructor; try apply H.
    + intros h'. cbn. unfold upd. destruct (Nat.eqb h' h); [reflexivity|apply H].
    + intros h' L'. cbn. unfold upd. destruct (Nat.eqb h' h); [reflexivity|apply H; exact L'].
    + intros h' e. cbn. unfold upd. destruct (Nat.eqb h' h); [discriminate|apply H].
    + intros e N. apply (dok_frame i s); auto; [apply (k_dok _ i s H e I)|]. cbn [without handles nhandle]. rewrite (Rf e), (proj2 (Nat.eqb_neq d e)) by congruence. lia.
    + apply (chain_frame s); eauto. apply H.
    + intros e k Ik. destruct (k_drop _ i s H e k Ik) as [A B]. split; [|exact B]. cbn [without handles nhandle]. rewrite (Rf e) in A. lia.
  - rewrite (Rf d), Nat.eqb_refl. cbn [without handles]. lia.
Qed.
Lemma sim_drop fns i s h k : rel i s -> simulates fns (Drop h k) i s.
Proof.
  intros R. unfold simulates. cbn [istep]. pose proof (r_core i s R) as H. cbn [step]. rewrite (k_objs _ i s H h). destruct (handles i h) as [d|] eqn:Eh; [|exists s; split; [reflexivity|apply H]].
  fold (without i h). destruct (drop_handle i s h d H Eh) as [H1 Rf]. cbn [without conts].
  pose proof (k_hd _ i s H h d Eh) as Cn. destruct (conts i d) as [c|] eqn:Ec; [|congruence]. clear Cn.
  pose proof (k_dok _ i s H d I) as K. unfold dok in K. rewrite Ec in K. destruct (datas s d) as [x|] eqn:Ex; [|contradiction]. destruct K as (K1 & K2 & K3 & K4). rewrite Rf in K1.
  pose proof (eq_refl (lost (without i h) d)) as Lo. unfold lost at 1 in Lo. cbn [without nhandle] in Lo. fold (without i h) in Lo.
  assert (D1 : datas (set_obj s h None) d = Some x) by exact Ex.
  assert (More : forall n, links x = S (S n) -> S n = refs (handles (without i h)) (nhandle i) d + weight d (stack i) ->
    rel (without i h) (set_data (set_obj s h None) d (Some (with_links x (S n))))).
  { intros n E1 E2. set (s2 := set_data (set_obj s h None) d (Some (with_links x (S n)))).
    assert (H2 : corep (fun e => e <> d) (without i h) s2) by (apply (touch _ _ d x); auto).
    assert (Tk : forall e, tk s2 e = tk s e) by (intros e; unfold tk; cbn; unfold upd; destruct (Nat.eqb_spec e d) as [->|]; [rewrite Ex|]; reflexivity).
    assert (Ow : owner s2 (stack i) = owner s (stack i)) by (apply owner_same; auto).
    constructor; [|exact (r_curdata i s R)|exact (eq_trans (r_cur i s R) (eq_sym Ow))|exact (fun u Hu => r_top i s R u (eq_trans (eq_sym Ow) Hu))].
    apply (core_settle _ _ d H2). unfold dok. cbn [without conts]. rewrite Ec. cbn [s2 set_data datas]. rewrite upd_same. cbn [with_links links finishing fn mydepth task].
    split; [exact E2|]. split; [exact K2|]. split; [exact K3|]. exact K4. }
  destruct (lost (without i h) d) eqn:Ld.
  - apply Nat.eqb_eq in Lo. rewrite Lo in *. cbn [plus] in K1. destruct (state_of c) as [|k'|] eqn:Es.
    + destruct K4 as (M & W & Kt). rewrite W in K1. exists 0. cbn [steps fst snd step]. rewrite (k_objs _ i s H h), Eh, Ex, K1. cbn [Nat.eqb plus]. unfold dtor.
      set (s2 := set_data (set_obj s h None) d (Some (finish x))). assert (D2 : datas s2 d = Some (finish x)) by (cbn; apply upd_same). rewrite D2.
      assert (H2 : corep (fun e => e <> d) (without i h) s2) by (apply (touch _ _ d x); auto).
      assert (Nr : is_running s2 (finish x) = false) by (unfold is_running; cbn [finish task]; destruct (task x) as [t|] eqn:Tx; [apply (Kt t eq_refl)|reflexivity]). rewrite Nr.
      assert (Un : unlink s2 d = Some (set_data (match task x with Some t => free_task s2 t | None => s2 end) d None)).
      { unfold unlink. rewrite D2. cbn [links finish task]. rewrite K1. cbn [plus]. destruct (task x) as [t|] eqn:Tx; [|reflexivity]. rewrite recycle_owned; [reflexivity|apply (Kt t eq_refl)|]. apply (k_own _ i s H d t). unfold tk. rewrite Ex. exact Tx. }
      rewrite Un. eexists. split; [reflexivity|]. split; [|left; reflexivity].
      pose proof (gone (without i h) s2 d (finish x) H2 D2 W Lo Kt) as G. set (s3 := set_data _ d None) in *.
      pose proof (proj1 (weight_in d (stack i)) W) as Nd.
      assert (Ow : owner s3 (stack i) = owner s (stack i)).
      { apply owner_same. intros e Ie. unfold tk, s3. assert (e <> d) by congruence. destruct (task x); cbn; rewrite !upd_other by assumption; reflexivity. }
      assert (Ts : forall u, owner s (stack i) = Some u -> tasks s3 u = tasks s u).
      { intros u Hu. unfold s3. destruct (task x) as [t|] eqn:Tx; cbn; [|reflexivity]. apply upd_other. intros ->. destruct (k_own _ i s H d t) as (_ & _ & _ & O4); [unfold tk; rewrite Ex; exact Tx|]. destruct (stack i) as [|[e b] r]; [discriminate|]. cbn in Hu. apply O4 in Hu. subst e. apply Nd. left. reflexivity. }
      constructor; [exact G|unfold s3; destruct (task x); exact (r_curdata i s R)| |].
      * etransitivity; [|symmetry; exact Ow]. unfold s3. destruct (task x); exact (r_cur i s R).
      * intros u Hu. pose proof (eq_trans (eq_sym Ow) Hu) as Hu'. rewrite (Ts u Hu'). apply (r_top i s R u Hu').
    + destruct K4 as (M & W & t & Tx & Rn & Sv & At). rewrite W in K1. unfold enter. cbn [set_cont conts without]. rewrite upd_same. cbn [state_of body dying].
      set (s2 := set_data (set_obj s h None) d (Some (finish x))). assert (D2 : datas s2 d = Some (finish x)) by (cbn; apply upd_same).
      assert (H2 : corep (fun e => e <> d) (without i h) s2) by (apply (touch _ _ d x); auto).
      assert (H3 : corep (fun e => e <> d) (set_cont (without i h) d (Some (Cont (body c) (state_of c) true))) s2) by (apply (other_cont _ _ d c); auto).
      assert (Tk : forall e, tk s2 e = tk s e) by (intros e; unfold tk; cbn; unfold upd; destruct (Nat.eqb_spec e d) as [->|]; [rewrite Ex|]; reflexivity).
      assert (Ow : owner s2 (stack i) = owner s (stack i)) by (apply owner_same; auto).
      destruct (push _ s2 d (Cont (body c) (state_of c) true) (finish x) t (Dropping k) H3) as (s' & y & Q1 & Q2 & Q3 & Q4 & Q5 & Q6 & Q7 & Q8).
      * exact (r_curdata i s R).
      * exact (eq_trans (r_cur i s R) (eq_sym Ow)).
      * exact (fun u Hu => r_top i s R u (eq_trans (eq_sym Ow) Hu)).
      * cbn. apply upd_same.
      * exact D2.
      * exact W.
      * cbn [set_cont handles nhandle]. change (nhandle (without i h)) with (nhandle i). rewrite Lo. exact K1.
      * reflexivity.
      * exact K3.
      * exact M.
      * exact Tx.
      * exact Rn.
      * exact At.
      * intros _ _. split; [exact Lo|reflexivity].
      * exists 1, s'. split; [|split; [|left; reflexivity]].
        -- cbn [steps fst snd step]. rewrite (k_objs _ i s H h), Eh, Ex, K1. cbn [Nat.eqb plus]. unfold dtor. fold s2. rewrite D2. unfold is_running. cbn [finish task]. rewrite Tx. change (tasks s2 t) with (tasks s t). rewrite Rn. change (ToDtor d k) with (conv d (Dropping k)). rewrite Q1. cbn [fst snd]. change (tasks s2 t) with (tasks s t). rewrite Sv. cbn [step]. rewrite Q7, Q3, Q4. reflexivity.
        -- cbn [body state_of dying] in Q2. rewrite Es in Q2. exact Q2.
    + destruct (weight d (stack i)) as [|w] eqn:W; [contradiction|]. exists 0. cbn [steps fst snd step]. rewrite (k_objs _ i s H h), Eh, Ex. replace (links x =? 1) with false by (rewrite K1; reflexivity).
      rewrite (unlink_more _ d x w D1) by (rewrite K1; reflexivity). eexists. split; [reflexivity|]. split; [|left; reflexivity]. apply More; [exact K1|reflexivity].
  - apply Nat.eqb_neq in Lo. destruct (refs (handles (without i h)) (nhandle i) d) as [|n] eqn:Er; [congruence|]. cbn [plus] in *.
    exists 0. cbn [steps fst snd step]. rewrite (k_objs _ i s H h), Eh, Ex. replace (links x =? 1) with false by (rewrite K1; reflexivity).
    rewrite (unlink_more _ d x (n + weight d (stack i)) D1) by (rewrite K1; reflexivity). eexists. split; [reflexivity|]. split; [|left; reflexivity]. apply More; [exact K1|reflexivity].
Qed.
Lemma rel_add i s d x : rel i s -> datas s d = Some x -> (forall k, ~ In (d, Dropping k) (stack i)) ->
  rel (new_handle i d) (add_obj (set_data s d (Some (with_links x (S (links x))))) d).
Proof.
  intros R Ex ND. set (s2 := add_obj _ d).
  assert (Tk : forall e, tk s2 e = tk s e) by (intros e; unfold tk; cbn; unfold upd; destruct (Nat.eqb_spec e d) as [->|]; [rewrite Ex|]; reflexivity).
  assert (Ow : owner s2 (stack i) = owner s (stack i)) by (apply owner_same; auto).
  constructor; [apply add_ref; auto; apply R|exact (r_curdata i s R)|exact (eq_trans (r_cur i s R) (eq_sym Ow))|exact (fun u Hu => r_top i s R u (eq_trans (eq_sym Ow) Hu))].
Qed.
Lemma sim_copy fns i s h k : rel i s -> simulates fns (Copy h k) i s.
Proof.
  intros R. unfold simulates. cbn [istep]. pose proof (r_core i s R) as H. cbn [step]. rewrite (k_objs _ i s H h). destruct (handles i h) as [d|] eqn:Eh; [|exists s; split; [reflexivity|apply H]].
  pose proof (k_hd _ i s H h d Eh) as Cn. pose proof (k_dok _ i s H d I) as K. unfold dok in K. destruct (conts i d) as [c|]; [|congruence]. destruct (datas s d) as [x|] eqn:Ex; [|contradiction].
  exists 0. cbn [steps fst snd step]. rewrite (k_objs _ i s H h), Eh, Ex. eexists. split; [rewrite (k_nobj _ i s H); reflexivity|]. split; [|left; reflexivity].
  apply rel_add; auto. intros k' Ik. destruct (k_drop _ i s H d k' Ik) as [A _]. exact (no_handle _ i s d H A h Eh).
Qed.
Lemma sim_current fns i s k : rel i s -> simulates fns (Current k) i s.
Proof.
  intros R. unfold simulates. cbn [istep]. pose proof (r_core i s R) as H. cbn [step]. destruct (stack i) as [|[d a] r] eqn:E.
  - destruct (no_current i s R E) as [Cu _]. exists s. rewrite Cu. split; [reflexivity|apply H].
  - destruct (inner i s d a r R E) as (x & c & t & Ex & Ec & Tx & Cu & At & Rc & Rn & Fx & Hcur). unfold is_dying. rewrite Ec. destruct (dying c) eqn:Dc.
    + exists s. rewrite Hcur, Fx. split; [reflexivity|apply H].
    + exists 0. cbn [steps fst snd step]. rewrite Hcur, Fx. eexists. split; [rewrite (k_nobj _ i s H); reflexivity|]. split; [|left; reflexivity]. apply rel_add; auto. intros k' Ik. destruct (k_drop _ i s H d k' Ik) as [_ Dy]. unfold is_dying in Dy. rewrite Ec in Dy. congruence.
Qed.
Lemma sim_isok fns i s k : rel i s -> simulates fns (IsOk k) i s.
Proof.
  intros R. unfold simulates. cbn [istep]. exists 0, s. cbn [steps fst snd step]. split; [|split; [exact R|left; reflexivity]]. rewrite (r_curdata i s R). destruct (stack i) as [|[d a] r] eqn:E; [reflexivity|]. cbn [head].
  destruct (inner i s d a r R E) as (x & c & t & Ex & Ec & Tx & Cu & At & Rc & Rn & Fx & Hcur). unfold is_dying. rewrite Ec, Hcur, Fx. reflexivity.
Qed.
Lemma sim_say fns i s o k : rel i s -> simulates fns (Say o k) i s.
Proof.
  intros R. unfold simulates. cbn [istep]. exists 0, (say s o). split; [reflexivity|]. split; [|right; reflexivity]. pose proof (r_core i s R) as H.
  assert (Ow : owner (say s o) (stack i) = owner s (stack i)) by (apply owner_same; auto).
  constructor; [|exact (r_curdata i s R)|exact (eq_trans (r_cur i s R) (eq_sym Ow))|exact (fun u Hu => r_top i s R u (eq_trans (eq_sym Ow) Hu))].
  constructor; try apply H; [cbn; rewrite (k_said _ i s H); reflexivity|]. apply (chain_frame s); eauto. apply H.
Qed.
Lemma sim_new fns i s f n k : rel i s -> simulates fns (New f n k) i s.
Proof.
  intros R. unfold simulates. cbn [istep]. pose proof (r_core i s R) as H. exists 0. cbn [steps fst snd step]. eexists. split; [rewrite (k_nobj _ i s H); reflexivity|]. split; [|left; reflexivity].
  rewrite (k_nd _ i s H). set (d := ncont i). set (s2 := add_obj _ d).
  assert (Cd : conts i d = None) by (apply (k_dfresh _ i s H); unfold d; lia).
  assert (Dd : datas s d = None) by (pose proof (k_dok _ i s H d I) as K; unfold dok in K; rewrite Cd in K; destruct (datas s d); [contradiction|reflexivity]).
  assert (Ds : datas s2 = upd (datas s) d (Some (Data 1 0 false n None f 0 0))) by (cbn; rewrite (k_nd _ i s H); reflexivity).
  assert (Tk : forall e, tk s2 e = tk s e) by (intros e; unfold tk; rewrite Ds; unfold upd; destruct (Nat.eqb_spec e d) as [->|]; [rewrite Dd|]; reflexivity).
  assert (Ow : owner s2 (stack i) = owner s (stack i)) by (apply owner_same; auto).
  assert (Rd : refs (handles i) (nhandle i) d = 0) by (apply refs_zero; intros h Eh; exact (k_hd _ i s H h d Eh Cd)).
  assert (Nd : ~ In d (map fst (stack i))) by (intros X; destruct (chain_data s _ (k_chain _ i s H) d X) as (x & t & X1 & _); congruence).
  constructor; [|exact (r_curdata i s R)|exact (eq_trans (r_cur i s R) (eq_sym Ow))|exact (fun u Hu => r_top i s R u (eq_trans (eq_sym Ow) Hu))].
  constructor; try apply H.
  - cbn. rewrite (k_nd _ i s H). reflexivity.
  - cbn. rewrite (k_nobj _ i s H). reflexivity.
  - intros h. cbn. rewrite (k_nobj _ i s H). unfold upd. destruct (Nat.eqb h (nhandle i)); [reflexivity|apply (k_objs _ i s H)].
  - intros h L. cbn in *. rewrite upd_other by lia. apply (k_hfresh _ i s H). lia.
  - intros e L. cbn in *. rewrite upd_other by (unfold d; lia). apply (k_dfresh _ i s H). lia.
  - intros h e He. cbn in *. unfold upd in *. destruct (Nat.eqb_spec e d); [discriminate|]. destruct (Nat.eqb h (nhandle i)); [congruence|]. exact (k_hd _ i s H h e He).
  - intros e _. destruct (Nat.eq_dec e d) as [->|N].
    + unfold dok. rewrite Ds, upd_same. cbn [new_handle conts handles nhandle stack]. rewrite upd_same, refs_new, Rd, Nat.eqb_refl, (proj2 (weight_in d (stack i)) Nd). cbn. repeat split; discriminate.
    + apply (dok_frame i s); auto; [apply (k_dok _ i s H e I)|cbn; apply upd_other; exact N|rewrite Ds; apply upd_other; exact N|]. cbn [new_handle handles nhandle]. rewrite refs_new, (proj2 (Nat.eqb_neq d e)) by congruence. lia.
  - intros e u. rewrite Tk. intros He. destruct (k_own _ i s H e u He) as (A & B & C & U). split; [exact A|]. split; [exact B|]. split; [exact C|]. intros z. rewrite Tk. apply U.
  - intros u L. destruct (k_kept _ i s H u L) as [F|[e He]]; [left; exact F|right; exists e; rewrite Tk; exact He].
  - apply (chain_frame s); auto; [|apply H]. intros e z Ie Ez. exists z. rewrite Ds, upd_other by congruence. auto.
  - intros e k' Ik. destruct (k_drop _ i s H e k' Ik) as [A B]. assert (N : e <> d) by (intros ->; apply Nd; apply in_map_iff; exists (d, Dropping k'); auto).
    split; [cbn [new_handle handles nhandle]; rewrite refs_new, (proj2 (Nat.eqb_neq d e)) by congruence; lia|]. unfold is_dying in *. cbn. rewrite upd_other by exact N. exact B.
  - intros e u Ie. rewrite Tk. apply (k_run _ i s H e u Ie).
Qed.
Lemma sim fns i s c : rel i s -> simulates fns c i s.
Proof.
  intros R. destruct c; [apply sim_ret|apply sim_say|apply sim_yield|apply sim_call|apply sim_new|apply sim_copy|apply sim_drop|apply sim_current|apply sim_isok]; exact R.
Qed.
Lemma rel_init : rel start_state init.
Proof.
  constructor; [|reflexivity|reflexivity|discriminate]. constructor; cbn; auto; try discriminate; try lia.
  - split; [constructor|contradiction].
  - intros t L. cbn in L. lia.
  - constructor.
Qed.

(** ** Whole programs *)
Lemma steps_done fns n v s : steps fns n (Done v, s) = (Done v, s).
Proof. induction n; [reflexivity|exact IHn]. Qed.
Lemma steps_abort fns n s : steps fns n (Abort, s) = (Abort, s).
Proof. induction n; [reflexivity|exact IHn]. Qed.
Lemma isteps_ended fns n v i : isteps fns n (Ended v, i) = (Ended v, i).
Proof. induction n; [reflexivity|exact IHn]. Qed.
Lemma isteps_failed fns n i : isteps fns n (Failed, i) = (Failed, i).
Proof. induction n; [reflexivity|exact IHn]. Qed.
Lemma isteps_add fns a b c : isteps fns (a + b) c = isteps fns b (isteps fns a c).
Proof. revert c. induction a as [|a IH]; intros c; [reflexivity|]. cbn. apply IH. Qed.
Lemma refines fns n : forall i s c, rel i s -> exists m, n <= m /\ seen (steps fns m (Exec c, s)) = iseen (isteps fns n (Run c, i)).
Proof.
  induction n as [|n IH]; intros i s c R.
  - exists 0. split; [lia|]. unfold seen, iseen. cbn. rewrite (k_said _ i s (r_core i s R)). reflexivity.
  - pose proof (sim fns i s c R) as Sm. unfold simulates in Sm. cbn [isteps fst snd]. destruct (istep fns (Run c) i) as [[c'|v|] i'].
    + destruct Sm as (k & s' & Sm & R' & _). destruct (IH i' s' c' R') as (m & L & E). exists (S k + m). split; [lia|]. rewrite steps_add, Sm. exact E.
    + destruct Sm as (s' & Sm & E). exists (S n). split; [lia|]. cbn [steps fst snd]. rewrite Sm, steps_done, isteps_ended. unfold seen, iseen. cbn. rewrite E. reflexivity.
    + destruct Sm as (s' & Sm & E). exists (S n). split; [lia|]. cbn [steps fst snd]. rewrite Sm, steps_abort, isteps_failed. unfold seen, iseen. cbn. rewrite E. reflexivity.
Qed.
(** Nothing is taken back *)
Lemma run_said s d old a : said (snd (run s d old a)) = said s.
Proof.
  unfold run. destruct (datas s d) as [x|]; [|reflexivity]. destruct (task x); [|reflexivity]. destruct (recycled _); [reflexivity|]. destruct (cur s); [|reflexivity]. destruct (Nat.eqb _ _); reflexivity.
Qed.
Lemma call_said s d a : said (snd (call s d a)) = said s.
Proof. unfold call. destruct (datas s d) as [x|]; [|reflexivity]. destruct (Nat.eqb _ _); [|reflexivity]. rewrite run_said. reflexivity. Qed.
Lemma unlink_said s d s' : unlink s d = Some s' -> said s' = said s.
Proof.
  unfold unlink. destruct (datas s d) as [x|]; [|discriminate]. destruct (links x) as [|[|n]]; [discriminate| |intros [= <-]; reflexivity]. destruct (task x) as [t|]; [|intros [= <-]; reflexivity].
  unfold recycle. destruct (running _); [discriminate|]. destruct (recycled _); intros [= <-]; reflexivity.
Qed.
Lemma dtor_said s d k : said (snd (dtor s d k)) = said s.
Proof. unfold dtor. destruct (datas s d) as [x|]; [|reflexivity]. destruct (is_running s x); [apply call_said|]. destruct (unlink s d) as [s'|] eqn:U; [|reflexivity]. exact (unlink_said s d s' U). Qed.
Lemma called_said s d old a : said (snd (called s d old a)) = said s.
Proof.
  unfold called. destruct (datas s d) as [x|]; [|reflexivity]. set (s1 := set_data s d _). destruct (_ && _); [rewrite run_said; reflexivity|]. destruct (_ <? _); [rewrite run_said; reflexivity|]. destruct (Nat.eqb (depth _) _); [|reflexivity].
  destruct (unlink _ d) as [s2|] eqn:U; [|reflexivity]. apply unlink_said in U. destruct a; [exact U|]. rewrite dtor_said. exact U.
Qed.
Lemma step_said fns m s : exists l, said (snd (step fns m s)) = said s ++ l.
Proof.
  assert (Z : forall s', said s' = said s -> exists l, said s' = said s ++ l) by (intros s' ->; exists []; rewrite app_nil_r; reflexivity).
  destruct m as [c|x| |]; [destruct c|destruct x| |]; cbn [step]; try (apply Z; reflexivity); try (eexists; reflexivity).
  - apply Z. destruct (cur s) as [t|]; [|reflexivity]. destruct (datas s _); reflexivity.
  - apply Z. destruct (current s) as [[d x]|]; [|reflexivity]. destruct (finishing x); [reflexivity|]. unfold task_yield. destruct (cur _); reflexivity.
  - apply Z. destruct (objs s h) as [d|]; [|reflexivity]. destruct (datas s d) as [x|]; [|reflexivity]. destruct (task _) as [t|].
    + destruct (running _); rewrite call_said; reflexivity.
    + unfold start_new. destruct (take _ _ _) as [[t r]|]; rewrite call_said; reflexivity.
  - apply Z. destruct (objs s h) as [d|]; [|reflexivity]. destruct (datas s d); reflexivity.
  - apply Z. destruct (objs s h) as [d|]; [|reflexivity]. destruct (datas s d) as [x|]; [|reflexivity]. destruct (Nat.eqb _ _); [rewrite dtor_said; reflexivity|]. destruct (unlink _ d) as [s'|] eqn:U; [|reflexivity]. exact (unlink_said _ d s' U).
  - apply Z. destruct (current s) as [[d x]|]; [|reflexivity]. destruct (finishing x); reflexivity.
  - apply Z. destruct (curdata s); [|reflexivity]. destruct (current s) as [[d x]|]; reflexivity.
  - apply Z. destruct (cur s) as [t|] eqn:Ec; [|reflexivity]. destruct (running _); [destruct (datas s _); reflexivity|]. unfold task_yield. rewrite Ec. reflexivity.
  - apply Z. destruct (curdata s) as [d|]; [|reflexivity]. destruct (datas s d); reflexivity.
  - apply Z. rewrite called_said. reflexivity.
Qed.
Lemma steps_said fns n : forall c, exists l, said (snd (steps fns n c)) = said (snd c) ++ l.
Proof.
  induction n as [|n IH]; intros c; [exists []; rewrite app_nil_r; reflexivity|]. cbn. destruct (IH (step fns (fst c) (snd c))) as [l E], (step_said fns (fst c) (snd c)) as [l' E']. exists (l' ++ l). rewrite E, E', app_assoc. reflexivity.
Qed.
Lemma still fns j n c s c' s' : steps fns (j + n) (Exec c, s) = (Exec c', s') -> said s' = said s -> seen (steps fns j (Exec c, s)) = (Going, said s).
Proof.
  intros E Sd. rewrite steps_add in E. destruct (steps fns j (Exec c, s)) as [m s1] eqn:E1. pose proof (steps_said fns j (Exec c, s)) as [l1 L1]. rewrite E1 in L1. cbn in L1.
  pose proof (steps_said fns n (m, s1)) as [l2 L2]. rewrite E in L2. cbn in L2. rewrite Sd, L1, <- app_assoc in L2. rewrite <- (app_nil_r (said s)) in L2 at 1. apply app_inv_head in L2. symmetry in L2. apply app_eq_nil in L2. destruct L2 as [-> _]. rewrite app_nil_r in L1.
  unfold seen. cbn. rewrite L1. f_equal. destruct m; try reflexivity; [rewrite steps_done in E|rewrite steps_abort in E]; discriminate.
Qed.
Lemma refines_back fns m : forall i s c, rel i s -> exists n, seen (steps fns m (Exec c, s)) = iseen (isteps fns n (Run c, i)).
Proof.
  induction m as [m IH] using (well_founded_induction lt_wf). intros i s c R. pose proof (k_said _ i s (r_core i s R)) as Sd.
  pose proof (sim fns i s c R) as Sm. unfold simulates in Sm. destruct (istep fns (Run c) i) as [[c'|v|] i'] eqn:Ei.
  - destruct Sm as (k & s' & Sm & R' & Hh). destruct (Nat.le_gt_cases (S k) m) as [L|L].
    + destruct (IH (m - S k) ltac:(lia) i' s' c' R') as (n & E). exists (S n). cbn [isteps fst snd]. rewrite Ei, <- E. replace m with (S k + (m - S k)) at 1 by lia. rewrite steps_add, Sm. reflexivity.
    + exists 0. unfold iseen. cbn [isteps fst snd]. rewrite <- Sd. destruct Hh as [Hh|Hh].
      * apply (still fns m (S k - m) c s c' s'); [replace (m + (S k - m)) with (S k) by lia; exact Sm|]. rewrite (k_said _ i' s' (r_core i' s' R')), Sd. exact Hh.
      * replace m with 0 by lia. reflexivity.
  - destruct Sm as (s' & Sm & E). destruct m as [|m]; [exists 0; unfold seen, iseen; cbn; rewrite Sd; reflexivity|]. exists 1. cbn [isteps steps fst snd]. rewrite Sm, Ei, steps_done. unfold seen, iseen. cbn. rewrite E. reflexivity.
  - destruct Sm as (s' & Sm & E). destruct m as [|m]; [exists 0; unfold seen, iseen; cbn; rewrite Sd; reflexivity|]. exists 1. cbn [isteps steps fst snd]. rewrite Sm, Ei, steps_abort. unfold seen, iseen. cbn. rewrite E. reflexivity.
Qed.

(** ** Nothing is leaked *)
Definition live (i : ist) : Prop := forall d c, conts i d = Some c -> state_of c <> Active -> 1 <= refs (handles i) (nhandle i) d.
Lemma live_enter fns i d v a : live i -> live (snd (enter fns i d v a)).
Proof.
  intros L. unfold enter. destruct (conts i d) as [c|] eqn:Ec; [|exact L].
  assert (L' : live (set_stack (set_cont i d (Some (Cont (body c) Active (dying c)))) ((d, a) :: stack i))).
  { intros e z. cbn. unfold upd. destruct (Nat.eqb_spec e d); [intros [= <-]; cbn; congruence|apply L]. }
  destruct (state_of c); [exact L'|exact L'|exact L].
Qed.
Lemma live_sweep i : live i -> live (sweep i).
Proof. intros L d c. cbn. destruct (conts i d) as [c0|] eqn:Ec; [|discriminate]. destruct (_ && _); intros [= <-]; exact (L d c0 Ec). Qed.
Lemma live_step fns m i s : core i s -> live i -> live (snd (istep fns m i)).
Proof.
  intros H L. destruct m as [c| |]; [|exact L|exact L]. destruct c as [v|o k|v k|h v k|f n k|h k|h k|k|k]; cbn [istep]; try exact L.
  - destruct (stack i) as [|[d a] r] eqn:E; [exact L|]. destruct (conts (sweep i) d) as [c|]; [|exact (live_sweep i L)]. intros e z. cbn [snd set_stack set_cont conts handles nhandle]. unfold upd. destruct (Nat.eqb_spec e d) as [->|].
    + unfold lost. destruct (Nat.eqb_spec (refs (handles (sweep i)) (nhandle (sweep i)) d) 0); [discriminate|]. intros _ _. cbn [sweep set_conts handles nhandle] in *. lia.
    + apply (live_sweep i L).
  - destruct (stack i) as [|[d a] r] eqn:E; [exact L|]. destruct (is_dying i d) eqn:Dy; [exact L|]. destruct (conts (sweep i) d) as [c|] eqn:Ec; [|exact (live_sweep i L)]. destruct (dying c) eqn:Dc; [exact (live_sweep i L)|].
    intros e z. cbn [snd set_stack set_cont conts handles nhandle]. unfold upd. destruct (Nat.eqb_spec e d) as [->|]; [|apply (live_sweep i L)]. intros _ _. cbn in Ec. destruct (conts i d); [|discriminate]. rewrite E in Ec. cbn [existsb fst] in Ec. rewrite Nat.eqb_refl in Ec. cbn [orb andb] in Ec. unfold lost in Ec.
    destruct (Nat.eqb_spec (refs (handles i) (nhandle i) d) 0); [injection Ec as <-; discriminate|cbn [sweep set_conts handles nhandle]; lia].
  - destruct (handles i h); [apply live_enter|]; exact L.
  - intros e z. cbn [snd new_handle conts handles nhandle]. rewrite refs_new. unfold upd. destruct (Nat.eqb_spec e (ncont i)) as [->|]; [rewrite Nat.eqb_refl; lia|]. intros Ez As. pose proof (L e z Ez As). lia.
  - destruct (handles i h) as [d|]; [|exact L]. intros e z Ez As. cbn [snd new_handle conts handles nhandle] in *. rewrite refs_new. pose proof (L e z Ez As). lia.
  - destruct (handles i h) as [d|] eqn:Eh; [|exact L]. fold (without i h). cbn [without conts]. fold (without i h). destruct (drop_handle i s h d H Eh) as [H1 Rf].
    assert (Rn : forall e, e <> d -> refs (handles (without i h)) (nhandle i) e = refs (handles i) (nhandle i) e).
    { intros e N. assert (Lh : h < nhandle i) by (destruct (Nat.le_gt_cases (nhandle i) h) as [X|X]; [rewrite (k_hfresh _ i s H h X) in Eh; discriminate|exact X]). rewrite (refs_drop (handles i) (nhandle i) h d e Lh Eh), (proj2 (Nat.eqb_neq d e)) by congruence. cbn. lia. }
    destruct (conts i d) as [c|] eqn:Ec; [|elim (k_hd _ i s H h d Eh Ec)]. unfold lost. change (nhandle (without i h)) with (nhandle i).
    destruct (Nat.eqb_spec (refs (handles (without i h)) (nhandle i) d) 0) as [Z|Z].
    + destruct (state_of c) eqn:Es.
      * intros e z. cbn [snd set_cont conts]. unfold upd. destruct (Nat.eqb_spec e d); [discriminate|]. intros Ez As. cbn [handles nhandle set_cont]. change (nhandle (without i h)) with (nhandle i). rewrite Rn by assumption. exact (L e z Ez As).
      * unfold enter. cbn [set_cont conts]. rewrite upd_same. cbn [state_of body dying snd]. intros e z. cbn [set_stack set_cont conts handles nhandle]. change (nhandle (without i h)) with (nhandle i). unfold upd. destruct (Nat.eqb_spec e d); [intros [= <-]; cbn; congruence|]. intros Ez As. rewrite Rn by assumption. exact (L e z Ez As).
      * intros e z Ez As. cbn [snd without conts] in Ez. destruct (Nat.eq_dec e d) as [->|N]; [congruence|]. cbn [snd]. change (nhandle (without i h)) with (nhandle i). rewrite Rn by assumption. exact (L e z Ez As).
    + intros e z Ez As. cbn [snd without conts] in Ez. cbn [snd]. change (nhandle (without i h)) with (nhandle i). destruct (Nat.eq_dec e d) as [->|N]; [lia|]. rewrite Rn by assumption. exact (L e z Ez As).
  - destruct (stack i) as [|[d a] r]; [exact L|]. destruct (is_dying i d); [exact L|]. intros e z Ez As. cbn [snd new_handle conts handles nhandle] in *. rewrite refs_new. pose proof (L e z Ez As). lia.
Qed.
Lemma ended fns c i v i' : istep fns (Run c) i = (Ended v, i') -> c = Ret v /\ i' = i /\ stack i = [].
Proof.
  destruct c as [v0|o k|v0 k|h v0 k|f n k|h k|h k|k|k]; cbn [istep]; try discriminate.
  - destruct (stack i) as [|[d a] r] eqn:E; [intros [= <- <-]; auto|]. destruct (conts _ d); discriminate.
  - destruct (stack i) as [|[d a] r]; [discriminate|]. destruct (is_dying i d); [discriminate|]. destruct (conts _ d) as [c|]; [|discriminate]. destruct (dying c); discriminate.
  - destruct (handles i h) as [d|]; [|discriminate]. unfold enter. destruct (conts i d) as [c|]; [|discriminate]. destruct (state_of c); discriminate.
  - destruct (handles i h); discriminate.
  - destruct (handles i h) as [d|]; [|discriminate]. destruct (conts _ d) as [c|]; [|discriminate]. destruct (lost _ d); [|discriminate]. unfold enter. destruct (state_of c) eqn:Es; try discriminate. destruct (conts _ d) as [c'|]; [|discriminate]. destruct (state_of c'); discriminate.
  - destruct (stack i) as [|[d a] r]; [discriminate|]. destruct (is_dying i d); discriminate.
Qed.
Lemma ends fns m : forall i s c v s', rel i s -> live i -> steps fns m (Exec c, s) = (Done v, s') -> exists i', rel i' s' /\ live i' /\ stack i' = [].
Proof.
  induction m as [m IH] using (well_founded_induction lt_wf). intros i s c v s' R L E.
  pose proof (sim fns i s c R) as Sm. unfold simulates in Sm. pose proof (live_step fns (Run c) i s (r_core i s R) L) as L'. destruct (istep fns (Run c) i) as [[c'|w|] i'] eqn:Ei; cbn [snd] in L'.
  - destruct Sm as (k & s1 & Sm & R' & _). destruct (Nat.le_gt_cases (S k) m) as [Lk|Lk].
    + apply (IH (m - S k) ltac:(lia) i' s1 c' v s' R' L'). replace m with (S k + (m - S k)) in E by lia. rewrite steps_add, Sm in E. exact E.
    + replace (S k) with (m + (S k - m)) in Sm by lia. rewrite steps_add, E, steps_done in Sm. discriminate.
  - destruct (ended fns c i w i' Ei) as (-> & -> & Es). destruct Sm as (s1 & Sm & _). destruct m as [|m]; [discriminate|]. cbn [steps fst snd] in E. rewrite Sm, steps_done in E. injection E as _ <-.
    destruct (no_current i s R Es) as [_ Cu]. cbn [step] in Sm. rewrite Cu in Sm. injection Sm as <-. exists i. auto.
  - destruct Sm as (s1 & Sm & _). destruct m as [|m]; [discriminate|]. cbn [steps fst snd] in E. rewrite Sm, steps_abort in E. discriminate.
Qed.
Lemma refs_some h n d : 1 <= refs h n d -> exists k, h k = Some d.
Proof.
  unfold refs. intros L. destruct (filter _ (seq 0 n)) as [|k l] eqn:E; [cbn in L; lia|]. assert (I : In k (filter (fun h0 => match h h0 with Some e => e =? d | None => false end) (seq 0 n))) by (rewrite E; left; reflexivity).
  apply filter_In in I. destruct I as [_ I]. exists k. destruct (h k) as [e|]; [|discriminate]. apply Nat.eqb_eq in I. congruence.
Qed.
Lemma no_leak fns m main v s : steps fns m (Exec main, init) = (Done v, s) ->
  (forall d x, datas s d = Some x -> exists h, objs s h = Some d) /\
  (forall t, t < ntask s -> (In t (free s) /\ running (tasks s t) = false) \/ exists h d x, objs s h = Some d /\ datas s d = Some x /\ task x = Some t).
Proof.
  intros E. destruct (ends fns m start_state init main v s rel_init) as (i & R & L & Es); [intros d c; discriminate|exact E|]. pose proof (r_core i s R) as H.
  assert (A : forall d x, datas s d = Some x -> exists h, objs s h = Some d).
  { intros d x Ex. pose proof (k_dok _ i s H d I) as K. unfold dok in K. rewrite Ex, Es in K. destruct (conts i d) as [c|] eqn:Ec; [|contradiction]. destruct K as (_ & _ & _ & K).
    destruct (refs_some (handles i) (nhandle i) d) as [h Eh]; [|exists h; rewrite (k_objs _ i s H); exact Eh]. apply (L d c Ec). intros X. rewrite X in K. apply K. reflexivity. }
  split; [exact A|]. intros t Lt. destruct (k_kept _ i s H t Lt) as [F|[d Hd]].
  - left. split; [exact F|]. apply (k_free _ i s H). exact F.
  - right. unfold tk in Hd. destruct (datas s d) as [x|] eqn:Ex; [|discriminate]. destruct (A d x Ex) as [h Eh]. exists h, d, x. auto.
Qed.
