From Coq Require Import Permutation.
From Verif Require Import Base BaseFacts Ctype KeyModel KeySpec KeyProofs TempModel TempSpec TreeProofs TempProofs TxnModel TxnSpec TxnProofs.
Local Open Scope nat_scope.

(** ** The status of a key in a tree of changes *)
Fixpoint kind (c : ctree) (k : key) : status :=
  match tval c with
  | NewTree _ => Explicit
  | m =>
      match k with
      | [] => match m with NewValue _ => Explicit | NewNode _ => Implied | _ => Untouched end
      | s :: r => match child (tch c) s with Some d => kind d r | None => Untouched end
      end
  end.
Definition kindo (c : option ctree) (k : key) : status := match c with Some c => kind c k | None => Untouched end.
Lemma kind_cons k0 m ch s r : notree m -> kind (Node k0 m ch) (s :: r) = match child ch s with Some d => kind d r | None => Untouched end.
Proof. destruct m; [reflexivity|intros []|reflexivity|reflexivity]. Qed.
Lemma impl_kind : forall k c, impl c k = match kind c k with Implied => true | _ => false end.
Proof.
  induction k as [|s r IH]; intros [k0 m ch]; destruct m; try reflexivity; cbn [impl kind tval tch]; destruct (child ch s); auto.
Qed.
Definition through (st : status) (b : option bytes) (v : option bytes) : option bytes :=
  match st with Untouched => b | Implied => Some (match b with Some w => w | None => [] end) | Explicit => v end.
Lemma cv_kind : forall k c b b', cv c b' k = through (kind c k) (b' k) (cv c b k).
Proof.
  induction k as [|s r IH]; intros [k0 m ch] b b'; destruct m; try reflexivity; cbn [cv kind tval tch]; destruct (child ch s) as [d|]; try reflexivity; apply (IH d (fun q => b (s :: q)) (fun q => b' (s :: q))).
Qed.
Lemma kind_low : forall k k' c, WF c -> Forall plain k -> Forall plain k' -> same k k' = true -> kind c k = kind c k'.
Proof.
  induction k as [|s r IH]; intros [|s' r'] c W P P' E; try reflexivity; try discriminate.
  rewrite same_cons in E. apply andb_true_iff in E. destruct E as [E1 E2].
  pose proof (Forall_inv P) as Ps. pose proof (Forall_inv_tail P) as Pr. pose proof (Forall_inv P') as Ps'. pose proof (Forall_inv_tail P') as Pr'.
  pose proof (child_same c s s' W Ps Ps' E1) as Cs. destruct c as [k0 m ch]. cbn [tch] in Cs.
  assert (G : (match child ch s with Some d => kind d r | None => Untouched end) = match child ch s' with Some d => kind d r' | None => Untouched end).
  { rewrite Cs. destruct (child ch s) as [d|] eqn:Ed; [|reflexivity]. pose proof (child_plain (Node k0 m ch) s d W Ed) as [_ Wd]. apply IH; auto. }
  destruct m; try exact G. reflexivity.
Qed.
Lemma status_cons m s r v s' r' : set_status m (s :: r) v (s' :: r') = if teq s s' then set_status (fun k => m (s' :: k)) r v r' else m (s' :: r').
Proof.
  unfold set_status. destruct v as [v|].
  - rewrite same_cons. cbn [under]. rewrite (teq_sym s' s). destruct (teq s s'); reflexivity.
  - cbn [under]. destruct (teq s s'); reflexivity.
Qed.
Lemma status_ext m m' k v q : m q = m' q -> set_status m k v q = set_status m' k v q.
Proof. intros E. unfold set_status. destruct v; rewrite E; reflexivity. Qed.

Lemma node_kind k0 m m' ch ch' s d' r v : notree m -> notree m' -> WF (Node k0 m ch) -> plain s ->
  (forall s', plain s' -> child ch' s' = if teq s s' then Some d' else child ch s') ->
  (m' = m /\ (m = Blank -> v = None) \/ m = Blank /\ v <> None /\ exists w, m' = NewNode w) ->
  (forall q, Forall plain q -> kind d' q = set_status (fun q => match child ch s with Some d => kind d q | None => Untouched end) r v q) ->
  forall q, Forall plain q -> kind (Node k0 m' ch') q = set_status (kind (Node k0 m ch)) (s :: r) v q.
Proof.
  intros Hm Hm' W Ps C Em Hd [|s' r'] P.
  - unfold set_status. cbn [same under andb]. destruct Em as [[-> Hb]|(-> & Hv & w & ->)].
    + destruct v as [v|]; [|destruct m; reflexivity]. destruct m; [reflexivity|elim Hm|reflexivity|]. specialize (Hb eq_refl). discriminate.
    + destruct v; [reflexivity|elim Hv; reflexivity].
  - pose proof (Forall_inv P) as Ps'. pose proof (Forall_inv_tail P) as Pr'. rewrite status_cons, !kind_cons, C by assumption.
    destruct (teq s s') eqn:E; [|reflexivity]. rewrite Hd by exact Pr'. apply status_ext. rewrite kind_cons by exact Hm.
    pose proof (child_same (Node k0 m ch) s s' W Ps Ps' E) as Cs. cbn [tch] in Cs. rewrite Cs. reflexivity.
Qed.
Lemma create_change_kind v : forall rest g p k0, Forall plain rest ->
  tkey (fst (create_change g p k0 rest v)) = k0 /\ forall q, Forall plain q -> kind (fst (create_change g p k0 rest v)) q = set_status (fun _ => Untouched) rest v q.
Proof.
  induction rest as [|s r IH]; intros g p k0 P; cbn [create_change].
  - destruct v as [w|]; cbn [fst]; (split; [reflexivity|]); intros [|s r] _; reflexivity.
  - pose proof (Forall_inv P) as Ps. pose proof (Forall_inv_tail P) as Pr. destruct (IH g (p ++ [s]) s Pr) as [Tk Hk].
    destruct (create_change g (p ++ [s]) s r v) as [c n]. cbn [fst] in *.
    assert (C : forall s', plain s' -> child [c] s' = if teq s s' then Some c else None) by (intros s' Ps'; cbn [child]; rewrite same_seg_teq by (rewrite ?Tk; auto using plain_nulf); rewrite Tk; reflexivity).
    assert (E : forall q, Forall plain q -> set_status (kind (Node k0 Blank [])) (s :: r) v q = set_status (fun _ => Untouched) (s :: r) v q).
    { intros q Pq. apply status_ext. destruct q; reflexivity. }
    destruct v as [w|]; cbn [fst]; (split; [reflexivity|]); intros q Pq; rewrite <- E by exact Pq.
    + apply (node_kind k0 Blank _ [] [c] s c r (Some w)); auto; try exact I; [repeat constructor|]. right. repeat split; [discriminate|eexists; reflexivity].
    + apply (node_kind k0 Blank Blank [] [c] s c r None); auto; try exact I; repeat constructor.
Qed.
Lemma set_at_kind v full : hastrailingslash full = false -> forall rest g c p, Forall plain rest -> WF c -> notree (tval c) ->
  tkey (fst (set_change_at g full c p rest v)) = tkey c /\
  forall q, Forall plain q -> kind (fst (set_change_at g full c p rest v)) q = set_status (kind c) rest v q.
Proof.
  intros Hf. induction rest as [|s r IH]; intros g [k0 m ch] p P W Nt.
  - cbn [set_change_at tkey tval] in *. unfold change_here. destruct v as [w|].
    + assert (G : forall m', (exists w', m' = NewValue w') -> forall q, Forall plain q -> kind (Node k0 m' ch) q = set_status (kind (Node k0 m ch)) [] (Some w) q).
      { intros m' [w' ->] [|s r] Pq; [reflexivity|]. unfold set_status. cbn [same under andb]. rewrite !kind_cons by (exact I || exact Nt). reflexivity. }
      destruct m as [w0|t|was|]; [|elim Nt| |]; cbn [fst]; try (split; [reflexivity|]; apply G; eauto; fail).
      destruct (list_eq_dec ascii_dec w0 w); cbn [fst]; (split; [reflexivity|]); apply G; eauto.
    + cbn [fst]. split; [reflexivity|]. intros [|s r] _; reflexivity.
  - pose proof (Forall_inv P) as Ps. pose proof (Forall_inv_tail P) as Pr. rewrite set_at_eq. rewrite isempty_plain by exact Ps. rewrite Hf. cbv zeta. cbn [andb tval tkey] in *.
    set (m' := match m, v with Blank, Some _ => NewNode (bang (tget g p)) | _, _ => m end).
    assert (Nm' : notree m') by (unfold m'; destruct m, v; auto; exact I).
    assert (Em : m' = m /\ (m = Blank -> v = None) \/ m = Blank /\ v <> None /\ exists w, m' = NewNode w)
      by (unfold m'; destruct m, v; (left; split; [reflexivity|congruence]) || (right; split; [reflexivity|split; [discriminate|eexists; reflexivity]])).
    destruct (child ch s) as [d|] eqn:Ed.
    + destruct (child_key (Node k0 m ch) d s W Ps Ed) as (Pd & Wd & Td).
      assert (K : forall d', tkey d' = tkey d -> (forall q, Forall plain q -> kind d' q = set_status (kind d) r v q) ->
        forall q, Forall plain q -> kind (Node k0 m' (with_child ch s (Some d'))) q = set_status (kind (Node k0 m ch)) (s :: r) v q).
      { intros d' Tk Hd. apply (node_kind k0 m m' ch _ s d' r v); auto.
        - intros s' Ps'. apply (child_replace (Node k0 m ch) s d d' s'); auto using plain_nulf.
        - intros q Pq. rewrite Hd by exact Pq. apply status_ext. rewrite Ed. reflexivity. }
      destruct (tval d) as [w|t|w|] eqn:Ev.
      2:{ destruct d as [kd md chd]. cbn [tval] in Ev. subst md. destruct (set_value t (p ++ [s]) r v) as [t' n]. cbn [fst]. split; [reflexivity|]. apply K; [reflexivity|].
        intros q _. assert (X : forall u x, kind (Node kd (NewTree u) chd) x = Explicit) by (intros u [|]; reflexivity). unfold set_status. rewrite !X.
        destruct v; [destruct (same r q); [|destruct (under q r)]|destruct (under r q)]; reflexivity. }
      all: assert (Nd : notree (tval d)) by (rewrite Ev; exact I); destruct (IH g d (p ++ [s]) Pr Wd Nd) as [Tk Hk]; destruct d as [kd md chd]; cbn [tval] in Ev; subst md;
        match type of Hk with context [set_change_at ?g ?f ?d ?p ?r ?v] => destruct (set_change_at g f d p r v) as [d' n] end; cbn [fst] in *; split; [reflexivity|]; apply K; assumption.
    + destruct (create_change_kind v r g (p ++ [s]) s Pr) as [Tk Hk]. destruct (create_change g (p ++ [s]) s r v) as [d' n]. cbn [fst] in *. split; [reflexivity|].
      pose proof (WF_inv _ W) as (Pch & _). cbn [tch] in Pch. apply (node_kind k0 m m' ch _ s d' r v); auto.
      * intros s' Ps'. rewrite <- Tk. apply child_added; rewrite ?Tk; auto using plain_nulf.
      * intros q Pq. rewrite Hk by exact Pq. apply status_ext. rewrite Ed. reflexivity.
Qed.

(** ** set, at the top *)
Definition INV (t : txn) : Prop := WFo (root (base t)) /\ match chg t with Some c => WF c /\ MW (has (base t)) c | None => True end.
Definition lost (t : txn) (k : key) (v : option bytes) : bool :=
  match kindo (chg t) k with Implied => differ (has (base t) k) v | _ => false end.
Lemma has_low' g : WFo (root g) -> low_inv (has g).
Proof. intros W k k' P P' E. apply has_low; assumption. Qed.
Lemma xset_ok t k v t' n : INV t -> Forall plain k -> xset t k v = (t', n) ->
  INV t' /\ base t' = base t /\ same_contents (view t') (set_spec (view t) k v) /\
  (forall q, Forall plain q -> kindo (chg t') q = set_status (kindo (chg t)) k v q) /\
  if lost t k v then n = [] else tells (view t) (view t') n.
Proof.
  intros [Wg Hc] P. unfold xset, lost. destruct t as [g c]. cbn [base chg] in *. destruct (plain_slashed k P) as [_ Hn].
  destruct (set_change g c k v) as [c' n0] eqn:Es. intros H. injection H as <- <-. cbn [base chg]. unfold view. cbn [base chg].
  assert (Hf : hastrailingslash k = false) by (destruct k as [|x y]; [reflexivity|apply hasts_app; [discriminate|exact P]]).
  unfold set_change in Es. destruct c as [c|].
  - destruct Hc as [Wc Mc]. destruct c as [k0 m ch]. destruct (match m with NewTree _ => true | _ => false end) eqn:Em.
    + destruct m as [|u| |]; try discriminate. destruct (MW_inv _ _ Mc) as (A & _). destruct (A u eq_refl) as [Ec Wu]. cbn [tch] in Ec. subst ch.
      pose proof (set_value_ok u [] k v Wu P) as Sv. destruct (set_value u [] k v) as [u' n1]. injection Es as <- <-. destruct Sv as (Wu' & E & _ & n' & En & T).
      rewrite pre_nil in En. subst n1. assert (X : forall u q, cv (Node k0 (NewTree u) []) (has g) q = lko u q) by (intros u0 [|]; reflexivity).
      assert (Y : forall u q, kind (Node k0 (NewTree u) []) q = Explicit) by (intros u0 [|]; reflexivity). cbn [cvo kindo].
      split; [split; [exact Wg|]; split; [repeat constructor|]; constructor; try discriminate; [intros u0 E0; injection E0 as <-; auto|constructor]|].
      split; [reflexivity|]. split; [intros q Pq; rewrite X, E by exact Pq; apply set_ext; symmetry; apply X|]. split.
      * intros q Pq. unfold set_status. cbn [kindo]. rewrite !Y. destruct v; [destruct (same k q); [|destruct (under q k)]|destruct (under k q)]; reflexivity.
      * rewrite Y. eapply tells_ext; [| |exact T]; intros q Pq; symmetry; apply X.
    + assert (Nt : notree m) by (destruct m; [exact I|discriminate|exact I|exact I]).
      assert (Es' : (let (c', n) := set_change_at g k (Node k0 m ch) [] k v in (Some c', n)) = (c', n0)) by (destruct m; [exact Es|discriminate|exact Es|exact Es]). clear Es.
      pose proof (set_at_ok v k Hf k g (Node k0 m ch) [] Wg (Forall_nil _) P Wc Mc Nt) as S. destruct (set_at_kind v k Hf k g (Node k0 m ch) [] P Wc Nt) as [_ Hk].
      destruct (set_change_at g k (Node k0 m ch) [] k v) as [c1 n1]. injection Es' as <- <-. destruct S as ((W1 & M1 & _ & E & n' & En & T) & _). rewrite pre_nil in En. subst n1. cbn [fst] in Hk.
      split; [split; [exact Wg|split; [exact W1|exact M1]]|]. split; [reflexivity|]. split; [exact E|]. split; [exact Hk|]. cbn [cvo kindo]. rewrite impl_kind in T.
      change (below g [] k) with (has g k) in T. destruct (kind (Node k0 m ch) k); exact T.
  - rewrite Hf in Es. cbn [andb] in Es. pose proof (create_change_ok v k g [] [] Wg (Forall_nil _) P) as S. destruct (create_change_kind v k g [] [] P) as [_ Hk].
    destruct (create_change g [] [] k v) as [c1 n1]. injection Es as <- <-. destruct S as ((W1 & M1 & _ & E & n' & En & T) & _). rewrite pre_nil in En. subst n1. cbn [fst] in Hk.
    split; [split; [exact Wg|split; [exact W1|exact M1]]|]. split; [reflexivity|]. split; [exact E|]. split; [exact Hk|]. exact T.
Qed.

(** ** Notifications of the base *)
Lemma tells_app m1 m2 m3 o1 o2 : tells m1 m2 o1 -> tells m2 m3 o2 ->
  (forall x y, In x o1 -> In y o2 -> same (fst x) (fst y) = false) -> tells m1 m3 (o1 ++ o2).
Proof.
  intros [T1 A1 O1] [T2 A2 O2] D. split.
  - intros k v H. apply in_app_iff in H. destruct H as [H|H].
    + destruct (T1 k v H) as (P & E & N). split; [exact P|]. split; [|exact N]. rewrite <- E.
      destruct (eq_val_dec (m2 k) (m3 k)) as [[Q _]|[Q _]]; [symmetry; exact Q|]. destruct (A2 k P Q) as (k0 & v0 & Hi & S).
      pose proof (D _ _ H Hi) as F. cbn in F. apply same_lows in S. assert (same k k0 = true) by (apply same_lows; auto). congruence.
    + destruct (T2 k v H) as (P & E & N). split; [exact P|]. split; [exact E|].
      destruct (eq_val_dec (m1 k) (m2 k)) as [[Q _]|[Q _]]; [congruence|]. destruct (A1 k P Q) as (k0 & v0 & Hi & S).
      pose proof (D _ _ Hi H) as F. cbn in F. congruence.
  - intros k P N. destruct (eq_val_dec (m1 k) (m2 k)) as [[Q _]|[Q _]].
    + destruct (A2 k P ltac:(congruence)) as (k0 & v0 & Hi & S). exists k0, v0. split; [apply in_app_iff; right; exact Hi|exact S].
    + destruct (A1 k P Q) as (k0 & v0 & Hi & S). exists k0, v0. split; [apply in_app_iff; left; exact Hi|exact S].
  - rewrite map_app. apply NoDup_app_intro; auto. intros x H1 H2. apply in_map_iff in H1. destruct H1 as (x1 & E1 & H1). apply in_map_iff in H2. destruct H2 as (x2 & E2 & H2).
    pose proof (D _ _ H1 H2) as F. assert (same (fst x1) (fst x2) = true) by (apply same_lows; congruence). congruence.
Qed.
Lemma cv_at q c b b' : b q = b' q -> cv c b q = cv c b' q.
Proof. intros E. rewrite (cv_kind q c b b'). rewrite (cv_kind q c b b) at 1. rewrite E. reflexivity. Qed.

Definition like (c c' : ctree) : Prop := tkey c' = tkey c /\ (forall t, tval c = NewTree t -> c' = c) /\ (tval c = Blank -> tval c' = Blank) /\
  (forall q, Forall plain q -> kind c' q = kind c q /\ forall b, cv c' b q = cv c b q).
Lemma like_refl c : like c c.
Proof. repeat split; auto. Qed.
Lemma gencb_ok full v : forall rest c b, WF c -> MW b c -> low_inv b -> Forall plain rest -> b rest <> v ->
  exists c1 o, gencallback (Some c) rest full v = (Some c1, o) /\ like c c1 /\ WF c1 /\ MW (note b (rest, v)) c1 /\
    (o = [] /\ cv c (note b (rest, v)) rest = cv c b rest \/ o = [(full, cv c (note b (rest, v)) rest)] /\ cv c b rest <> cv c (note b (rest, v)) rest).
Proof.
  induction rest as [|s r IH]; intros [k0 m ch] b W M L P D; pose proof (MW_inv _ _ M) as (A & Bl & Fn & C); cbn [tval tch] in A, Bl, Fn, C; pose proof (WF_inv _ W) as (Pch & Nch & Wch); cbn [tch] in Pch, Nch, Wch.
  - assert (Kids : Forall (fun d => MW (sub (note b ([], v)) (tkey d)) d) ch) by exact C.
    destruct m as [w|t|w|]; cbn [gencallback].
    + eexists _, _. split; [reflexivity|]. split; [apply like_refl|]. split; [exact W|]. split; [apply MW_parts; [exact I|discriminate|discriminate|exact Kids]|]. left. auto.
    + eexists _, _. split; [reflexivity|]. split; [apply like_refl|]. split; [exact W|]. split; [|left; auto]. constructor; auto; discriminate.
    + pose proof (Fn w eq_refl) as Ew. destruct (w && bang v) eqn:Ewv.
      * apply andb_true_iff in Ewv. destruct Ewv as [Ew1 Ev]. eexists _, _. split; [reflexivity|]. split; [apply like_refl|]. split; [exact W|]. split.
        { apply MW_parts; [exact I|discriminate| |exact Kids]. intros w0 E0. injection E0 as <-. unfold note. cbn. congruence. }
        left. split; [reflexivity|]. cbn [cv tval]. unfold note. cbn. rewrite Ew in Ew1. destruct (b []) as [[|]|], v as [[|]|]; try discriminate; reflexivity.
      * eexists _, _. split; [reflexivity|]. split; [|split; [eapply WF_mode, W|split]].
        { split; [reflexivity|]. split; [discriminate|]. split; [discriminate|]. intros [|s r] Pq; split; reflexivity. }
        { apply MW_parts; [exact I|discriminate| |exact Kids]. intros w0 E0. injection E0 as <-. unfold note. cbn. reflexivity. }
        right. cbn [cv tval]. unfold note. cbn. split; [destruct v; reflexivity|].
        rewrite Ew in Ewv. destruct (b []) as [[|]|], v as [[|]|]; try discriminate; congruence.
    + eexists _, _. split; [reflexivity|]. split; [apply like_refl|]. split; [exact W|]. split; [apply MW_parts; [exact I|exact Bl|discriminate|exact Kids]|]. right. cbn [cv tval]. unfold note. cbn. auto.
  - pose proof (Forall_inv P) as Ps. pose proof (Forall_inv_tail P) as Pr.
    destruct (match m with NewTree _ => true | _ => false end) eqn:Em.
    { destruct m as [|t| |]; try discriminate. eexists _, _. split; [reflexivity|]. split; [apply like_refl|]. split; [exact W|]. split; [|left; split; reflexivity].
      destruct (A t eq_refl) as [-> Wt]. constructor; try discriminate; [intros t0 E0; injection E0 as <-; auto|constructor]. }
    assert (Nt : notree m) by (destruct m; [exact I|discriminate|exact I|exact I]).
    assert (Ng : forall d : ctree, plain (tkey d) -> teq s (tkey d) = false -> forall q, sub (note b (s :: r, v)) (tkey d) q = sub b (tkey d) q).
    { intros d Pd T q. unfold sub, note. cbn [fst snd]. rewrite same_cons, T. reflexivity. }
    assert (Ns : forall s', plain s' -> teq s s' = true -> forall q, Forall plain q -> sub (note b (s :: r, v)) s' q = note (sub b s') (r, v) q).
    { intros s' Ps' T q Pq. unfold sub, note. cbn [fst snd]. rewrite same_cons, T. reflexivity. }
    assert (Eg : gencallback (Some (Node k0 m ch)) (s :: r) full v = match child ch s with None => (Some (Node k0 m ch), [(full, v)])
      | Some d => let (d', n) := gencallback (Some d) r full v in (match d' with Some d' => Some (Node k0 m (with_child ch s (Some d'))) | None => Some (Node k0 m ch) end, n) end).
    { cbn [gencallback]. rewrite isempty_plain by exact Ps. destruct m; try reflexivity. elim Nt. }
    rewrite Eg. clear Eg. destruct (child ch s) as [d|] eqn:Ed.
    + destruct (child_key (Node k0 m ch) d s W Ps Ed) as (Pd & Wd & Td). pose proof (child_Forall _ _ _ _ C Ed) as Md.
      assert (Ms : MW (sub b s) d) by (apply (MW_ext d (sub b (tkey d))); auto; apply sub_same; auto).
      destruct (IH d (sub b s) Wd Ms (sub_low b s Ps L) Pr D) as (d1 & o & Eg & (Lk & Lt & Lb & Lq) & Wd1 & Md1 & Ho). rewrite Eg.
      assert (Cc : forall s', plain s' -> child (with_child ch s (Some d1)) s' = if teq s s' then Some d1 else child ch s').
      { intros s' Ps'. apply (child_replace (Node k0 m ch) s d d1 s'); auto using plain_nulf. }
      eexists _, _. split; [reflexivity|]. split; [|split; [eapply WF_with_child; eauto|split]].
      * split; [reflexivity|]. split; [intros t E0; cbn [tval] in E0; subst m; elim Nt|]. split; [auto|]. intros [|s' r'] Pq; [destruct m; split; reflexivity|].
        pose proof (Forall_inv Pq) as Ps'. pose proof (Forall_inv_tail Pq) as Pr'. split.
        -- rewrite !kind_cons, Cc by auto. destruct (teq s s') eqn:T; [|reflexivity]. pose proof (child_same (Node k0 m ch) s s' W Ps Ps' T) as Cs. cbn [tch] in Cs. rewrite Cs, Ed. apply Lq, Pr'.
        -- intros b0. rewrite !cv_cons, Cc by auto. destruct (teq s s') eqn:T; [|reflexivity]. pose proof (child_same (Node k0 m ch) s s' W Ps Ps' T) as Cs. cbn [tch] in Cs. rewrite Cs, Ed. apply Lq, Pr'.
      * apply MW_parts; [exact Nt| | |].
        -- intros Eb. apply Forall_with_child; [exact (Bl Eb)|]. destruct (child_Forall _ _ _ _ (Bl Eb) Ed) as [Db|Db]; [left; auto|right]. rewrite (Lt _ Db). exact Db.
        -- intros w Ew. unfold note. cbn. auto.
        -- apply Forall_forall. intros d2 Hd2.
           assert (In d2 ch /\ teq s (tkey d2) = false \/ d2 = d1) as [[Hin T]| ->].
           { destruct (child_split _ _ _ Ed) as (l1 & l2 & -> & _ & Wi & _). rewrite Wi in Hd2. apply in_app_iff in Hd2. destruct Hd2 as [Hd2|[<-|Hd2]]; [left|right; reflexivity|left];
             (split; [apply in_app_iff; cbn; tauto|]); destruct (teq s (tkey d2)) eqn:T; auto; exfalso; apply teq_spec in T; apply teq_spec in Td; rewrite map_app in Nch; cbn [map] in Nch;
             apply NoDup_remove_2 in Nch; apply Nch; apply in_app_iff; [left|right]; rewrite Td; rewrite T; apply (in_map (fun x => low (tkey x))); exact Hd2. }
           ++ rewrite Forall_forall in C, Pch, Wch. apply (MW_ext d2 (sub b (tkey d2))); auto. intros q Pq. symmetry. apply Ng; auto.
           ++ apply (MW_ext d1 (note (sub b s) (r, v))); auto. intros q Pq. rewrite Lk. rewrite Ns by (auto; rewrite teq_sym; exact Td). unfold note. cbn [fst snd]. destruct (same r q); [reflexivity|].
              apply (sub_same b s (tkey d)); auto. rewrite teq_sym. exact Td.
      * rewrite !cv_cons, Ed by exact Nt.
        assert (X : cv d (fun q => note b (s :: r, v) (s :: q)) r = cv d (note (sub b s) (r, v)) r) by (apply cv_ext; [exact Pr|intros q Pq; apply (Ns s Ps (teq_refl s) q Pq)]).
        rewrite X. exact Ho.
    + eexists _, _. split; [reflexivity|]. split; [apply like_refl|]. split; [exact W|]. split.
      * apply MW_parts; [exact Nt|exact Bl|intros w Ew; unfold note; cbn; auto|]. apply Forall_forall. intros d2 Hd2. rewrite Forall_forall in C, Pch, Wch.
        apply (MW_ext d2 (sub b (tkey d2))); auto. intros q Pq. symmetry. apply Ng; auto. destruct (teq s (tkey d2)) eqn:T; [|reflexivity]. exfalso.
        pose proof (child_self (Node k0 m ch) d2 W Hd2) as Cs. pose proof (child_same (Node k0 m ch) s (tkey d2) W Ps (Pch d2 Hd2) T) as Cs2. cbn [tch] in Cs, Cs2. congruence.
      * right. rewrite !cv_cons, Ed by exact Nt. assert (X : note b (s :: r, v) (s :: r) = v) by (unfold note; cbn [fst snd]; rewrite same_refl; reflexivity). rewrite X. auto.
Qed.
