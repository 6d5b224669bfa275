From Coq Require Import Permutation.
From Verif Require Import Base BaseFacts Ctype KeyModel KeySpec KeyProofs TempModel TempSpec TreeProofs TempProofs TxnModel.
Local Open Scope nat_scope.

(** ** What a tree of changes shows over some contents *)
Fixpoint cv (c : ctree) (b : contents) (k : key) : option bytes :=
  match tval c with
  | NewTree t => lko t k
  | m =>
      match k with
      | [] => match m with NewValue v => Some v | NewNode _ => Some (match b [] with Some w => w | None => [] end) | _ => b [] end
      | s :: r => match child (tch c) s with Some d => cv d (fun q => b (s :: q)) r | None => b (s :: r) end
      end
  end.
Definition cvo (c : option ctree) (b : contents) : contents := match c with Some c => cv c b | None => b end.

Definition low_inv (b : contents) : Prop := forall k k', Forall plain k -> Forall plain k' -> same k k' = true -> b k = b k'.
Definition sub (b : contents) (s : bytes) : contents := fun q => b (s :: q).

Lemma sub_low b s : plain s -> low_inv b -> low_inv (sub b s).
Proof. intros Ps H k k' P P' E. apply H; [constructor; auto|constructor; auto|]. rewrite same_cons, teq_refl. exact E. Qed.
Lemma sub_same b s s' : plain s -> plain s' -> low_inv b -> teq s s' = true -> same_contents (sub b s) (sub b s').
Proof. intros Ps Ps' H E k P. apply H; [constructor; auto|constructor; auto|]. rewrite same_cons, E, same_refl. reflexivity. Qed.

(** ** Well-formed trees of changes over contents [b] *)
Definition dead (m : mode) : Prop := m = Blank \/ m = NewTree None.
Inductive MW : contents -> ctree -> Prop :=
| MW_node b k m ch :
    (forall t, m = NewTree t -> ch = [] /\ WFo t) ->
    (m = Blank -> Forall (fun d => dead (tval d)) ch) ->
    (forall w, m = NewNode w -> w = bang (b [])) ->
    Forall (fun d => MW (sub b (tkey d)) d) ch ->
    MW b (Node k m ch).
Lemma MW_inv b c : MW b c -> (forall t, tval c = NewTree t -> tch c = [] /\ WFo t) /\ (tval c = Blank -> Forall (fun d => dead (tval d)) (tch c)) /\
  (forall w, tval c = NewNode w -> w = bang (b [])) /\ Forall (fun d => MW (sub b (tkey d)) d) (tch c).
Proof. intros H. inversion H; subst. cbn. auto. Qed.

Lemma MW_ext : forall c b b', same_contents b b' -> WF c -> MW b c -> MW b' c.
Proof.
  induction c as [k m ch IH] using tree_ind2. intros b b' E W H. apply MW_inv in H. cbn [tval tch] in H. destruct H as (A & Bl & F & C).
  pose proof (WF_inv _ W) as (P & _ & Wc). cbn [tch] in *.
  constructor; auto.
  - intros w Hw. rewrite <- (E [] ltac:(constructor)). auto.
  - rewrite Forall_forall in *. intros d Hd. apply (IH d Hd (sub b (tkey d))); auto. intros q Pq. apply E. constructor; auto.
Qed.

Lemma cv_ext : forall k c b b', Forall plain k -> same_contents b b' -> cv c b k = cv c b' k.
Proof.
  induction k as [|s r IH]; intros [k0 m ch] b b' P E; cbn [cv tval tch].
  - destruct m; try reflexivity; rewrite (E [] P); reflexivity.
  - pose proof (Forall_inv P) as Ps. pose proof (Forall_inv_tail P) as Pr.
    assert (G : (match child ch s with Some d => cv d (fun q => b (s :: q)) r | None => b (s :: r) end) = match child ch s with Some d => cv d (fun q => b' (s :: q)) r | None => b' (s :: r) end).
    { destruct (child ch s) as [d|]; [|apply E; exact P]. apply IH; [exact Pr|]. intros q Pq. apply E. constructor; auto. }
    destruct m; try exact G. reflexivity.
Qed.
Lemma cv_low : forall k k' c b, WF c -> MW b c -> low_inv b -> Forall plain k -> Forall plain k' -> same k k' = true -> cv c b k = cv c b k'.
Proof.
  induction k as [|s r IH]; intros [|s' r'] c b W M L P P' E; try reflexivity; try discriminate.
  rewrite same_cons in E. apply andb_true_iff in E. destruct E as [E1 E2].
  pose proof (Forall_inv P) as Ps. pose proof (Forall_inv_tail P) as Pr. pose proof (Forall_inv P') as Ps'. pose proof (Forall_inv_tail P') as Pr'.
  pose proof (child_same c s s' W Ps Ps' E1) as Cs. pose proof (MW_inv _ _ M) as (A & _ & _ & C).
  destruct c as [k0 m ch]. cbn [cv tval tch] in *.
  assert (G : (match child ch s with Some d => cv d (fun q => b (s :: q)) r | None => b (s :: r) end) = match child ch s' with Some d => cv d (fun q => b (s' :: q)) r' | None => b (s' :: r') end).
  { rewrite Cs. destruct (child ch s) as [d|] eqn:Ed.
    - pose proof (child_plain (Node k0 m ch) s d W Ed) as [Pd Wd]. pose proof (child_Forall _ _ _ _ C Ed) as Md.
      pose proof Ed as El. apply child_in in El; [|apply (WF_inv _ W)..|auto using plain_nulf]. destruct El as [_ El].
      assert (T1 : teq (tkey d) s = true) by (apply teq_spec; exact El).
      assert (T2 : teq (tkey d) s' = true) by (apply teq_spec in E1; apply teq_spec; congruence).
      rewrite (cv_ext r d _ (sub b (tkey d))) by (auto; intros q Pq; symmetry; apply (sub_same b (tkey d) s); auto).
      rewrite (cv_ext r' d _ (sub b (tkey d))) by (auto; intros q Pq; symmetry; apply (sub_same b (tkey d) s'); auto).
      apply IH; auto. apply sub_low; auto.
    - apply L; auto. rewrite same_cons, E1. exact E2. }
  destruct m; try exact G. destruct (A t eq_refl) as [_ Wt]. destruct t as [t|]; [|reflexivity]. cbn [lko]. apply lk_low; auto. rewrite same_cons, E1. exact E2.
Qed.

Lemma child_key {V} (c d : tree V) s : WF c -> plain s -> child (tch c) s = Some d -> plain (tkey d) /\ WF d /\ teq (tkey d) s = true.
Proof.
  intros W Ps Ed. pose proof (child_plain c s d W Ed) as [Pd Wd]. pose proof (WF_inv _ W) as (P & N & _).
  apply child_in in Ed; auto using plain_nulf. split; [exact Pd|]. split; [exact Wd|]. apply teq_spec. apply Ed.
Qed.

(** ** The view after a replacement or addition of a child *)
Definition notree (m : mode) : Prop := match m with NewTree _ => False | _ => True end.
Lemma cv_cons k0 m ch b s r : notree m -> cv (Node k0 m ch) b (s :: r) = match child ch s with Some d => cv d (fun q => b (s :: q)) r | None => b (s :: r) end.
Proof. destruct m; [reflexivity|intros []|reflexivity|reflexivity]. Qed.
Lemma cv_replace k0 m m' ch b s d d' s' r' : WF (Node k0 m ch) -> notree m -> notree m' -> plain s -> plain s' -> child ch s = Some d -> tkey d' = tkey d ->
  cv (Node k0 m' (with_child ch s (Some d'))) b (s' :: r') = if teq s s' then cv d' (fun q => b (s' :: q)) r' else cv (Node k0 m ch) b (s' :: r').
Proof.
  intros W Hm Hm' Ps Ps' Ec Tk. rewrite !cv_cons by assumption.
  pose proof (child_replace (Node k0 m ch) s d d' s' W (plain_nulf _ Ps) (plain_nulf _ Ps') Ec Tk) as Cr. cbn [tch] in Cr. rewrite Cr.
  destruct (teq s s'); reflexivity.
Qed.
Lemma cv_added k0 m m' ch b d' s' r' : WF (Node k0 m ch) -> notree m -> notree m' -> plain (tkey d') -> plain s' -> child ch (tkey d') = None ->
  cv (Node k0 m' (ch ++ [d'])) b (s' :: r') = if teq (tkey d') s' then cv d' (fun q => b (s' :: q)) r' else cv (Node k0 m ch) b (s' :: r').
Proof.
  intros W Hm Hm' Pd Ps' Ec. rewrite !cv_cons by assumption. pose proof (WF_inv _ W) as (P & _). rewrite child_added by (auto using plain_nulf).
  destruct (teq (tkey d') s'); reflexivity.
Qed.
Lemma WF_mode {V} k (v v' : V) ch : WF (Node k v ch) -> WF (Node k v' ch).
Proof. intros W. inversion W; constructor; auto. Qed.
Lemma WF_added {V} k (v : V) ch (d : tree V) : WF (Node k v ch) -> plain (tkey d) -> WF d -> child ch (tkey d) = None -> WF (Node k v (ch ++ [d])).
Proof.
  intros W Pd Wd Ec. apply WF_inv in W. cbn [tch] in W. destruct W as (P & N & F). constructor.
  - apply Forall_app. auto.
  - rewrite map_app. cbn [map]. apply NoDup_Add with (a := low (tkey d)) (l := map (fun c => low (tkey c)) ch).
    + rewrite <- (app_nil_r (map _ ch)) at 1. apply Add_app.
    + split; [exact N|]. apply low_ne_child; auto using plain_nulf.
  - apply Forall_app. auto.
Qed.

(** ** The base below a key *)
Definition below (g : gen) (p : key) : contents := fun q => has g (p ++ q).
Lemma below_sub g p s : same_contents (below g (p ++ [s])) (sub (below g p) s).
Proof. intros q _. unfold below, sub. rewrite <- app_assoc. reflexivity. Qed.
Lemma below_low g p : WFo (root g) -> Forall plain p -> low_inv (below g p).
Proof.
  intros W Pp k k' P P' E. unfold below. apply has_low; auto; try (apply Forall_app; auto). apply same_lows. rewrite !lows_app. apply same_lows in E. congruence.
Qed.
Lemma tget_below g p : Forall plain p -> tget g p = below g p [].
Proof. intros P. unfold below. rewrite app_nil_r. rewrite tget_has by (left; exact P). destruct (plain_slashed p P) as [-> _]. reflexivity. Qed.
Lemma base_node_ok g p : WFo (root g) -> Forall plain p ->
  match base_node g p with Some n => WF n /\ same_contents (below g p) (lk n) | None => same_contents (below g p) nothing end.
Proof.
  intros W P. unfold base_node, below, has. destruct (root g) as [t|]; [|intros q _; reflexivity].
  pose proof (find_lk t p (or_introl (or_introl P))) as F. destruct (plain_slashed p P) as [_ Hn]. rewrite Hn in F.
  destruct (find t p) as [n|].
  - destruct F as (F0 & Wn & F). split; [apply Wn, W|]. intros [|s r] _; [rewrite app_nil_r; exact F0|apply F].
  - destruct F as [F0 F]. intros [|s r] _; [rewrite app_nil_r; exact F0|apply F].
Qed.
Lemma below_closed g p s r : below g p (s :: r) <> None -> below g p [] <> None.
Proof.
  unfold below, has. destruct (root g) as [t|]; [|auto]. cbn [lko]. rewrite app_nil_r. change (s :: r) with ([] ++ s :: r). apply lk_prefix.
Qed.

(** ** get *)
Lemma cget_ok : forall rest g c p, WFo (root g) -> Forall plain p -> Forall plain rest -> cget g (Some c) p rest = cv c (below g p) rest.
Proof.
  induction rest as [|s r IH]; intros g [k0 m ch] p W Pp P; cbn [cget cv tval tch].
  - destruct m as [v|t|w|]; [reflexivity| |rewrite tget_below by exact Pp; destruct (below g p []) as [[|x w0]|]; reflexivity|apply tget_below; exact Pp].
    destruct t as [t|]; reflexivity.
  - pose proof (Forall_inv P) as Ps. pose proof (Forall_inv_tail P) as Pr.
    assert (Pps : Forall plain (p ++ [s])) by (apply Forall_app; auto).
    assert (G : cget g (findchild (Node k0 m ch) s) (p ++ [s]) r = match child ch s with Some d => cv d (fun q => below g p (s :: q)) r | None => below g p (s :: r) end).
    { unfold findchild. rewrite isempty_plain by exact Ps. cbn [tch]. destruct (child ch s) as [d|].
      - rewrite IH by auto. apply cv_ext; [exact Pr|apply below_sub].
      - transitivity (tget g ((p ++ [s]) ++ r)); [destruct r; reflexivity|].
        rewrite <- app_assoc. cbn [app]. rewrite tget_below by (apply Forall_app; auto). unfold below. rewrite app_nil_r. reflexivity. }
    destruct m as [v|t|w|]; try exact G.
    destruct t as [t|]; [|reflexivity]. cbn [lko]. pose proof (find_lk t (s :: r) (or_introl (or_introl P))) as F. destruct (plain_slashed (s :: r) P) as [_ Hn]. rewrite Hn in F.
    destruct (find t (s :: r)) as [n|]; destruct F as [F _]; rewrite F; reflexivity.
Qed.
Lemma cget_none g p k : Forall plain (p ++ k) -> cget g None p k = below g p k.
Proof.
  intros P. assert (H : cget g None p k = tget g (p ++ k)) by (destruct k; reflexivity). rewrite H, tget_below by exact P. unfold below. rewrite app_nil_r. reflexivity.
Qed.
Definition view (t : txn) : contents := cvo (chg t) (has (base t)).
Lemma xget_ok t k : WFo (root (base t)) -> Forall plain k -> xget t k = view t k.
Proof.
  intros W P. unfold xget, view, cvo. destruct (chg t) as [c|].
  - rewrite cget_ok by auto. reflexivity.
  - rewrite cget_none by exact P. reflexivity.
Qed.

(** ** Notifications *)
Lemma tells_step m m' n1 n s0 : plain s0 ->
  (forall s r, plain s -> Forall plain r -> teq s0 s = true -> m (s :: r) = m (s0 :: r) /\ m' (s :: r) = m' (s0 :: r)) ->
  (forall s r, plain s -> Forall plain r -> teq s0 s = false -> m (s :: r) = m' (s :: r)) ->
  (m [] = m' [] /\ n1 = [] \/ m [] <> m' [] /\ n1 = [([], m' [])]) ->
  tells (sub m s0) (sub m' s0) n -> tells m m' (n1 ++ pre [s0] n).
Proof.
  intros P0 Es Eo [[E ->]|[N ->]] T.
  - cbn [app]. apply tells_below; assumption.
  - set (m2 := fun k => match k with [] => m' [] | _ => m k end).
    assert (T2 : tells m2 m' (pre [s0] n)) by (apply tells_below; auto).
    destruct T2 as [T2 A2 O2]. split.
    + intros k v [E|H].
      * injection E as <- <-. auto.
      * destruct (T2 k v H) as (Pk & E1 & E2). split; [exact Pk|]. split; [exact E1|]. unfold pre in H. apply in_map_iff in H. destruct H as (x & Ex & _).
        injection Ex as Ex _. cbn [app] in Ex. subst k. exact E2.
    + intros [|s r] Pk D; [exists [], (m' []); split; [left; reflexivity|reflexivity]|].
      destruct (A2 (s :: r) Pk D) as (k0 & v & Hi & Sm). exists k0, v. split; [right; exact Hi|exact Sm].
    + cbn [app map fst]. constructor; [|exact O2]. unfold pre. rewrite map_map. intros H. apply in_map_iff in H. destruct H as (x & Ex & _). discriminate.
Qed.
Lemma NoDup_prefix k n : NoDup (map (fun x : notif => lows (fst x)) n) -> NoDup (map (fun x => lows (fst x)) (pre k n)).
Proof.
  intros O. unfold pre. rewrite map_map. cbn [fst]. rewrite (map_ext _ (fun x => lows k ++ lows (fst x))) by (intros; apply lows_app).
  rewrite <- (map_map (fun x : notif => lows (fst x)) (app (lows k))). apply FinFun.Injective_map_NoDup; [|exact O]. intros x y E. eapply app_inv_head, E.
Qed.
Lemma under_split : forall k q, under k q = true -> exists a r, q = a ++ r /\ same k a = true.
Proof.
  induction k as [|s k IH]; intros q H.
  - exists [], q. auto.
  - destruct q as [|s' q]; [discriminate|]. cbn in H. apply andb_true_iff in H. destruct H as [H1 H2]. destruct (IH q H2) as (a & r & -> & Sa).
    exists (s' :: a), r. split; [reflexivity|]. rewrite same_cons, H1. exact Sa.
Qed.
Lemma under_app k r : under k (k ++ r) = true.
Proof. apply under_lows. exists (lows r). apply lows_app. Qed.
Lemma tells_at m m' k n : Forall plain k -> low_inv m -> same_contents m' (set_spec m k None) -> tells (fun q => m (k ++ q)) nothing n -> tells m m' (pre k n).
Proof.
  intros Pk L E [T A O]. split.
  - intros q v H. unfold pre in H. apply in_map_iff in H. destruct H as ([r w] & Ex & H). cbn in Ex. injection Ex as <- <-.
    destruct (T r w H) as (Pr & <- & N). assert (Pkr : Forall plain (k ++ r)) by (apply Forall_app; auto). split; [exact Pkr|].
    rewrite E by exact Pkr. unfold set_spec. rewrite under_app. auto.
  - intros q Pq D. rewrite E in D by exact Pq. unfold set_spec in D. destruct (under k q) eqn:U; [|congruence].
    destruct (under_split k q U) as (a & r & -> & Sa). rewrite Forall_app in Pq. destruct Pq as [Pa Pr].
    assert (Sm : same (a ++ r) (k ++ r) = true) by (apply same_lows; rewrite !lows_app; apply same_lows in Sa; congruence).
    rewrite (L (a ++ r) (k ++ r)) in D by (try (apply Forall_app); auto). destruct (A r Pr D) as (r0 & v & Hi & S0). exists (k ++ r0), v. split.
    + unfold pre. apply in_map_iff. exists (r0, v). auto.
    + apply same_lows. rewrite !lows_app. apply same_lows in Sa, S0. congruence.
  - apply NoDup_prefix, O.
Qed.
Lemma flat_prefix p (L : list (bytes * list notif)) : pre p (flat_map (fun x => pre [fst x] (snd x)) L) = flat_map (fun x => pre (p ++ [fst x]) (snd x)) L.
Proof. induction L as [|x L IH]; [reflexivity|]. cbn [flat_map]. rewrite pre_app, pre_pre, IH. reflexivity. Qed.
Lemma collect {X} (name : X -> bytes) (f : X -> list notif) p (Q : X -> list notif -> Prop) : forall l : list X,
  (forall x, In x l -> exists n, f x = pre (p ++ [name x]) n /\ Q x n) ->
  exists L, map fst L = map name l /\ flat_map f l = pre p (flat_map (fun x => pre [fst x] (snd x)) L) /\
    forall s n, In (s, n) L -> exists x, In x l /\ s = name x /\ Q x n.
Proof.
  induction l as [|x l IH]; intros H.
  - exists []. split; [reflexivity|]. split; [reflexivity|]. intros s n [].
  - destruct (H x (or_introl eq_refl)) as (n & En & Qn). destruct IH as (L & EL & FL & HL); [intros y Hy; apply H; right; exact Hy|].
    exists ((name x, n) :: L). cbn [map fst flat_map snd]. split; [congruence|]. split.
    + rewrite pre_app, pre_pre, En, FL. reflexivity.
    + intros s n' [E|Hi]; [injection E as <- <-; exists x; split; [left; reflexivity|auto]|]. destruct (HL s n' Hi) as (y & Hy & E1 & E2). exists y. split; [right; exact Hy|auto].
Qed.
Lemma tells_kids m (L : list (bytes * list notif)) : low_inv m -> Forall (fun x => plain (fst x)) L -> NoDup (map low (map fst L)) ->
  (forall s n, In (s, n) L -> tells (sub m s) nothing n) ->
  (forall s r, plain s -> Forall plain r -> m (s :: r) <> None -> exists s' n, In (s', n) L /\ teq s' s = true) ->
  m [] <> None -> tells m nothing (flat_map (fun x => pre [fst x] (snd x)) L ++ [([], None)]).
Proof.
  intros Lw P N T C M0. split.
  - intros k v H. apply in_app_iff in H. destruct H as [H|[E|[]]].
    + apply in_flat_map in H. destruct H as ([s n] & Hs & H). unfold pre in H. apply in_map_iff in H. destruct H as ([q w] & E & H). cbn in E. injection E as <- <-.
      destruct (T s n Hs) as [T1 _ _]. destruct (T1 q w H) as (Pq & <- & Nq). rewrite Forall_forall in P. specialize (P _ Hs). split; [constructor; auto|]. auto.
    + injection E as <- <-. auto.
  - intros [|s r] Pk D; [exists [], None; split; [apply in_app_iff; right; left; reflexivity|reflexivity]|].
    pose proof (Forall_inv Pk) as Ps. pose proof (Forall_inv_tail Pk) as Pr. destruct (C s r Ps Pr D) as (s' & n & Hi & E).
    destruct (T s' n Hi) as [_ A _]. rewrite Forall_forall in P. pose proof (P _ Hi) as Ps'. cbn in Ps'.
    rewrite (Lw (s :: r) (s' :: r)) in D; [|exact Pk|constructor; auto|rewrite same_cons, teq_sym, E, same_refl; reflexivity].
    destruct (A r Pr D) as (q & w & Hq & Sq). exists (s' :: q), w. split.
    + apply in_app_iff. left. apply in_flat_map. exists (s', n). split; [exact Hi|]. unfold pre. apply in_map_iff. exists (q, w). auto.
    + rewrite same_cons, E. exact Sq.
  - rewrite map_app. apply NoDup_app_intro.
    + clear C M0. induction L as [|[s n] L IH]; [constructor|]. cbn [flat_map fst snd]. rewrite map_app. cbn [map fst] in N. inversion N as [|? ? N1 N2]; subst. apply NoDup_app_intro.
      * apply NoDup_prefix. destruct (T s n (or_introl eq_refl)). assumption.
      * apply IH; auto; [inversion P; assumption|]. intros s' n' H. apply T. right. exact H.
      * intros x H1 H2. apply N1. unfold pre in H1. rewrite map_map in H1. apply in_map_iff in H1. destruct H1 as (y1 & E1 & _). apply in_map_iff in H2. destruct H2 as (y2 & E2 & H2).
        apply in_flat_map in H2. destruct H2 as ([s2 n2] & Hs2 & H2). unfold pre in H2. apply in_map_iff in H2. destruct H2 as (y3 & <- & _).
        cbn in E1, E2. rewrite <- E1 in E2. injection E2 as E2 _. rewrite <- E2. apply in_map_iff. exists s2. split; [reflexivity|]. apply in_map_iff. exists (s2, n2). auto.
    + cbn. repeat constructor. intros [].
    + cbn [map fst]. intros x H1 [<-|[]]. apply in_map_iff in H1. destruct H1 as (y & E & H). apply in_flat_map in H. destruct H as ([s n] & _ & H).
      unfold pre in H. apply in_map_iff in H. destruct H as (z & <- & _). discriminate.
Qed.

(** ** Replacement trees *)
Lemma create_value_ins : forall rest p k0 v, create_value p k0 rest v = fst (ins p None k0 rest v).
Proof.
  induction rest as [|s r IH]; intros p k0 v; [reflexivity|]. cbn [create_value ins]. rewrite IH. destruct (ins (p ++ [s]) None s r v) as [[t n] d]. reflexivity.
Qed.
Lemma create_value_ok rest p k0 v : Forall plain rest -> let (t, n) := create_value p k0 rest v in
  WF t /\ tkey t = k0 /\ same_contents (lk t) (set_spec nothing rest (Some v)) /\ exists n', n = pre p n' /\ tells nothing (lk t) n'.
Proof.
  intros P. rewrite create_value_ins, ins_full. pose proof (ins_WF v rest [] None k0 I P) as W. pose proof (ins_lk v rest [] None k0 I P) as L.
  pose proof (ins_tells v rest None k0 I P) as T. pose proof (ins_tkey [] None k0 rest v) as K. destruct (ins [] None k0 rest v) as [[t n] d]. cbn [fst snd] in *.
  split; [exact W|]. split; [exact K|]. split; [exact L|]. exists n. split; [reflexivity|exact T].
Qed.
Lemma set_value_ins : forall rest t p q v, Forall plain rest -> fst (set_value_at t p rest v) = fst (fst (ins q (Some t) [] rest v)).
Proof.
  induction rest as [|s r IH]; intros [k0 v0 ch] p q v P; cbn [set_value_at ins tval tkey tch].
  - destruct (list_eq_dec ascii_dec v v0); reflexivity.
  - pose proof (Forall_inv P) as Ps. pose proof (Forall_inv_tail P) as Pr. rewrite isempty_plain by exact Ps. destruct (child ch s) as [c|].
    + specialize (IH c (p ++ [s]) (q ++ [tkey c]) v Pr). destruct (set_value_at c (p ++ [s]) r v) as [c' n].
      assert (E : forall k k', fst (fst (ins (q ++ [tkey c]) (Some c) k r v)) = fst (fst (ins (q ++ [tkey c]) (Some c) k' r v))) by (intros; destruct r; reflexivity).
      rewrite (E [] s) in IH. destruct (ins (q ++ [tkey c]) (Some c) s r v) as [[c2 n2] d]. cbn [fst] in *. subst. reflexivity.
    + rewrite create_value_ins. rewrite (ins_full v r (p ++ [s])), (ins_full v r (q ++ [s])). destruct (ins [] None s r v) as [[c2 n2] d]. reflexivity.
Qed.
Lemma set_value_tells : forall rest t p v, WF t -> Forall plain rest -> exists n', snd (set_value_at t p rest v) = pre p n' /\
  tells (lk t) (lk (fst (set_value_at t p rest v))) n'.
Proof.
  induction rest as [|s r IH]; intros t p v W P.
  - cbn [set_value_at]. destruct (list_eq_dec ascii_dec v (tval t)) as [E|N]; cbn [fst snd].
    + exists []. split; [reflexivity|]. apply tells_nil. reflexivity.
    + exists [([], Some v)]. split; [cbn; rewrite app_nil_r; reflexivity|]. destruct t as [k0 v0 ch]. cbn [tval tkey tch] in *. split.
      * intros k' v' [E|[]]. injection E as <- <-. split; [constructor|]. split; [reflexivity|]. cbn. congruence.
      * intros [|s r] Pk H; [|elim H; reflexivity]. exists [], (Some v). split; [left; reflexivity|reflexivity].
      * repeat constructor. intros [].
  - pose proof (Forall_inv P) as Ps. pose proof (Forall_inv_tail P) as Pr. cbn [set_value_at]. rewrite isempty_plain by exact Ps.
    destruct t as [k0 v0 ch]. cbn [tkey tval tch]. destruct (child ch s) as [c|] eqn:Ec.
    + destruct (child_key (Node k0 v0 ch) c s W Ps Ec) as (Pc & Wc & Tc).
      destruct (IH c (p ++ [s]) v Wc Pr) as (n' & En & T). pose proof (set_value_ins r c (p ++ [s]) [] v Pr) as Ei.
      pose proof (ins_tkey [] (Some c) [] r v) as Tk. rewrite <- Ei in Tk. destruct (set_value_at c (p ++ [s]) r v) as [c' n]. cbn [fst snd] in *.
      exists (pre [s] n'). split; [rewrite pre_pre; exact En|]. change (pre [s] n') with ([] ++ pre [s] n').
      assert (C : forall s', plain s' -> child (with_child ch s (Some c')) s' = if teq s s' then Some c' else child ch s').
      { intros s' Ps'. apply (child_replace (Node k0 v0 ch) s c c' s'); auto using plain_nulf. }
      apply tells_step.
      * exact Ps.
      * intros s' r' Ps' Pr' E. cbn [lk tch]. rewrite !C by assumption. rewrite E, teq_refl.
        pose proof (child_same (Node k0 v0 ch) s s' W Ps Ps' E) as C1. cbn [tch] in C1. rewrite C1. auto.
      * intros s' r' Ps' Pr' E. cbn [lk tch]. rewrite C, E by assumption. reflexivity.
      * left. auto.
      * eapply tells_ext; [| |exact T]; intros q Pq; unfold sub; cbn [lk tch]; [rewrite Ec; reflexivity|rewrite C, teq_refl by assumption; reflexivity].
    + pose proof (create_value_ok r (p ++ [s]) s v Pr) as Cv. destruct (create_value (p ++ [s]) s r v) as [c' n]. destruct Cv as (Wc & Tk & Lc & n' & En & T).
      cbn [fst snd]. exists (pre [s] n'). split; [rewrite pre_pre; exact En|]. change (pre [s] n') with ([] ++ pre [s] n').
      pose proof (WF_inv _ W) as (Pch & _). cbn [tch] in Pch.
      assert (C : forall s', plain s' -> child (ch ++ [c']) s' = if teq s s' then Some c' else child ch s').
      { intros s' Ps'. rewrite <- Tk. apply child_added; rewrite ?Tk; auto using plain_nulf. }
      apply tells_step.
      * exact Ps.
      * intros s' r' Ps' Pr' E. cbn [lk tch]. rewrite !C by assumption. rewrite E, teq_refl.
        pose proof (child_same (Node k0 v0 ch) s s' W Ps Ps' E) as C1. cbn [tch] in C1. rewrite C1. auto.
      * intros s' r' Ps' Pr' E. cbn [lk tch]. rewrite C, E by assumption. reflexivity.
      * left. auto.
      * eapply tells_ext; [| |exact T]; intros q Pq; unfold sub; cbn [lk tch]; [rewrite Ec; reflexivity|rewrite C, teq_refl by assumption; reflexivity].
Qed.
Lemma lko_low t : WFo t -> low_inv (@lko bytes t).
Proof. intros W k k' P P' E. destruct t as [t|]; [|reflexivity]. apply lk_low; assumption. Qed.
Lemma set_value_ok t p rest v : WFo t -> Forall plain rest ->
  let (t', n) := set_value t p rest v in
  WFo t' /\ same_contents (lko t') (set_spec (lko t) rest v) /\ (t = None -> v = None -> t' = None) /\ exists n', n = pre p n' /\ tells (lko t) (lko t') n'.
Proof.
  intros W P. unfold set_value. destruct v as [v|].
  - destruct t as [t|].
    + destruct (set_value_tells rest t p v W P) as (n' & En & T). pose proof (set_value_ins rest t p [] v P) as Ei.
      pose proof (ins_WF v rest [] (Some t) [] W P) as W'. pose proof (ins_lk v rest [] (Some t) [] W P) as L. rewrite <- Ei in W', L.
      destruct (set_value_at t p rest v) as [t' n]. cbn [fst snd] in *. split; [exact W'|]. split; [exact L|]. split; [discriminate|]. exists n'. auto.
    + pose proof (create_value_ok rest p (last p []) v P) as C. destruct (create_value p (last p []) rest v) as [t n]. destruct C as (W' & _ & L & n' & En & T).
      split; [exact W'|]. split; [exact L|]. split; [discriminate|]. exists n'. auto.
  - destruct t as [t|].
    + assert (Ef : filter (fun s => negb (isempty (collapse [s]))) rest = rest).
      { clear - P. induction P as [|s r Ps Pr IH]; [reflexivity|]. cbn [filter]. rewrite isempty_plain by exact Ps. cbn [negb]. rewrite IH. reflexivity. }
      rewrite Ef. pose proof (find_lk t rest (or_introl (or_introl P))) as F. destruct (plain_slashed rest P) as [_ Hn]. rewrite Hn in F.
      pose proof (del_ok rest t W P) as D. destruct (find t rest) as [sb|].
      * destruct F as (F0 & Ws & F). specialize (Ws W). destruct (del [] t rest) as [[t' n0]|]; [|congruence].
        destruct D as (W' & _ & _ & L & _). split; [exact W'|]. split; [exact L|]. split; [discriminate|].
        exists (pre rest (visit [] sb)). split; [rewrite pre_pre; apply visit_full|].
        apply tells_at; [exact P|apply (lko_low (Some t)), W|exact L|]. eapply tells_ext; [|intros; reflexivity|apply visit_tells; exact Ws].
        intros [|s r] _; cbn [lko]; [rewrite app_nil_r, F0; reflexivity|symmetry; apply F].
      * destruct F as [F0 F]. split; [exact W|]. split; [|split; [discriminate|exists []; split; [reflexivity|apply tells_nil; reflexivity]]].
        intros q Pq. unfold set_spec. destruct (under rest q) eqn:U; [|reflexivity]. destruct (under_split rest q U) as (a & r & -> & Sa).
        rewrite Forall_app in Pq. destruct Pq as [Pa Pr]. cbn [lko]. rewrite (lk_low t (a ++ r) (rest ++ r)); auto; try (apply Forall_app; auto).
        -- destruct r as [|s r]; [rewrite app_nil_r; exact F0|apply F].
        -- apply same_lows. rewrite !lows_app. apply same_lows in Sa. congruence.
    + split; [exact I|]. split; [|split; [reflexivity|exists []; split; [reflexivity|apply tells_nil; reflexivity]]].
      intros q Pq. unfold set_spec. cbn. destruct (under rest q); reflexivity.
Qed.

(** ** Deletion *)
Lemma ds_ok g p : WFo (root g) -> Forall plain p -> below g p [] <> None -> exists n', deletion_simulator g p = pre p n' /\ tells (below g p) nothing n'.
Proof.
  intros W P N. unfold deletion_simulator. pose proof (base_node_ok g p W P) as H. destruct (base_node g p) as [t|]; [|elim N; apply H; constructor].
  destruct H as [Wt E]. exists (visit [] t). split; [apply visit_full|]. eapply tells_ext; [| |apply visit_tells, Wt]; [|intros; reflexivity].
  intros q Pq. symmetry. apply E, Pq.
Qed.
Lemma dead_le : forall r d b, Forall plain r -> MW b d -> dead (tval d) -> low_inv b -> WF d -> cv d b r <> None -> b r <> None.
Proof.
  induction r as [|s r IH]; intros [k0 m ch] b P M D L W H; pose proof (MW_inv _ _ M) as (_ & Bl & _ & C); cbn [tval tch] in *; destruct D as [-> | ->]; try (elim H; reflexivity).
  - exact H.
  - rewrite cv_cons in H by exact I. pose proof (Forall_inv P) as Ps. pose proof (Forall_inv_tail P) as Pr. destruct (child ch s) as [d|] eqn:Ed; [|exact H].
    destruct (child_key (Node k0 Blank ch) d s W Ps Ed) as (Pd & Wd & Td).
    apply (IH d (sub b s)); auto.
    + apply (MW_ext d (sub b (tkey d))); auto; [apply sub_same; auto|]. apply (child_Forall _ _ _ _ C Ed).
    + apply (child_Forall _ _ _ _ (Bl eq_refl) Ed).
    + apply sub_low; auto.
Qed.
Lemma child_map {V U} (f : tree V -> U) s : forall ch, child (map (fun d => Node (tkey d) (f d) []) ch) s = option_map (fun d => Node (tkey d) (f d) []) (child ch s).
Proof. induction ch as [|d ch IH]; [reflexivity|]. cbn [map child tkey]. destruct (same_seg (tkey d) s); [reflexivity|exact IH]. Qed.
Lemma flat_map_filter {X Y} (p : X -> bool) (f : X -> list Y) l : flat_map (fun x => if p x then f x else []) l = flat_map f (filter p l).
Proof. induction l as [|x l IH]; [reflexivity|]. cbn. destruct (p x); cbn; rewrite IH; reflexivity. Qed.
Lemma NoDup_map_filter {X Y} (h : X -> Y) p l : NoDup (map h l) -> NoDup (map h (filter p l)).
Proof.
  induction l as [|x l IH]; [auto|]. cbn. intros N. inversion N as [|? ? N1 N2]; subst. destruct (p x); [|auto]. cbn. constructor; [|auto].
  intros H. apply N1. apply in_map_iff in H. destruct H as (y & E & H). apply filter_In in H. apply in_map_iff. exists y. tauto.
Qed.
Definition hidden (ch : list ctree) (b : tree bytes) : bool :=
  match child ch (tkey b) with None => true | Some d => match tval d with Blank => true | _ => false end end.
Lemma child_self {V} (c d : tree V) : WF c -> In d (tch c) -> child (tch c) (tkey d) = Some d.
Proof. intros W H. pose proof (WF_inv _ W) as (P & N & _). pose proof P as P'. rewrite Forall_forall in P'. apply child_in; auto using plain_nulf. Qed.

Lemma ds2_ok : forall c g p, WFo (root g) -> Forall plain p -> WF c -> MW (below g p) c -> cv c (below g p) [] <> None ->
  exists n', deletion_simulator2 g p c = pre p n' /\ tells (cv c (below g p)) nothing n'.
Proof.
  induction c as [k0 m ch IH] using tree_ind2. intros g p Wg Pp W M Vis.
  destruct (match m with NewTree _ => true | _ => false end) eqn:Em.
  - destruct m as [|t| |]; try discriminate. destruct (MW_inv _ _ M) as (A & _). destruct (A t eq_refl) as [_ Wt].
    cbn [deletion_simulator2]. destruct t as [t|]; [|elim Vis; reflexivity]. exists (visit [] t). destruct t as [kt v cht]. split.
    + transitivity (visit p (Node kt v cht)); [reflexivity|apply visit_full].
    + eapply tells_ext; [| |apply visit_tells, Wt]; intros q Pq; [destruct q; reflexivity|reflexivity].
  - assert (Nt : notree m) by (destruct m; [exact I|discriminate|exact I|exact I]).
    pose proof (MW_inv _ _ M) as (_ & Bl & _ & Mc). cbn [tch] in Mc. pose proof (WF_inv _ W) as (Pch & Nch & Wch). cbn [tch] in Pch, Nch, Wch.
    set (n := match base_node g p with Some n => n | None => Node [] [] [] end).
    assert (Hn : WF n /\ base_children g p = tch n /\ forall s r, plain s -> Forall plain r -> below g p (s :: r) = match child (tch n) s with Some d => lk d r | None => None end).
    { pose proof (base_node_ok g p Wg Pp) as Hb. unfold base_children, n. destruct (base_node g p) as [t|].
      - destruct Hb as [Wt E]. split; [exact Wt|]. split; [reflexivity|]. intros s r Ps Pr. rewrite E by (constructor; auto). destruct t; reflexivity.
      - split; [repeat constructor|]. split; [reflexivity|]. intros s r Ps Pr. apply Hb. constructor; auto. }
    clearbody n. destruct Hn as (Wn & Bc & Bn). pose proof (WF_inv _ Wn) as (Pn & Nn & _).
    pose proof (below_low g p Wg Pp) as Lb.
    assert (Vch : forall d s, child ch s = Some d -> plain s -> same_contents (sub (cv (Node k0 m ch) (below g p)) s) (cv d (below g (p ++ [s])))).
    { intros d s Ed Ps q Pq. unfold sub. rewrite cv_cons, Ed by exact Nt. apply cv_ext; [exact Pq|]. intros q' Pq'. symmetry. apply (below_sub g p s q' Pq'). }
    assert (Ech : forall d, In d ch -> MW (below g (p ++ [tkey d])) d).
    { intros d Hd. rewrite Forall_forall in Mc, Wch. apply (MW_ext d (sub (below g p) (tkey d))); auto. intros q Pq. symmetry. apply below_sub, Pq. }
    destruct (collect (X := ctree) (@tkey mode) (fun d => deletion_simulator2 g (p ++ [tkey d]) d) p
      (fun d n' => tells (sub (cv (Node k0 m ch) (below g p)) (tkey d)) nothing n') (filter (fun d => live (tval d)) ch)) as (L1 & K1 & F1 & T1).
    { intros d Hd. apply filter_In in Hd. destruct Hd as [Hd Lv]. rewrite Forall_forall in IH, Pch, Wch.
      destruct (IH d Hd g (p ++ [tkey d])) as (n' & En & T); auto.
      - apply Forall_app; auto.
      - destruct d as [kd md chd]. cbn [cv tval]. cbn [tval] in Lv. destruct md as [|[t|]| |]; discriminate.
      - exists n'. split; [exact En|]. eapply tells_ext; [| |exact T]; [|intros; reflexivity]. intros q Pq. symmetry. apply Vch; auto.
        apply (child_self (Node k0 m ch)); auto. }
    destruct (collect (@tkey bytes) (fun b => match child ch (tkey b) with None => deletion_simulator g (p ++ [tkey b]) | Some d => deletion_simulator2 g (p ++ [tkey b]) d end) p
      (fun b n' => tells (sub (cv (Node k0 m ch) (below g p)) (tkey b)) nothing n') (filter (hidden ch) (tch n))) as (L2 & K2 & F2 & T2).
    { intros b Hb. apply filter_In in Hb. destruct Hb as [Hb Hid]. unfold hidden in Hid. pose proof Pn as Pn'. rewrite Forall_forall in Pn'. specialize (Pn' b Hb).
      assert (Ex : below g p [tkey b] <> None) by (rewrite Bn by auto; rewrite (child_self n b Wn Hb); destruct b; discriminate).
      assert (Ppb : Forall plain (p ++ [tkey b])) by (apply Forall_app; auto).
      assert (Ex' : below g (p ++ [tkey b]) [] <> None) by (rewrite below_sub by constructor; exact Ex).
      destruct (child ch (tkey b)) as [d|] eqn:Ed.
      - destruct (tval d) eqn:Ev; try discriminate. destruct (child_key (Node k0 m ch) d (tkey b) W Pn' Ed) as (Pd & Wd & Td).
        pose proof (child_Forall _ _ _ _ IH Ed) as IHd. destruct (IHd g (p ++ [tkey b])) as (n' & En & T); auto.
        + apply (MW_ext d (sub (below g p) (tkey d))); auto; [|apply (child_Forall _ _ _ _ Mc Ed)].
          intros q Pq. rewrite below_sub by exact Pq. apply (sub_same (below g p) (tkey d) (tkey b)); auto.
        + destruct d as [kd md chd]. cbn [tval] in Ev. subst md. exact Ex'.
        + exists n'. split; [exact En|]. eapply tells_ext; [| |exact T]; [|intros; reflexivity]. intros q Pq. symmetry. apply Vch; auto.
      - destruct (ds_ok g (p ++ [tkey b]) Wg Ppb Ex') as (n' & En & T). exists n'. split; [exact En|].
        eapply tells_ext; [| |exact T]; [|intros; reflexivity]. intros q Pq. unfold sub. rewrite cv_cons, Ed by exact Nt. apply below_sub, Pq. }
    exists (flat_map (fun x => pre [fst x] (snd x)) (L1 ++ L2) ++ [([], None)]). split.
    + rewrite flat_map_app. rewrite !pre_app, <- F1, <- F2, <- app_assoc. cbn [pre map app fst snd]. rewrite app_nil_r.
      transitivity (flat_map (fun d => if live (tval d) then deletion_simulator2 g (p ++ [tkey d]) d else []) ch ++
        flat_map (fun b => match child (map (fun d => Node (tkey d) (tval d, fun k => deletion_simulator2 g k d) []) ch) (tkey b) with
         | None => deletion_simulator g (p ++ [tkey b]) | Some (Node _ (Blank, f) _) => f (p ++ [tkey b]) | _ => [] end) (base_children g p) ++ [(p, None)]);
       [destruct m; try reflexivity; discriminate|].
      rewrite flat_map_filter. f_equal. f_equal. rewrite Bc. rewrite <- flat_map_filter. apply flat_map_ext. intros b. unfold hidden.
      rewrite (child_map (fun d => (tval d, fun k => deletion_simulator2 g k d))). destruct (child ch (tkey b)) as [d|]; cbn [option_map]; [|reflexivity]. destruct (tval d); reflexivity.
    + assert (I1 : forall s nn, In (s, nn) L1 -> exists d, In d ch /\ live (tval d) = true /\ s = tkey d).
      { intros s nn H. destruct (T1 s nn H) as (d & Hd & E & _). apply filter_In in Hd. exists d. tauto. }
      assert (I2 : forall s nn, In (s, nn) L2 -> exists b, In b (tch n) /\ hidden ch b = true /\ s = tkey b).
      { intros s nn H. destruct (T2 s nn H) as (d & Hd & E & _). apply filter_In in Hd. exists d. tauto. }
      rewrite Forall_forall in Pch, Pn. apply tells_kids.
      * intros k k' Pk Pk' E. apply cv_low; auto.
      * apply Forall_app. split; apply Forall_forall; intros [s nn] H; cbn [fst].
        -- destruct (I1 s nn H) as (d & Hd & _ & ->). auto.
        -- destruct (I2 s nn H) as (d & Hd & _ & ->). auto.
      * rewrite !map_app, K1, K2, !map_map. apply NoDup_app_intro; try (apply NoDup_map_filter; assumption).
        intros x H1 H2. apply in_map_iff in H1. destruct H1 as (d & <- & Hd). apply in_map_iff in H2. destruct H2 as (b & Eb & Hb).
        apply filter_In in Hd. apply filter_In in Hb. destruct Hd as [Hd Lv]. destruct Hb as [Hb Hid]. unfold hidden in Hid.
        pose proof (child_self (Node k0 m ch) d W Hd) as Cd. cbn [tch] in Cd.
        pose proof (child_same (Node k0 m ch) (tkey d) (tkey b) W (Pch d Hd) (Pn b Hb) ltac:(apply teq_spec; congruence)) as Cb. cbn [tch] in Cb.
        rewrite Cb, Cd in Hid. destruct (tval d); discriminate.
      * intros s nn H. apply in_app_iff in H. destruct H as [H|H].
        -- destruct (T1 s nn H) as (d & _ & -> & T). exact T.
        -- destruct (T2 s nn H) as (d & _ & -> & T). exact T.
      * intros s r Ps Pr H. rewrite cv_cons in H by exact Nt.
        assert (Base : below g p (s :: r) <> None -> hidden ch (Node s [] []) = true -> exists s' n0, In (s', n0) (L1 ++ L2) /\ teq s' s = true).
        { intros Hb Hid. rewrite Bn in Hb by auto. destruct (child (tch n) s) as [b|] eqn:Eb; [|elim Hb; reflexivity].
          destruct (child_key n b s Wn Ps Eb) as (Pb & _ & Tb). pose proof (child_In _ _ _ Eb) as Hin.
          assert (Hk : In (tkey b) (map fst L2)).
          { rewrite K2. apply in_map. apply filter_In. split; [exact Hin|]. unfold hidden in *. cbn [tkey] in Hid.
            pose proof (child_same (Node k0 m ch) (tkey b) s W Pb Ps Tb) as Cb. cbn [tch] in Cb. rewrite <- Cb. exact Hid. }
          apply in_map_iff in Hk. destruct Hk as ([s' n0] & E & Hk). cbn in E. subst s'. exists (tkey b), n0. split; [apply in_app_iff; right; exact Hk|exact Tb]. }
        destruct (child ch s) as [d|] eqn:Ed; [|apply Base; [exact H|unfold hidden; cbn [tkey]; rewrite Ed; reflexivity]].
        destruct (child_key (Node k0 m ch) d s W Ps Ed) as (Pd & Wd & Td). pose proof (child_In _ _ _ Ed) as Hin.
        destruct (live (tval d)) eqn:Lv.
        -- assert (Hk : In (tkey d) (map fst L1)) by (rewrite K1; apply in_map, filter_In; auto).
           apply in_map_iff in Hk. destruct Hk as ([s' n0] & E & Hk). cbn in E. subst s'. exists (tkey d), n0. split; [apply in_app_iff; left; exact Hk|exact Td].
        -- assert (Dd : dead (tval d)) by (unfold dead; destruct (tval d) as [|[|]| |]; try discriminate; auto).
           assert (Md : MW (sub (below g p) s) d) by (apply (MW_ext d (sub (below g p) (tkey d))); auto; [apply sub_same; auto|apply (child_Forall _ _ _ _ Mc Ed)]).
           apply Base.
           ++ apply (dead_le r d (sub (below g p) s)); auto. apply sub_low; auto.
           ++ unfold hidden. cbn [tkey]. rewrite Ed. destruct (tval d) as [|t| |] eqn:Ev; try (destruct Dd; discriminate); [|reflexivity].
              destruct t; [discriminate|]. elim H. destruct d as [kd md chd]. cbn [tval] in Ev. subst md. destruct r; reflexivity.
      * exact Vis.
Qed.

(** ** set *)
(** The key has a change node only because something below was set. *)
Fixpoint impl (c : ctree) (k : key) : bool :=
  match tval c with
  | NewTree _ => false
  | m =>
      match k with
      | [] => match m with NewNode _ => true | _ => false end
      | s :: r => match child (tch c) s with Some d => impl d r | None => false end
      end
  end.
Lemma impl_cons k0 m ch s r : notree m -> impl (Node k0 m ch) (s :: r) = match child ch s with Some d => impl d r | None => false end.
Proof. destruct m; [reflexivity|intros []|reflexivity|reflexivity]. Qed.
Definition implo (c : option ctree) (k : key) : bool := match c with Some c => impl c k | None => false end.
Definition differ (a b : option bytes) : bool := negb (bang a) && negb (bang b) && negb (eq_val a b).
Lemma eq_val_spec a b : eq_val a b = true <-> a = b.
Proof. destruct a as [a|], b as [b|]; cbn; try (destruct (list_eq_dec ascii_dec a b)); split; congruence. Qed.
Lemma eq_val_dec (a b : option bytes) : a = b /\ eq_val a b = true \/ a <> b /\ eq_val a b = false.
Proof. destruct (eq_val a b) eqn:E; [left|right]; split; auto; [apply eq_val_spec; exact E|intros F; apply eq_val_spec in F; congruence]. Qed.
Lemma dead_impl : forall k c b, MW b c -> dead (tval c) -> impl c k = false.
Proof.
  induction k as [|s r IH]; intros [k0 m ch] b M D; pose proof (MW_inv _ _ M) as (_ & Bl & _ & C); cbn [tval tch] in *; destruct D as [-> | ->]; try reflexivity.
  cbn [impl tval tch]. destruct (child ch s) as [d|] eqn:Ed; [|reflexivity].
  apply (IH d (sub b (tkey d))); [apply (child_Forall _ _ _ _ C Ed)|apply (child_Forall _ _ _ _ (Bl eq_refl) Ed)].
Qed.

Definition stepped (b m0 : contents) (k0 : bytes) (c' : ctree) (rest : key) (v : option bytes) (n : list notif) (p : key) (lst : bool) : Prop :=
  WF c' /\ MW b c' /\ tkey c' = k0 /\ same_contents (cv c' b) (set_spec m0 rest v) /\
  exists n', n = pre p n' /\ if lst then n' = [] else tells m0 (cv c' b) n'.

Lemma tells_one m m' : (forall s r, plain s -> Forall plain r -> m (s :: r) = m' (s :: r)) -> m [] <> m' [] -> tells m m' [([], m' [])].
Proof.
  intros E N. split.
  - intros k v [H|[]]. injection H as <- <-. auto.
  - intros [|s r] P D; [exists [], (m' []); split; [left; reflexivity|reflexivity]|]. elim D. apply E; [exact (Forall_inv P)|exact (Forall_inv_tail P)].
  - repeat constructor. intros [].
Qed.
Lemma tells_here m m' (q : bool) : (forall s r, plain s -> Forall plain r -> m (s :: r) = m' (s :: r)) -> (q = true <-> m [] = m' []) ->
  tells m m' (if q then [] else [([], m' [])]).
Proof.
  intros E Q. destruct q.
  - apply tells_nil. intros [|s r] P; [apply Q; reflexivity|]. apply E; [exact (Forall_inv P)|exact (Forall_inv_tail P)].
  - apply tells_one; [exact E|]. intros H. apply Q in H. discriminate.
Qed.
Lemma pre_one p v : [(p, v)] = pre p [([], v)].
Proof. cbn. rewrite app_nil_r. reflexivity. Qed.

Lemma node_step b k0 m m' ch ch' s d' r v n1 n2 :
  notree m -> notree m' -> WF (Node k0 m ch) -> MW b (Node k0 m ch) -> low_inv b -> plain s -> Forall plain r ->
  (forall s', plain s' -> child ch' s' = if teq s s' then Some d' else child ch s') ->
  WF d' -> MW (sub b s) d' ->
  (m' = m /\ n1 = [] /\ (v <> None -> m <> Blank) \/ m = Blank /\ m' = NewNode (bang (b [])) /\ v <> None /\ n1 = if isnull (b []) then [([], Some [])] else []) ->
  same_contents (cv d' (sub b s)) (set_spec (sub (cv (Node k0 m ch) b) s) r v) ->
  same_contents (cv (Node k0 m' ch') b) (set_spec (cv (Node k0 m ch) b) (s :: r) v) /\
  (tells (sub (cv (Node k0 m ch) b) s) (cv d' (sub b s)) n2 -> tells (cv (Node k0 m ch) b) (cv (Node k0 m' ch') b) (n1 ++ pre [s] n2)).
Proof.
  intros Hm Hm' W M Lb Ps Pr Cc Wd Md Hv E.
  assert (C' : forall s' r', plain s' -> Forall plain r' -> cv (Node k0 m' ch') b (s' :: r') = if teq s s' then cv d' (sub b s) r' else cv (Node k0 m ch) b (s' :: r')).
  { intros s' r' Ps' Pr'. rewrite !cv_cons by assumption. rewrite Cc by exact Ps'. destruct (teq s s') eqn:T; [|reflexivity].
    apply cv_ext; [exact Pr'|]. intros q Pq. symmetry. apply (sub_same b s s'); auto. }
  assert (Lw : forall s' r', plain s' -> Forall plain r' -> teq s s' = true -> cv (Node k0 m ch) b (s' :: r') = cv (Node k0 m ch) b (s :: r')).
  { intros s' r' Ps' Pr' T. apply cv_low; auto. rewrite same_cons, teq_sym, T, same_refl. reflexivity. }
  assert (E0 : cv (Node k0 m' ch') b [] = set_spec (cv (Node k0 m ch) b) (s :: r) v []).
  { unfold set_spec. destruct Hv as [(-> & _ & Hb)|(-> & -> & Hv & _)].
    - destruct v as [v|]; [|reflexivity]. cbn [same under]. destruct m as [| | |]; try reflexivity; [elim Hm|]. elim Hb; [discriminate|reflexivity].
    - destruct v as [v|]; [|elim Hv; reflexivity]. cbn [same under]. cbn [andb cv tval]. destruct (b []); reflexivity. }
  split.
  - intros [|s' r'] P; [exact E0|]. pose proof (Forall_inv P) as Ps'. pose proof (Forall_inv_tail P) as Pr'. rewrite C', set_cons by assumption.
    destruct (teq s s') eqn:T; [|reflexivity]. rewrite E by exact Pr'. apply set_ext. symmetry. apply Lw; auto.
  - intros T. apply tells_step.
    + exact Ps.
    + intros s' r' Ps' Pr' Ts. split; [apply Lw; auto|]. rewrite !C' by assumption. rewrite Ts, teq_refl. reflexivity.
    + intros s' r' Ps' Pr' Ts. rewrite C', Ts by assumption. reflexivity.
    + destruct Hv as [(-> & -> & Hb)|(-> & -> & Hv & ->)].
      * left. split; [|reflexivity]. destruct m; [reflexivity|elim Hm|reflexivity|reflexivity].
      * cbn [cv tval]. destruct (b []); [left|right]; split; try reflexivity. discriminate.
    + eapply tells_ext; [| |exact T]; [intros; reflexivity|]. intros q Pq. unfold sub at 2. rewrite C', teq_refl by assumption. reflexivity.
Qed.

Lemma create_change_ok v : forall rest g p k0, WFo (root g) -> Forall plain p -> Forall plain rest ->
  let (c, n) := create_change g p k0 rest v in
  stepped (below g p) (below g p) k0 c rest v n p false /\ (v = None -> dead (tval c)).
Proof.
  induction rest as [|s r IH]; intros g p k0 Wg Pp P; cbn [create_change].
  - destruct v as [w|].
    + split; [|discriminate]. split; [repeat constructor|]. split; [repeat constructor; discriminate|]. split; [reflexivity|]. split.
      * intros [|s r] _; reflexivity.
      * exists (if eq_val (below g p []) (Some w) then [] else [([], Some w)]). rewrite tget_below by exact Pp. split.
        { destruct (eq_val _ _); [reflexivity|apply pre_one]. }
        { apply (tells_here (below g p) (cv (Node k0 (NewValue w) []) (below g p)) (eq_val (below g p []) (Some w))); [intros; reflexivity|apply eq_val_spec]. }
    + split; [|right; reflexivity]. split; [repeat constructor|]. split.
      { constructor; try discriminate; [|constructor]. intros t E. injection E as <-. split; [reflexivity|exact I]. }
      split; [reflexivity|]. split; [intros q Pq; destruct q; reflexivity|]. unfold exists_. rewrite tget_below by exact Pp. destruct (below g p []) as [w|] eqn:E.
      * destruct (ds_ok g p Wg Pp) as (n' & En & T); [congruence|]. exists n'. split; [exact En|]. eapply tells_ext; [| |exact T]; intros q Pq; [reflexivity|destruct q; reflexivity].
      * exists []. split; [reflexivity|]. apply tells_nil. intros [|s r] Pq; [exact E|]. cbn [cv tval lko].
        pose proof (below_closed g p s r) as H. destruct (below g p (s :: r)); [elim H; [discriminate|exact E]|reflexivity].
  - pose proof (Forall_inv P) as Ps. pose proof (Forall_inv_tail P) as Pr.
    specialize (IH g (p ++ [s]) s Wg ltac:(apply Forall_app; auto) Pr). destruct (create_change g (p ++ [s]) s r v) as [c n].
    destruct IH as ((Wc & Mc & Tk & Ec & n' & En & T) & Dd).
    assert (Mc' : MW (sub (below g p) s) c) by (apply (MW_ext c (below g (p ++ [s]))); auto using below_sub).
    assert (Ec' : same_contents (cv c (sub (below g p) s)) (set_spec (sub (cv (Node k0 Blank []) (below g p)) s) r v)).
    { intros q Pq. rewrite <- (cv_ext q c (below g (p ++ [s]))) by (auto using below_sub). rewrite Ec by exact Pq. apply set_ext. apply below_sub. exact Pq. }
    assert (T' : tells (sub (cv (Node k0 Blank []) (below g p)) s) (cv c (sub (below g p) s)) n').
    { eapply tells_ext; [| |exact T]; intros q Pq; [apply below_sub, Pq|apply cv_ext; [exact Pq|apply below_sub]]. }
    set (m' := match v with None => Blank | Some _ => NewNode (bang (below g p [])) end).
    set (n1 := match v with None => [] | Some _ => if isnull (below g p []) then [([], Some [])] else [] end : list notif).
    destruct (node_step (below g p) k0 Blank m' [] [c] s c r v n1 n') as [S1 S2].
    { exact I. } { destruct v; exact I. } { repeat constructor. } { constructor; try discriminate; constructor. } { apply below_low; auto. } { exact Ps. } { exact Pr. }
    { intros s' Ps'. cbn [child]. rewrite same_seg_teq by (rewrite ?Tk; auto using plain_nulf). rewrite Tk. reflexivity. }
    { exact Wc. } { exact Mc'. }
    { destruct v; [right|left]; repeat split; auto; discriminate. }
    { exact Ec'. }
    specialize (S2 T').
    assert (E0 : forall q, Forall plain q -> cv (Node k0 Blank []) (below g p) q = below g p q) by (intros [|s' r'] _; reflexivity).
    assert (R : stepped (below g p) (below g p) k0 (Node k0 m' [c]) (s :: r) v (pre p (n1 ++ pre [s] n')) p false).
    { split; [constructor; [constructor; [rewrite Tk; exact Ps|constructor]|constructor; [intros []|constructor]|constructor; [exact Wc|constructor]]|]. split; [|split; [reflexivity|split]].
      - constructor.
        + unfold m'. destruct v; discriminate.
        + intros Hb. unfold m' in Hb. destruct v; [discriminate|]. constructor; [apply Dd; reflexivity|constructor].
        + intros w Hw. unfold m' in Hw. destruct v; [|discriminate]. injection Hw as <-. reflexivity.
        + constructor; [rewrite Tk; exact Mc'|constructor].
      - intros q Pq. rewrite S1 by exact Pq. apply set_ext, E0, Pq.
      - exists (n1 ++ pre [s] n'). split; [reflexivity|]. eapply tells_ext; [exact E0| |exact S2]. reflexivity. }
    rewrite pre_app, pre_pre in R. rewrite <- En in R. unfold m', n1 in R. destruct v as [w|].
    + split; [|discriminate]. rewrite tget_below by exact Pp. destruct (isnull (below g p [])); [rewrite pre_one|]; exact R.
    + split; [exact R|]. left. reflexivity.
Qed.

Lemma MW_parts b k m ch : notree m -> (m = Blank -> Forall (fun d => dead (tval d)) ch) -> (forall w, m = NewNode w -> w = bang (b [])) ->
  Forall (fun d => MW (sub b (tkey d)) d) ch -> MW b (Node k m ch).
Proof. intros N B F C. constructor; auto. intros t E. subst. elim N. Qed.
Lemma change_here_ok g p c v : WFo (root g) -> Forall plain p -> WF c -> MW (below g p) c -> notree (tval c) ->
  let (c', n) := change_here g c p v in
  stepped (below g p) (cv c (below g p)) (tkey c) c' [] v n p (impl c [] && differ (below g p []) v) /\ (v = None -> dead (tval c) -> dead (tval c')).
Proof.
  intros Wg Pp W M Nt. destruct c as [k0 m ch]. cbn [tval] in Nt. pose proof (MW_inv _ _ M) as (_ & Bl & Fn & C). cbn [tval tch] in *.
  unfold change_here. destruct v as [w|].
  - assert (G : forall q lst : bool, (if lst then q = true else (q = true <-> cv (Node k0 m ch) (below g p) [] = Some w)) ->
      stepped (below g p) (cv (Node k0 m ch) (below g p)) k0 (Node k0 (NewValue w) ch) [] (Some w) (if q then [] else [(p, Some w)]) p lst).
    { intros q lst Q. split; [eapply WF_mode, W|]. split; [apply MW_parts; [exact I|discriminate|discriminate|exact C]|]. split; [reflexivity|]. split.
      - intros [|s r] _; [reflexivity|]. unfold set_spec. cbn [same under andb]. rewrite !cv_cons by (exact I || exact Nt). reflexivity.
      - exists (if q then [] else [([], Some w)]). split; [destruct q; [reflexivity|apply pre_one]|]. destruct lst; [rewrite Q; reflexivity|].
        apply (tells_here _ (cv (Node k0 (NewValue w) ch) (below g p)) q); [|exact Q]. intros s r Ps Pr. rewrite !cv_cons by (exact I || exact Nt). reflexivity. }
    destruct m as [w0|t|was|]; [| elim Nt | |]; cbn [impl tval andb].
    + destruct (list_eq_dec ascii_dec w0 w) as [-> |N].
      * split; [|discriminate]. exact (G true false (conj (fun _ => eq_refl) (fun _ => eq_refl))).
      * split; [|discriminate]. apply (G false false). split; [discriminate|]. cbn. congruence.
    + cbv zeta. split; [|discriminate]. rewrite tget_below by exact Pp. set (q := negb (xorb (bang (below g p [])) (bang (Some w)) && negb (eq_val (below g p []) (Some w)))).
assert (Hq : stepped (below g p) (cv (Node k0 (NewNode was) ch) (below g p)) k0 (Node k0 (NewValue w) ch) [] (Some w) (if q then [] else [(p, Some w)]) p (differ (below g p []) (Some w))).
      { apply G. unfold q, differ. clear.
        cbn [cv tval]. destruct (eq_val_dec (below g p []) (Some w)) as [[E ->]|[N ->]];
        destruct (below g p []) as [[|x u]|], w as [|y w]; cbn [bang negb xorb andb]; first [reflexivity|split; congruence]. }
      revert Hq. unfold q. match goal with |- context [if negb ?x then _ else _] => destruct x end; auto.
    + split; [|discriminate]. rewrite tget_below by exact Pp. apply G. apply eq_val_spec.
  - assert (Lf : impl (Node k0 m ch) [] && differ (below g p []) None = false).
    { unfold differ. cbn [bang negb]. rewrite andb_false_r. cbn. apply andb_false_r. }
    rewrite Lf. split; [|right; reflexivity]. split; [repeat constructor|]. split.
    { constructor; try discriminate; [|constructor]. intros t E. injection E as <-. split; [reflexivity|exact I]. }
    split; [reflexivity|]. split; [intros q Pq; destruct q; reflexivity|].
    assert (Vis : match m with Blank => exists_ g p | _ => true end = negb (isnull (cv (Node k0 m ch) (below g p) []))).
    { destruct m; [reflexivity|elim Nt|reflexivity|]. unfold exists_. rewrite tget_below by exact Pp. reflexivity. }
    rewrite Vis. destruct (cv (Node k0 m ch) (below g p) []) as [w|] eqn:E; cbn [isnull negb].
    + destruct (ds2_ok (Node k0 m ch) g p Wg Pp W M) as (n' & En & T); [congruence|]. exists n'. split; [exact En|].
      eapply tells_ext; [| |exact T]; intros q Pq; [reflexivity|destruct q; reflexivity].
    + exists []. split; [reflexivity|]. apply tells_nil. intros q Pq. transitivity (@None bytes); [|destruct q; reflexivity].
      destruct q as [|s r]; [exact E|]. destruct m; try discriminate.
      destruct (cv (Node k0 Blank ch) (below g p) (s :: r)) as [w|] eqn:F; [|reflexivity].
      assert (H : below g p (s :: r) <> None). { apply (dead_le (s :: r) (Node k0 Blank ch)); auto; [left; reflexivity|apply below_low; auto|congruence]. }
      apply below_closed in H. elim H. exact E.
Qed.

Lemma Forall_with_child {V} (Q : tree V -> Prop) s c' : forall ch, Forall Q ch -> Q c' -> Forall Q (with_child ch s (Some c')).
Proof. induction ch as [|d ch IH]; intros H Hc; [repeat constructor; exact Hc|]. pose proof (Forall_inv H). pose proof (Forall_inv_tail H). cbn [with_child]. destruct (same_seg (tkey d) s); constructor; auto. Qed.

Lemma set_at_eq g full k0 m ch p s r v :
  set_change_at g full (Node k0 m ch) p (s :: r) v =
  let m' := match m, v with Blank, Some _ => NewNode (bang (tget g p)) | _, _ => m end in
  let n1 := match m, v with Blank, Some _ => if isnull (tget g p) then [([], Some [])] else [] | _, _ => [] end in
  if isempty (collapse [s]) then let (c', n) := set_change_at g full (Node k0 m' ch) (p ++ [s]) r v in (c', pre p n1 ++ n)
  else match child ch s with
    | None => if hastrailingslash full && negb (isnull v) then (Node k0 m' ch, pre p n1) else let (d, n) := create_change g (p ++ [s]) s r v in (Node k0 m' (ch ++ [d]), pre p n1 ++ n)
    | Some (Node kd (NewTree t) chd) => let (t', n) := set_value t (p ++ [s]) r v in (Node k0 m' (with_child ch s (Some (Node kd (NewTree t') chd))), pre p n1 ++ n)
    | Some d => let (d', n) := set_change_at g full d (p ++ [s]) r v in (Node k0 m' (with_child ch s (Some d')), pre p n1 ++ n)
    end.
Proof. destruct m, v; try reflexivity. cbn [set_change_at tval tkey tch]. cbv zeta. destruct (isnull (tget g p)); [rewrite <- pre_one|]; reflexivity. Qed.
Lemma set_at_ok v full : hastrailingslash full = false -> forall rest g c p, WFo (root g) -> Forall plain p -> Forall plain rest -> WF c -> MW (below g p) c -> notree (tval c) ->
  let (c', n) := set_change_at g full c p rest v in
  stepped (below g p) (cv c (below g p)) (tkey c) c' rest v n p (impl c rest && differ (below g p rest) v) /\ (v = None -> dead (tval c) -> dead (tval c')).
Proof.
  intros Hf. induction rest as [|s r IH]; intros g c p Wg Pp P W M Nt.
  - apply change_here_ok; auto.
  - pose proof (Forall_inv P) as Ps. pose proof (Forall_inv_tail P) as Pr. assert (Pps : Forall plain (p ++ [s])) by (apply Forall_app; auto).
    destruct c as [k0 m ch]. rewrite set_at_eq. rewrite tget_below by exact Pp. rewrite isempty_plain by exact Ps. rewrite Hf. cbv zeta. cbn [tval tkey tch] in *. pose proof (MW_inv _ _ M) as (_ & Bl & Fn & C). cbn [tval tch] in Bl, Fn, C.
    set (m' := match m, v with Blank, Some _ => NewNode (bang (below g p [])) | _, _ => m end).
    set (n1 := match m, v with Blank, Some _ => if isnull (below g p []) then [([], Some [])] else [] | _, _ => [] end : list notif).
    assert (Nm' : notree m') by (unfold m'; destruct m, v; auto; exact I).
    cbn [andb].
    assert (Hv : m' = m /\ n1 = [] /\ (v <> None -> m <> Blank) \/ m = Blank /\ m' = NewNode (bang (below g p [])) /\ v <> None /\ n1 = if isnull (below g p []) then [([], Some [])] else []).
    { unfold m', n1. destruct m, v; (left; repeat split; congruence) || (right; repeat split; congruence). }
    assert (K : forall d' ch' n2 lst, (forall s', plain s' -> child ch' s' = if teq s s' then Some d' else child ch s') -> WF (Node k0 m' ch') -> WF d' -> MW (sub (below g p) s) d' ->
       Forall (fun d => MW (sub (below g p) (tkey d)) d) ch' -> (m' = Blank -> Forall (fun d => dead (tval d)) ch') ->
       same_contents (cv d' (sub (below g p) s)) (set_spec (sub (cv (Node k0 m ch) (below g p)) s) r v) ->
       (if lst : bool then n1 = [] /\ n2 = [] else tells (sub (cv (Node k0 m ch) (below g p)) s) (cv d' (sub (below g p) s)) n2) ->
       stepped (below g p) (cv (Node k0 m ch) (below g p)) k0 (Node k0 m' ch') (s :: r) v (pre p n1 ++ pre (p ++ [s]) n2) p lst /\ (v = None -> dead m -> dead m')).
    { intros d' ch' n2 lst Cc W' Wd Md Fm Bd E T. destruct (node_step (below g p) k0 m m' ch ch' s d' r v n1 n2) as [S1 S2]; auto; [apply below_low; auto|].
      split; [|intros -> D; destruct Hv as [(-> & _)|(_ & _ & Hv & _)]; [exact D|elim Hv; reflexivity]].
      split; [exact W'|]. split; [|split; [reflexivity|split; [exact S1|]]].
      - apply MW_parts; auto. intros w Hw. destruct Hv as [(Em & _)|(_ & Em & _)]; [apply Fn; congruence|rewrite Em in Hw; injection Hw as <-; reflexivity].
      - exists (n1 ++ pre [s] n2). split; [rewrite pre_app, pre_pre; reflexivity|]. destruct lst; [destruct T as [-> ->]; reflexivity|auto]. }
    assert (Lm : low_inv (below g p)) by (apply below_low; auto).
    rewrite impl_cons by exact Nt. destruct (child ch s) as [d|] eqn:Ed.
    + destruct (child_key (Node k0 m ch) d s W Ps Ed) as (Pd & Wd & Td). pose proof (child_Forall _ _ _ _ C Ed) as Md.
      assert (Ms : MW (sub (below g p) s) d) by (apply (MW_ext d (sub (below g p) (tkey d))); auto; apply sub_same; auto).
      assert (Mp : MW (below g (p ++ [s])) d) by (apply (MW_ext d (sub (below g p) s)); auto; intros q Pq; symmetry; apply below_sub, Pq).
      assert (Vd : forall q, sub (cv (Node k0 m ch) (below g p)) s q = cv d (sub (below g p) s) q) by (intros q; unfold sub; rewrite cv_cons, Ed by exact Nt; reflexivity).
      assert (Km : forall d', tkey d' = tkey d -> WF d' -> MW (sub (below g p) s) d' -> (v = None -> dead (tval d) -> dead (tval d')) -> forall n2 lst,
         same_contents (cv d' (sub (below g p) s)) (set_spec (cv d (sub (below g p) s)) r v) ->
         (if lst : bool then n1 = [] /\ n2 = [] else tells (cv d (sub (below g p) s)) (cv d' (sub (below g p) s)) n2) ->
         stepped (below g p) (cv (Node k0 m ch) (below g p)) k0 (Node k0 m' (with_child ch s (Some d'))) (s :: r) v (pre p n1 ++ pre (p ++ [s]) n2) p lst /\ (v = None -> dead m -> dead m')).
      { intros d' Tk Wd' Md' Dd n2 lst E T. apply (K d'); auto.
        - intros s' Ps'. apply (child_replace (Node k0 m ch) s d d' s'); auto using plain_nulf.
        - eapply WF_with_child; eauto. eapply WF_mode, W.
        - apply Forall_with_child; [exact C|]. rewrite Tk. apply (MW_ext d' (sub (below g p) s)); auto. apply sub_same; auto. rewrite teq_sym. exact Td.
        - intros Hb. assert (m = Blank /\ v = None) as [-> ->] by (unfold m' in Hb; destruct m, v; try discriminate; auto).
          apply Forall_with_child; [exact (Bl eq_refl)|]. apply Dd; [reflexivity|]. apply (child_Forall _ _ _ _ (Bl eq_refl) Ed).
        - intros q Pq. rewrite E by exact Pq. apply set_ext. symmetry. apply Vd.
        - destruct lst; [exact T|]. eapply tells_ext; [| |exact T]; intros q Pq; [symmetry; apply Vd|reflexivity]. }
      destruct (tval d) as [w|t|w|] eqn:Ev.
      2:{ destruct d as [kd md chd]. cbn [tval] in Ev. subst md. destruct (MW_inv _ _ Ms) as (A & _). destruct (A t eq_refl) as [Ec Wt]. cbn [tch] in Ec. subst chd.
        pose proof (set_value_ok t (p ++ [s]) r v Wt Pr) as Sv. destruct (set_value t (p ++ [s]) r v) as [t' n]. destruct Sv as (Wt' & E & Hn & n' & En & T). rewrite En.
        replace (impl _ r) with false by (destruct r; reflexivity). cbn [andb].
        assert (X : forall u q, cv (Node kd (NewTree u) []) (sub (below g p) s) q = lko u q) by (intros u [|]; reflexivity).
        apply Km; auto.
        - constructor; constructor.
        - constructor; try discriminate; [|constructor]. intros t0 E0. injection E0 as <-. auto.
        - intros Hv0 [D|D]; [discriminate|]. injection D as ->. right. rewrite Hn; auto.
        - intros q Pq. rewrite X, E by exact Pq. apply set_ext. symmetry. apply X.
        - cbv iota. eapply tells_ext; [| |exact T]; intros q Pq; symmetry; apply X. }
      all: assert (Nd : notree (tval d)) by (rewrite Ev; exact I); specialize (IH g d (p ++ [s]) Wg Pps Pr Wd Mp Nd);
        destruct d as [kd md chd]; cbn [tval] in Ev; subst md;
        match type of IH with context [set_change_at ?g ?f ?d ?p ?r ?v] => destruct (set_change_at g f d p r v) as [d' n] end;
        destruct IH as ((Wd' & Md' & Tk & E & n' & En & T) & Dd); rewrite En;
        assert (X : forall q, Forall plain q -> below g (p ++ [s]) q = below g p (s :: q)) by (intros; apply below_sub; assumption);
        rewrite X in T by exact Pr; (apply Km;
          [exact Tk|exact Wd'|apply (MW_ext d' (below g (p ++ [s]))); auto using below_sub|exact Dd|
           intros q Pq; rewrite <- (cv_ext q d' (below g (p ++ [s]))) by (auto using below_sub); rewrite E by exact Pq; apply set_ext; apply cv_ext; auto using below_sub|]);
        (match goal with |- if ?l then _ else _ => destruct l eqn:El end;
          [split; [|exact T]; destruct Hv as [(_ & -> & _)|(-> & _)]; [reflexivity|];
           apply andb_true_iff in El; destruct El as [El _]; rewrite (dead_impl r _ _ Ms) in El; [discriminate|apply (child_Forall _ _ _ _ (Bl eq_refl) Ed)]|
           eapply tells_ext; [| |exact T]; intros q Pq; apply cv_ext; auto using below_sub]).
    + pose proof (create_change_ok v r g (p ++ [s]) s Wg Pps Pr) as Cr. destruct (create_change g (p ++ [s]) s r v) as [d' n].
      destruct Cr as ((Wd' & Md' & Tk & E & n' & En & T) & Dd). rewrite En. cbn [andb].
      pose proof (WF_inv _ W) as (Pch & _). cbn [tch] in Pch.
      assert (Md2 : MW (sub (below g p) s) d') by (apply (MW_ext d' (below g (p ++ [s]))); auto using below_sub).
      assert (Vs : forall q, sub (cv (Node k0 m ch) (below g p)) s q = below g p (s :: q)) by (intros q; unfold sub; rewrite cv_cons, Ed by exact Nt; reflexivity).
      apply (K d').
      * intros s' Ps'. rewrite <- Tk. apply child_added; rewrite ?Tk; auto using plain_nulf.
      * apply WF_added; rewrite ?Tk; auto. eapply WF_mode, W.
      * exact Wd'.
      * exact Md2.
      * apply Forall_app. split; [exact C|]. constructor; [rewrite Tk; exact Md2|constructor].
      * intros Hb. assert (m = Blank /\ v = None) as [-> ->] by (unfold m' in Hb; destruct m, v; try discriminate; auto).
        apply Forall_app. split; [exact (Bl eq_refl)|]. constructor; [apply Dd; reflexivity|constructor].
      * intros q Pq. rewrite <- (cv_ext q d' (below g (p ++ [s]))) by (auto using below_sub). rewrite E by exact Pq. apply set_ext. rewrite Vs. apply below_sub, Pq.
      * cbv iota. eapply tells_ext; [| |exact T]; intros q Pq; [rewrite Vs; apply below_sub, Pq|apply cv_ext; auto using below_sub].
Qed.
