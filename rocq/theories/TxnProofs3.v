From Coq Require Import Permutation.
From Verif Require Import Base BaseFacts Ctype KeyModel KeySpec KeyProofs TempModel TempSpec TreeProofs TempProofs TxnModel TxnSpec TxnProofs TxnProofs2.
Local Open Scope nat_scope.

Lemma same_sym k k' : same k k' = same k' k.
Proof. unfold same. apply andb_comm. Qed.
Lemma same_same k q q' : same q q' = true -> same k q = same k q'.
Proof. intros E. apply same_lows in E. destruct (same k q) eqn:A, (same k q') eqn:B; auto; [apply same_lows in A|apply same_lows in B]; assert (X : lows k = lows q /\ lows k = lows q') by (split; congruence); destruct X as [X Y]; apply same_lows in X; apply same_lows in Y; congruence. Qed.
Lemma note_low b n : low_inv b -> low_inv (note b n).
Proof. intros L q q' P P' E. unfold note. rewrite (same_same (fst n) q q' E). destruct (same (fst n) q'); [reflexivity|]. apply L; auto. Qed.
Lemma like_trans c1 c2 c3 : like c1 c2 -> like c2 c3 -> like c1 c3.
Proof.
  intros (K & T & B & Q) (K' & T' & B' & Q'). split; [congruence|]. split; [|split; [auto|]].
  - intros t E. rewrite <- (T t E). apply (T' t). rewrite (T t E). exact E.
  - intros q P. destruct (Q q P) as [Q1 Q2]. destruct (Q' q P) as [Q1' Q2']. split; [congruence|]. intros b. rewrite Q2'. apply Q2.
Qed.

Lemma callbacks_fold : forall ns c b out, WF c -> MW b c -> low_inv b -> Forall (fun x => Forall plain (fst x) /\ b (fst x) <> snd x) ns -> NoDup (map (fun x => lows (fst x)) ns) ->
  exists c' o, fold_left callback ns (Some c, out) = (Some c', out ++ o) /\
    like c c' /\ WF c' /\ MW (replay ns b) c' /\ tells (cv c b) (cv c (replay ns b)) o /\ forall x, In x o -> exists y, In y ns /\ fst x = fst y.
Proof.
  induction ns as [|[k v] ns IH]; intros c b out W M L F N.
  - exists c, []. rewrite app_nil_r. split; [reflexivity|]. split; [apply like_refl|]. split; [exact W|]. split; [exact M|]. split; [apply tells_nil; reflexivity|]. intros x [].
  - destruct (Forall_inv F) as [P D]. pose proof (Forall_inv_tail F) as F2. cbn [fst snd] in P, D. inversion N as [|? ? N1 N2]; subst.
    destruct (gencb_ok k v k c b W M L P D) as (c1 & o1 & Eg & Lk & W1 & M1 & Ho). assert (E1 : callback (Some c, out) (k, v) = (Some c1, out ++ o1)) by (unfold callback; cbn [fst snd]; rewrite Eg; reflexivity). cbn [fold_left]. rewrite E1.
    set (b1 := note b (k, v)) in *. assert (L1 : low_inv b1) by (apply note_low, L).
    assert (X : forall q, Forall plain q -> cv c b1 q = cv c1 b1 q) by (intros q Pq; symmetry; apply Lk, Pq).
    assert (F1 : Forall (fun x => Forall plain (fst x) /\ b1 (fst x) <> snd x) ns).
    { apply Forall_forall. intros x Hx. rewrite Forall_forall in F2. destruct (F2 x Hx) as [Px Dx]. split; [exact Px|]. unfold b1, note. cbn [fst snd].
      destruct (same k (fst x)) eqn:E; [|exact Dx]. exfalso. apply N1. apply in_map_iff. exists x. split; [|exact Hx]. apply same_lows in E. auto. }
    destruct (IH c1 b1 (out ++ o1) W1 M1 L1 F1 N2) as (c' & o2 & Ef & Lk2 & W' & M' & T & Ks).
    exists c', (o1 ++ o2). split; [rewrite app_assoc; exact Ef|]. split; [eapply like_trans; eauto|]. split; [exact W'|]. split; [exact M'|].
    assert (T1 : tells (cv c b) (cv c b1) o1).
    { assert (Eq : forall q, Forall plain q -> same k q = false -> cv c b q = cv c b1 q) by (intros q Pq E; apply cv_at; unfold b1, note; cbn [fst snd]; rewrite E; reflexivity).
      assert (Es : forall q, Forall plain q -> same k q = true -> cv c b q = cv c b k /\ cv c b1 q = cv c b1 k).
      { intros q Pq E. rewrite same_sym in E. split; [apply cv_low; auto|]. rewrite !X by auto. apply cv_low; auto. }
      destruct Ho as [[-> E]|[-> E]].
      - apply tells_nil. intros q Pq. destruct (same k q) eqn:S; [|auto]. destruct (Es q Pq S) as [-> ->]. auto.
      - split.
        + intros q w [H|[]]. injection H as <- <-. auto.
        + intros q Pq Dq. destruct (same k q) eqn:S; [|elim Dq; auto]. exists k, (cv c b1 k). split; [left; reflexivity|exact S].
        + repeat constructor. intros []. }
    split.
    + apply (tells_app _ (cv c b1)); [exact T1| |].
      * eapply tells_ext; [| |exact T]; intros q Pq; [symmetry; apply X, Pq|apply Lk, Pq].
      * intros x y Hx Hy. assert (fst x = k) by (destruct Ho as [[-> _]|[-> _]]; [destruct Hx|destruct Hx as [<-|[]]; reflexivity]).
        destruct (Ks y Hy) as (z & Hz & Ez). destruct (same (fst x) (fst y)) eqn:S; [|reflexivity]. exfalso. apply N1. apply in_map_iff. exists z. split; [|exact Hz]. apply same_lows in S. transitivity (lows (fst y)); [f_equal; symmetry; exact Ez|]. transitivity (lows (fst x)); [symmetry; exact S|f_equal; assumption].
    + intros x Hx. apply in_app_iff in Hx. destruct Hx as [Hx|Hx].
      * exists (k, v). split; [left; reflexivity|]. destruct Ho as [[-> _]|[-> _]]; [destruct Hx|destruct Hx as [<-|[]]; reflexivity].
      * destruct (Ks x Hx) as (y & Hy & E). exists y. split; [right; exact Hy|exact E].
Qed.
Lemma callbacks_none : forall ns out, fold_left callback ns (None, out) = (None, out ++ ns).
Proof.
  induction ns as [|[k v] ns IH]; intros out; [rewrite app_nil_r; reflexivity|]. cbn [fold_left].
  assert (E : callback (None, out) (k, v) = (None, out ++ [(k, v)])) by (destruct k; reflexivity). rewrite E, IH, <- app_assoc. reflexivity.
Qed.
Definition likeo (c c' : option ctree) : Prop := forall q, Forall plain q -> kindo c' q = kindo c q /\ forall b, cvo c' b q = cvo c b q.
Lemma replay_at_tells g' m n : WFo (root g') -> tells m (has g') n -> same_contents (replay n m) (has g').
Proof. intros W T k P. apply tells_replay; assumption. Qed.

Lemma base_set_ok t out k v t' out' : INV t -> canonical k -> base_set (t, out) k v = (t', out') ->
  INV t' /\ same_contents (has (base t')) (set_key (has (base t)) (k, v)) /\ likeo (chg t) (chg t') /\ exists o, out' = out ++ o /\ tells (view t) (view t') o.
Proof.
  intros [Wg Hc] Ck H. unfold base_set in H. destruct t as [g c]. cbn [base chg] in *. destruct (tset g k v) as [g' ns] eqn:Et.
  destruct (tset_ok g k v g' ns Wg Ck Et) as (W' & E & T & _). pose proof T as [T1 T2 T3].
  assert (F : Forall (fun x => Forall plain (fst x) /\ has g (fst x) <> snd x) ns) by (apply Forall_forall; intros [q w] Hx; destruct (T1 q w Hx) as (P & _ & D); auto).
  destruct c as [c|].
  - destruct Hc as [Wc Mc]. destruct (callbacks_fold ns c (has g) [] Wc Mc (has_low' g Wg) F T3) as (c' & o & Ef & Lk & Wc' & Mc' & To & _). assert (Q : callbacks (Some c) ns = (Some c', o)) by exact Ef. rewrite Q in H. injection H as <- <-.
    pose proof (replay_at_tells g' (has g) ns W' T) as R. unfold view, INV. cbn [base chg cvo]. split; [split; [exact W'|split; [exact Wc'|]]|].
    + eapply MW_ext; [exact R|exact Wc'|exact Mc'].
    + split; [exact E|]. split; [intros q Pq; apply Lk, Pq|]. exists o. split; [reflexivity|]. eapply tells_ext; [| |exact To]; intros q Pq; [reflexivity|].
      transitivity (cv c (has g') q); [apply cv_ext; auto|symmetry; apply Lk, Pq].
  - assert (Q : callbacks None ns = (None, ns)) by apply callbacks_none. rewrite Q in H. injection H as <- <-. unfold view, INV. cbn [base chg cvo]. split; [split; [exact W'|exact I]|]. split; [exact E|]. split; [intros q Pq; split; reflexivity|].
    exists ns. split; [reflexivity|exact T].
Qed.

(** ** The view is closed under prefixes *)
Definition closed (b : contents) : Prop := forall k r, Forall plain (k ++ r) -> b (k ++ r) <> None -> b k <> None.
Lemma cv_top c b s r : WF c -> MW b c -> low_inv b -> closed b -> Forall plain (s :: r) -> cv c b (s :: r) <> None -> cv c b [] <> None.
Proof.
  intros W M L Cl P H. destruct (tval c) as [w|t|w|] eqn:Ev.
  - destruct c as [k0 m ch]. cbn [tval] in Ev. subst m. discriminate.
  - destruct c as [k0 m ch]. cbn [tval] in Ev. subst m. cbn [cv tval] in *. destruct t as [t|]; [|exact H]. cbn [lko] in *. discriminate.
  - destruct c as [k0 m ch]. cbn [tval] in Ev. subst m. discriminate.
  - apply dead_le in H; auto; [|left; exact Ev]. destruct c as [k0 m ch]. cbn [tval] in Ev. subst m. cbn [cv tval]. apply (Cl [] (s :: r) P H).
Qed.
Lemma closed_sub b s : plain s -> closed b -> closed (sub b s).
Proof. intros Ps C k r P H. apply (C (s :: k) r); [constructor; assumption|exact H]. Qed.
Lemma cv_closed : forall k c b r, WF c -> MW b c -> low_inv b -> closed b -> Forall plain (k ++ r) -> cv c b (k ++ r) <> None -> cv c b k <> None.
Proof.
  induction k as [|s k IH]; intros c b r W M L Cl P H.
  - cbn [app] in *. destruct r as [|s r]; [exact H|]. eapply cv_top; eauto.
  - destruct c as [k0 m ch]. pose proof (MW_inv _ _ M) as (A & _ & _ & C). cbn [tval tch] in A, C. cbn [app] in *. pose proof (Forall_inv P) as Ps. pose proof (Forall_inv_tail P) as Pr.
    assert (G : (match child ch s with Some d => cv d (sub b s) (k ++ r) | None => b (s :: k ++ r) end) <> None -> match child ch s with Some d => cv d (sub b s) k | None => b (s :: k) end <> None).
    { destruct (child ch s) as [d|] eqn:Ed.
      - destruct (child_key (Node k0 m ch) d s W Ps Ed) as (Pd & Wd & Td). apply IH; auto.
        + apply (MW_ext d (sub b (tkey d))); auto; [apply sub_same; auto|apply (child_Forall _ _ _ _ C Ed)].
        + apply sub_low; auto.
        + apply closed_sub; auto.
      - apply (Cl (s :: k) r P). }
    destruct m as [w|t|w|]; try (apply G; exact H). cbn [cv tval] in *. destruct t as [t|]; [|exact H]. cbn [lko] in *. apply (lk_prefix (s :: k) t r H).
Qed.
Lemma has_closed g : closed (has g).
Proof. intros k r _ H. unfold has in *. destruct (root g) as [t|]; [|exact H]. apply (lk_prefix k t r H). Qed.
Lemma view_closed t : INV t -> closed (view t).
Proof.
  intros [Wg Hc] k r P H. unfold view in *. destruct (chg t) as [c|]; [|eapply has_closed; eauto]. destruct Hc as [Wc Mc]. eapply cv_closed; eauto using has_low', has_closed.
Qed.
Lemma view_low t : INV t -> low_inv (view t).
Proof. intros [Wg Hc] k k' P P' E. unfold view. destruct (chg t) as [c|]; [|apply has_low; auto]. destruct Hc as [Wc Mc]. apply cv_low; auto using has_low'. Qed.
Lemma under_app_low V k q : low_inv V -> Forall plain k -> Forall plain q -> under k q = true -> exists r, Forall plain r /\ V q = V (k ++ r) /\ same (k ++ r) q = true.
Proof.
  intros L Pk Pq U. destruct (under_split k q U) as (a & r & -> & Sa). rewrite Forall_app in Pq. destruct Pq as [Pa Pr]. exists r. split; [exact Pr|].
  assert (S : same (k ++ r) (a ++ r) = true) by (apply same_lows; rewrite !lows_app; apply same_lows in Sa; congruence). split; [|exact S].
  symmetry. apply L; auto; apply Forall_app; auto.
Qed.
(** Setting the value that is already there changes nothing. *)
Lemma set_own V k : closed V -> low_inv V -> Forall plain k -> same_contents (set_spec V k (V k)) V.
Proof.
  intros C L Pk q Pq. unfold set_spec. destruct (V k) as [w|] eqn:E.
  - destruct (same k q) eqn:S; [rewrite <- E; apply L; auto|]. destruct (under q k) eqn:U; [|reflexivity].
    destruct (under_app_low V q k L Pq Pk U) as (r & Pr & Er & _). destruct (V q) eqn:Eq; [reflexivity|]. elim (C q r); [apply Forall_app; auto|congruence|exact Eq].
  - destruct (under k q) eqn:U; [|reflexivity]. destruct (under_app_low V k q L Pk Pq U) as (r & Pr & Er & _). rewrite Er. destruct (V (k ++ r)) eqn:Eq; [|reflexivity].
    elim (C k r); [apply Forall_app; auto|congruence|exact E].
Qed.

(** ** Commit *)
Section Commit.
Variable C : option ctree.
Variable V : contents.
Hypothesis Vc : closed V.
Hypothesis Vl : low_inv V.
Definition F (x : txn * list notif) : Prop := INV (fst x) /\ likeo C (chg (fst x)) /\ same_contents (cvo C (has (base (fst x)))) V.
(** [x'] follows [x] in the commit: it notifies nothing, and keys that the base
    already has right stay right. *)
Definition next (x x' : txn * list notif) : Prop := F x' /\ snd x' = snd x /\
  forall q, Forall plain q -> has (base (fst x)) q = V q -> has (base (fst x')) q = V q.
Lemma next_refl x : F x -> next x x.
Proof. intros H. split; [exact H|]. auto. Qed.
Lemma next_trans x y z : next x y -> next y z -> next x z.
Proof. intros (F1 & S1 & D1) (F2 & S2 & D2). split; [exact F2|]. split; [congruence|]. auto. Qed.

Lemma conform b k : Forall plain k -> same_contents (cvo C b) V ->
  same_contents (cvo C (set_spec b k (V k))) V /\ (forall q, Forall plain q -> b q = V q -> set_spec b k (V k) q = V q) /\
  set_spec b k (V k) k = V k /\ (V k = None -> forall q, Forall plain q -> set_spec b k (V k) (k ++ q) = V (k ++ q)).
Proof.
  intros Pk Hb. pose proof (set_own V k Vc Vl Pk) as Ow.
  assert (D : forall q, Forall plain q -> b q = V q -> set_spec b k (V k) q = V q) by (intros q Pq E; rewrite (set_ext b V k (V k) q E); apply Ow, Pq).
  split; [|split; [exact D|split]].
  - intros q Pq. destruct C as [c|]; cbn [cvo] in *; [|apply D; auto].
    pose proof (Hb q Pq) as Hq. rewrite (cv_kind q c b (set_spec b k (V k))). rewrite (cv_kind q c b b) in Hq. unfold through in *. destruct (kind c q).
    + apply D; auto.
    + pose proof (Ow q Pq) as Oq. unfold set_spec in *. destruct (V k) as [w|].
      * destruct (same k q); [exact Oq|]. destruct (under q k); [|exact Hq]. destruct (b q); exact Hq.
      * destruct (under k q); [|exact Hq]. congruence.
    + exact Hq.
  - unfold set_spec. destruct (V k) eqn:E; [rewrite same_refl; reflexivity|]. rewrite <- (app_nil_r k) at 2. rewrite under_app. reflexivity.
  - intros E q Pq. pose proof (Ow (k ++ q) ltac:(apply Forall_app; auto)) as Oq. unfold set_spec in *. rewrite E in *. rewrite under_app in *. exact Oq.
Qed.
Lemma base_set_next x k v : F x -> Forall plain k -> v = V k -> next x (base_set x k v) /\ has (base (fst (base_set x k v))) k = V k /\
  (V k = None -> forall q, Forall plain q -> has (base (fst (base_set x k v))) (k ++ q) = V (k ++ q)).
Proof.
  intros (I & Lk & Hv) Pk ->. destruct x as [t out]. cbn [fst snd] in *. destruct (base_set (t, out) k (V k)) as [t' out'] eqn:Eb.
  destruct (base_set_ok t out k (V k) t' out' I (or_introl Pk) Eb) as (I' & E & Lk' & o & -> & T). cbn [fst snd].
  assert (E' : same_contents (has (base t')) (set_spec (has (base t)) k (V k))).
  { intros q Pq. rewrite E by exact Pq. unfold set_key. destruct (plain_slashed k Pk) as [-> _]. reflexivity. }
  destruct (conform (has (base t)) k Pk Hv) as (C1 & C2 & C3 & C4).
  assert (Lk2 : likeo C (chg t')).
  { intros q Pq. destruct (Lk q Pq) as [A1 A2]. destruct (Lk' q Pq) as [B1 B2]. split; [congruence|]. intros b. rewrite B2. apply A2. }
  assert (Hv' : same_contents (cvo C (has (base t'))) V).
  { intros q Pq. rewrite <- C1 by exact Pq. destruct C as [c|]; cbn [cvo]; [apply cv_ext; auto|auto]. }
  assert (O : o = []).
  { apply (tells_same V). eapply tells_ext; [| |exact T]; intros q Pq; unfold view; [rewrite (proj2 (Lk q Pq)); apply Hv, Pq|rewrite (proj2 (Lk2 q Pq)); apply Hv', Pq]. }
  subst o. rewrite app_nil_r. split; [split; [split; [exact I'|split; [exact Lk2|exact Hv']]|split; [reflexivity|]]|split].
  - intros q Pq Eq. cbn [fst]. rewrite E' by exact Pq. apply C2; auto.
  - rewrite E' by exact Pk. exact C3.
  - intros En q Pq. rewrite E' by (apply Forall_app; auto). apply C4; auto.
Qed.
(** A loop of steps, each of which gets some keys right. *)
Lemma fold_next {X} (f : txn * list notif -> X -> txn * list notif) (R : X -> key -> Prop) : forall l x, F x ->
  (forall a x, In a l -> F x -> next x (f x a) /\ forall q, Forall plain q -> R a q -> has (base (fst (f x a))) q = V q) ->
  next x (fold_left f l x) /\ forall a q, In a l -> Forall plain q -> R a q -> has (base (fst (fold_left f l x))) q = V q.
Proof.
  induction l as [|a l IH]; intros x Hx H; cbn [fold_left].
  - split; [apply next_refl, Hx|]. intros a q [].
  - destruct (H a x (or_introl eq_refl) Hx) as [N1 R1]. destruct (IH (f x a) ltac:(apply N1)) as [N2 R2]; [intros b y Hb; apply H; right; exact Hb|].
    split; [eapply next_trans; eauto|]. intros b q [<-|Hb] Pq Hr; [|eauto]. apply N2; [exact Pq|]. apply R1; auto.
Qed.
Lemma app_one_plain k s : Forall plain k -> plain s -> Forall plain (k ++ [s]).
Proof. intros. apply Forall_app. auto. Qed.

Lemma apply_values_ok : forall tr x k, F x -> Forall plain k -> WF tr -> (forall q, Forall plain q -> V (k ++ q) = lk tr q) ->
  next x (apply_values x tr k) /\ forall q, Forall plain q -> has (base (fst (apply_values x tr k))) (k ++ q) = V (k ++ q).
Proof.
  induction tr as [k0 w ch IH] using tree_ind2. intros x k Fx Pk W Hv. cbn [apply_values]. pose proof (WF_inv _ W) as (Pch & Nch & Wch). cbn [tch] in Pch, Nch, Wch.
  assert (Vk : Some w = V k) by (specialize (Hv [] (Forall_nil _)); rewrite app_nil_r in Hv; rewrite Hv; reflexivity).
  destruct (base_set_next x k (Some w) Fx Pk Vk) as (N1 & H1 & _). set (x1 := base_set x k (Some w)) in *. clearbody x1.
  assert (Vs : forall s r, Forall plain (s :: r) -> V (k ++ s :: r) = match child ch s with Some d => lk d r | None => None end) by (intros s r P; rewrite Hv by exact P; reflexivity).
  assert (S2 : exists x2, (match titer (base (fst x1)) k with None => x1
      | Some l => fold_left (fun x j => match findchild (Node k0 w ch) (fst j) with None => base_set x (k ++ [fst j]) None | Some _ => x end) l x1 end) = x2 /\
      next x1 x2 /\ forall s r, Forall plain (s :: r) -> child ch s = None -> has (base (fst x2)) (k ++ s :: r) = V (k ++ s :: r)).
  { eexists. split; [reflexivity|]. destruct N1 as (F1 & _). pose proof (proj1 (proj1 F1)) as Wg. pose proof (base_node_ok (base (fst x1)) k Wg Pk) as Bn.
    unfold titer, base_node, below in *. destruct (root (base (fst x1))) as [tb|] eqn:Er.
    2:{ split; [apply next_refl, F1|]. intros s r P Ec. rewrite Bn by exact P. rewrite Vs by exact P. rewrite Ec. reflexivity. }
    destruct (find tb k) as [n|]; cbv beta iota zeta.
    2:{ split; [apply next_refl, F1|]. intros s r P Ec. rewrite Bn by exact P. rewrite Vs by exact P. rewrite Ec. reflexivity. }
    destruct Bn as [Wn En]. pose proof (WF_inv _ Wn) as (Pn & _).
    destruct (fold_next (X := bytes * bytes) (fun x j => match findchild (Node k0 w ch) (fst j) with None => base_set x (k ++ [fst j]) None | Some _ => x end)
      (fun j q => findchild (Node k0 w ch) (fst j) = None /\ exists r, Forall plain r /\ q = k ++ fst j :: r) (map (fun c => (tkey c, tval c)) (tch n)) x1 F1) as [N2 R2].
    - intros [s0 w0] y Hin Fy. cbn [fst]. apply in_map_iff in Hin. destruct Hin as (c & Ec & Hc). injection Ec as <- <-. rewrite Forall_forall in Pn. specialize (Pn c Hc).
      unfold findchild. rewrite isempty_plain by exact Pn. cbn [tch]. destruct (child ch (tkey c)) as [d|] eqn:Ed.
      + split; [apply next_refl, Fy|]. intros q Pq [Ef _]. discriminate.
      + assert (Vn : None = V (k ++ [tkey c])) by (rewrite Vs by auto; rewrite Ed; reflexivity).
        destruct (base_set_next y (k ++ [tkey c]) None Fy (app_one_plain _ _ Pk Pn) Vn) as (A1 & _ & A3). split; [exact A1|].
        intros q Pq [_ (r & Pr & ->)]. specialize (A3 (eq_sym Vn) r Pr). rewrite <- app_assoc in A3. exact A3.
    - split; [exact N2|]. intros s r P Ec. pose proof (Forall_inv P) as Ps. pose proof (Forall_inv_tail P) as Pr. destruct (child (tch n) s) as [c|] eqn:Ecn.
      + destruct (child_key n c s Wn Ps Ecn) as (Pc & _ & Tc). pose proof (child_In _ _ _ Ecn) as Hin.
        assert (Sm : same (k ++ s :: r) (k ++ tkey c :: r) = true).
        { apply same_lows. rewrite !lows_app. f_equal. unfold lows. cbn [map]. f_equal. symmetry. apply teq_spec. exact Tc. }
        assert (Pks : Forall plain (k ++ s :: r)) by (apply Forall_app; auto). assert (Pkc : Forall plain (k ++ tkey c :: r)) by (apply Forall_app; split; [exact Pk|constructor; auto]).
        rewrite (Vl _ _ Pks Pkc Sm). rewrite (has_low' _ (proj1 (proj1 (proj1 N2))) _ _ Pks Pkc Sm).
        apply (R2 (tkey c, tval c)); [apply in_map_iff; exists c; auto|exact Pkc|]. cbn [fst]. split; [|exists r; auto].
        unfold findchild. rewrite isempty_plain by exact Pc. cbn [tch]. pose proof (child_same (Node k0 w ch) (tkey c) s W Pc Ps Tc) as Cs. cbn [tch] in Cs. rewrite <- Cs. exact Ec.
      + apply N2; [apply Forall_app; auto|]. rewrite En by exact P. rewrite Vs by exact P. rewrite Ec. cbn [lk]. rewrite Ecn. reflexivity. }
  destruct S2 as (x2 & -> & N2 & H2).
  destruct (fold_next (fun x d => apply_values x d (k ++ [tkey d])) (fun d q => exists r, Forall plain r /\ q = k ++ tkey d :: r) ch x2 ltac:(apply N2)) as [N3 R3].
  { intros d y Hd Fy. rewrite Forall_forall in IH, Pch, Wch. destruct (IH d Hd y (k ++ [tkey d]) Fy (app_one_plain _ _ Pk (Pch d Hd)) (Wch d Hd)) as [A1 A2].
    - intros q Pq. rewrite <- app_assoc. cbn [app]. rewrite Vs by (constructor; auto). pose proof (child_self (Node k0 w ch) d W Hd) as Cs. cbn [tch] in Cs. rewrite Cs. reflexivity.
    - split; [exact A1|]. intros q Pq (r & Pr & ->). specialize (A2 r Pr). rewrite <- app_assoc in A2. exact A2. }
  split; [eapply next_trans; [exact N1|]; eapply next_trans; eauto|]. intros [|s r] P.
  - rewrite app_nil_r. apply N3; [exact Pk|]. apply N2; [exact Pk|exact H1].
  - pose proof (Forall_inv P) as Ps. pose proof (Forall_inv_tail P) as Pr. destruct (child ch s) as [d|] eqn:Ed; [|apply N3; [apply Forall_app; auto|auto]].
    destruct (child_key (Node k0 w ch) d s W Ps Ed) as (Pd & _ & Td).
    assert (Sm : same (k ++ s :: r) (k ++ tkey d :: r) = true).
    { apply same_lows. rewrite !lows_app. f_equal. unfold lows. cbn [map]. f_equal. symmetry. apply teq_spec. exact Td. }
    assert (Pks : Forall plain (k ++ s :: r)) by (apply Forall_app; auto). assert (Pkc : Forall plain (k ++ tkey d :: r)) by (apply Forall_app; split; [exact Pk|constructor; auto]).
    rewrite (Vl _ _ Pks Pkc Sm). rewrite (has_low' _ (proj1 (proj1 (proj1 N3))) _ _ Pks Pkc Sm). apply (R3 d); [eapply child_In, Ed|exact Pkc|]. exists r. auto.
Qed.
Lemma apply_changes_ok : forall c x p b0, F x -> Forall plain p -> WF c -> MW b0 c ->
  (forall b q, Forall plain q -> cvo C b (p ++ q) = cv c (fun r => b (p ++ r)) q) ->
  next x (apply_changes x c p) /\ forall q, Forall plain q -> has (base (fst (apply_changes x c p))) (p ++ q) = V (p ++ q).
Proof.
  induction c as [k0 m ch IH] using tree_ind2. intros x p b0 Fx Pp W M Hc. pose proof (MW_inv _ _ M) as (A & _ & _ & Mc). cbn [tval tch] in A, Mc.
  pose proof (WF_inv _ W) as (Pch & Nch & Wch). cbn [tch] in Pch, Nch, Wch.
  assert (Vp : forall y q, F y -> Forall plain q -> V (p ++ q) = cv (Node k0 m ch) (fun r => has (base (fst y)) (p ++ r)) q).
  { intros y q (_ & _ & Hy) Pq. rewrite <- Hy by (apply Forall_app; auto). apply Hc, Pq. }
  destruct (match m with NewTree _ => true | _ => false end) eqn:Em.
  { destruct m as [|t| |]; try discriminate. destruct (A t eq_refl) as [-> Wt]. cbn [apply_changes]. destruct t as [t|].
    - apply apply_values_ok; auto. intros q Pq. rewrite (Vp x q Fx Pq). destruct q; reflexivity.
    - assert (Vn : None = V p) by (rewrite <- (app_nil_r p), (Vp x [] Fx (Forall_nil _)); reflexivity).
      destruct (base_set_next x p None Fx Pp Vn) as (A1 & _ & A3). split; [exact A1|]. intros q Pq. apply A3; auto. }
  assert (Nt : notree m) by (destruct m; [exact I|discriminate|exact I|exact I]).
  set (x1 := match m with NewValue v => base_set x p (Some v) | NewNode _ => if exists_ (base (fst x)) p then x else base_set x p (Some []) | _ => x end).
  assert (S1 : next x x1 /\ (m <> Blank -> has (base (fst x1)) p = V p)).
  { pose proof (Vp x [] Fx (Forall_nil _)) as V0. rewrite app_nil_r in V0. unfold x1. destruct m as [w|t|w|]; [| elim Nt | |].
    - destruct (base_set_next x p (Some w) Fx Pp (eq_sym V0)) as (A1 & A2 & _). auto.
    - unfold exists_. rewrite tget_below by exact Pp. unfold below. rewrite app_nil_r. cbn [cv tval] in V0. rewrite app_nil_r in V0. destruct (has (base (fst x)) p) as [u|] eqn:Eh; cbn [isnull negb].
      + split; [apply next_refl, Fx|]. intros _. congruence.
      + destruct (base_set_next x p (Some []) Fx Pp (eq_sym V0)) as (A1 & A2 & _). auto.
    - split; [apply next_refl, Fx|]. congruence. }
  destruct S1 as [N1 H1].
  assert (Ea : apply_changes x (Node k0 m ch) p = fold_left (fun x d => apply_changes x d (p ++ [tkey d])) ch x1) by (unfold x1; destruct m; try reflexivity; elim Nt).
  rewrite Ea. clear Ea.
  destruct (fold_next (fun x d => apply_changes x d (p ++ [tkey d])) (fun d q => exists r, Forall plain r /\ q = p ++ tkey d :: r) ch x1 ltac:(apply N1)) as [N3 R3].
  { intros d y Hd Fy. rewrite Forall_forall in IH, Pch, Wch, Mc. destruct (IH d Hd y (p ++ [tkey d]) (sub b0 (tkey d)) Fy (app_one_plain _ _ Pp (Pch d Hd)) (Wch d Hd) (Mc d Hd)) as [A1 A2].
    - intros b q Pq. rewrite <- app_assoc. cbn [app]. rewrite Hc by (constructor; auto). rewrite cv_cons by exact Nt.
      pose proof (child_self (Node k0 m ch) d W Hd) as Cs. cbn [tch] in Cs. rewrite Cs. apply cv_ext; [exact Pq|]. intros r _. rewrite <- app_assoc. reflexivity.
    - split; [exact A1|]. intros q Pq (r & Pr & ->). specialize (A2 r Pr). rewrite <- app_assoc in A2. exact A2. }
  split; [eapply next_trans; eauto|]. set (x' := fold_left (fun x d => apply_changes x d (p ++ [tkey d])) ch x1) in *. assert (F' : F x') by apply N3. intros [|s r] P.
  - rewrite app_nil_r. destruct m as [w|t|w|]; try (apply N3; [exact Pp|apply H1; discriminate]).
    pose proof (Vp x' [] F' (Forall_nil _)) as V0. rewrite app_nil_r in V0. rewrite V0. cbn [cv tval]. rewrite app_nil_r. reflexivity.
  - pose proof (Forall_inv P) as Ps. pose proof (Forall_inv_tail P) as Pr. destruct (child ch s) as [d|] eqn:Ed.
    + destruct (child_key (Node k0 m ch) d s W Ps Ed) as (Pd & _ & Td).
      assert (Sm : same (p ++ s :: r) (p ++ tkey d :: r) = true).
      { apply same_lows. rewrite !lows_app. f_equal. unfold lows. cbn [map]. f_equal. symmetry. apply teq_spec. exact Td. }
      assert (Pks : Forall plain (p ++ s :: r)) by (apply Forall_app; auto). assert (Pkc : Forall plain (p ++ tkey d :: r)) by (apply Forall_app; split; [exact Pp|constructor; auto]).
      rewrite (Vl _ _ Pks Pkc Sm). rewrite (has_low' _ (proj1 (proj1 F')) _ _ Pks Pkc Sm). apply (R3 d); [eapply child_In, Ed|exact Pkc|]. exists r. auto.
    + rewrite (Vp x' (s :: r) F' P). rewrite cv_cons, Ed by exact Nt. reflexivity.
Qed.
End Commit.
Lemma xcommit_ok t t' n : INV t -> xcommit t = (t', n) -> INV t' /\ same_contents (has (base t')) (view t) /\ chg t' = None /\ n = [].
Proof.
  intros Hi. unfold xcommit. destruct (chg t) as [c|] eqn:Ec.
  - destruct (apply_changes (t, []) c []) as [t1 n1] eqn:Ea. intros H. injection H as <- <-. cbn [base chg]. pose proof Hi as [Wg Hc]. rewrite Ec in Hc. destruct Hc as [Wc Mc].
    assert (Fx : F (Some c) (view t) (t, [])).
    { split; [exact Hi|]. cbn [fst]. split; [intros q Pq; rewrite Ec; split; reflexivity|]. unfold view. rewrite Ec. intros q Pq. reflexivity. }
    destruct (apply_changes_ok (Some c) (view t) (view_closed t Hi) (view_low t Hi) c (t, []) [] (has (base t)) Fx (Forall_nil _) Wc Mc) as [(F' & S & _) H'].
    { intros b q Pq. reflexivity. }
    rewrite Ea in *. cbn [fst snd] in *. split; [split; [apply F'|exact I]|]. split; [exact H'|]. split; [reflexivity|exact S].
  - intros H. injection H as <- <-. split; [exact Hi|]. split; [|auto]. unfold view. rewrite Ec. intros q _. reflexivity.
Qed.
