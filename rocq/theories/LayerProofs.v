From Verif Require Import Base BaseFacts Ctype KeyModel KeySpec KeyProofs TempModel TempSpec TreeProofs TempProofs LayerModel LayerSpec.
Local Open Scope nat_scope.

Lemma f2len {A B} (R : A -> B -> Prop) l l' : Forall2 R l l' -> length l = length l'.
Proof. induction 1; cbn; congruence. Qed.
Definition okl (l : list gen) : Prop := Forall (fun g => WFo (root g)) l.
Fixpoint lhas (l : list gen) (k : key) : option bytes :=
  match l with [] => None | g :: r => match has g k with None => lhas r k | Some v => Some v end end.
Lemma lget_lhas l k : canonical k -> lget l k = if slashed k then None else lhas l k.
Proof.
  intros C. induction l as [|g l IH]; cbn [lget lhas]; [destruct (slashed k); reflexivity|]. rewrite tget_has by exact C. destruct (slashed k); [exact IH|]. rewrite IH. reflexivity.
Qed.
Lemma lget_plain l k : Forall plain k -> lget l k = lhas l k.
Proof. intros P. rewrite lget_lhas by (left; exact P). destruct (plain_slashed _ P) as [-> _]. reflexivity. Qed.
Lemma lhas_stacked l k : lhas l k = stacked (map has l) k.
Proof. induction l as [|g l IH]; [reflexivity|]. cbn [lhas map stacked]. rewrite IH. destruct (has g k); reflexivity. Qed.
Lemma lhas_app a b k : lhas (a ++ b) k = match lhas a k with Some v => Some v | None => lhas b k end.
Proof. induction a as [|g a IH]; [reflexivity|]. cbn [app lhas]. rewrite IH. destruct (has g k); reflexivity. Qed.
Lemma lhas_low l k k' : okl l -> Forall plain k -> Forall plain k' -> same k k' = true -> lhas l k = lhas l k'.
Proof.
  intros O P P' S. induction l as [|g l IH]; [reflexivity|]. cbn [lhas]. rewrite (has_low g k k') by (exact P || exact P' || exact S || exact (Forall_inv O)). rewrite IH by exact (Forall_inv_tail O). reflexivity.
Qed.
Lemma lexists_ok l k : lexists l k = match lget l k with Some _ => true | None => false end.
Proof. induction l as [|g l IH]; [reflexivity|]. cbn [lexists existsb lget] in *. unfold lexists in IH. rewrite IH. destruct (tget g k); reflexivity. Qed.

(** An observer's copy after the notifications of one generator *)
Lemma callback_replay l n m k : okl l -> (forall q w, In (q, w) n -> Forall plain q) -> Forall plain k ->
  replay (gencallback l n) m k = if existsb (fun x => same (fst x) k) n then lhas l k else m k.
Proof.
  intros O Pn P. revert m. induction n as [|[q w] n IH]; intros m; [reflexivity|]. cbn [gencallback map replay fold_left existsb fst] in *.
  change (replay (gencallback l n) (note m (q, lget l q)) k = if same q k || existsb (fun x => same (fst x) k) n then lhas l k else m k).
  rewrite IH by (intros q0 w0 H; apply (Pn q0 w0); right; exact H). destruct (existsb _ n); [rewrite orb_true_r; reflexivity|]. rewrite orb_false_r. unfold note. cbn [fst snd].
  pose proof (Pn q w (or_introl eq_refl)) as Pq. destruct (same q k) eqn:S; [|reflexivity]. rewrite lget_plain by exact Pq. apply lhas_low; assumption.
Qed.
Definition mirrors (m : contents) (l : list gen) : Prop := forall k, Forall plain k -> m k = lhas l k.
Lemma set_one_ok a g b kv g' n m : okl (a ++ g :: b) -> canonical (fst kv) -> set_one a g b kv = (g', n) -> mirrors m (a ++ g :: b) ->
  okl (a ++ g' :: b) /\ (forall k, Forall plain k -> has g' k = set_key (has g) kv k) /\ mirrors (replay n m) (a ++ g' :: b).
Proof.
  intros O C H M. unfold set_one in H. destruct kv as [k v]. cbn [fst snd] in *. destruct (tset g k v) as [g1 n1] eqn:E. injection H as <- <-.
  assert (Wg : WFo (root g)) by (unfold okl in O; rewrite Forall_app in O; exact (Forall_inv (proj2 O))).
  destruct (tset_ok _ _ _ _ _ Wg C E) as (W & Hc & [T A _] & _).
  assert (O' : okl (a ++ g1 :: b)) by (unfold okl in *; rewrite Forall_app in *; destruct O as [Oa Ob]; split; [exact Oa|constructor; [exact W|exact (Forall_inv_tail Ob)]]).
  split; [exact O'|]. split; [exact Hc|]. intros q P. rewrite callback_replay; [|exact O'|intros q0 w H; apply (T q0 w H)|exact P].
  destruct (existsb (fun x => same (fst x) q) n1) eqn:Ex; [reflexivity|]. rewrite M by exact P. rewrite !lhas_app. cbn [lhas].
  assert (Eq : has g q = has g1 q).
  { destruct (option_eq_dec (list_eq_dec ascii_dec) (has g q) (has g1 q)) as [Eq|Ne]; [exact Eq|]. destruct (A q P Ne) as (q0 & w & Hi & S).
    assert (existsb (fun x => same (fst x) q) n1 = true) by (apply existsb_exists; exists (q0, w); auto). congruence. }
  rewrite Eq. reflexivity.
Qed.
Lemma setv_one_ok a b kvs : forall g g' n m, okl (a ++ g :: b) -> Forall (fun kv => canonical (fst kv)) kvs -> setv_one a g b kvs = (g', n) -> mirrors m (a ++ g :: b) ->
  okl (a ++ g' :: b) /\ (forall k, Forall plain k -> has g' k = fold_left set_key kvs (has g) k) /\ mirrors (replay n m) (a ++ g' :: b).
Proof.
  induction kvs as [|kv kvs IH]; intros g g' n m O C H M; cbn [setv_one] in H.
  - injection H as <- <-. split; [exact O|]. split; [intros k _; reflexivity|exact M].
  - destruct (set_one a g b kv) as [g1 n1] eqn:E1. destruct (setv_one a g1 b kvs) as [g2 n2] eqn:E2. injection H as <- <-.
    destruct (set_one_ok a g b kv g1 n1 m O (Forall_inv C) E1 M) as (O1 & H1 & M1). destruct (IH g1 g2 n2 _ O1 (Forall_inv_tail C) E2 M1) as (O2 & H2 & M2).
    split; [exact O2|]. split.
    + intros k P. rewrite H2 by exact P. cbn [fold_left]. apply sets_ext; [exact H1|exact P].
    + intros k P. rewrite replay_app. apply M2, P.
Qed.
Lemma setv_loop_ok kvs : Forall (fun kv => canonical (fst kv)) kvs -> forall l a l' n m, okl (a ++ l) -> setv_loop a l kvs = (l', n) -> mirrors m (a ++ l) ->
  okl l' /\ (exists l2, l' = a ++ l2 /\ Forall2 (fun g g' => forall k, Forall plain k -> has g' k = fold_left set_key kvs (has g) k) l l2) /\ mirrors (replay n m) l'.
Proof.
  intros C. induction l as [|g l IH]; intros a l' n m O H M; cbn [setv_loop] in H.
  - injection H as <- <-. rewrite app_nil_r in *. split; [exact O|]. split; [exists []; rewrite app_nil_r; auto|exact M].
  - destruct (setv_one a g l kvs) as [g1 n1] eqn:E1. destruct (setv_loop (a ++ [g1]) l kvs) as [l2 n2] eqn:E2. injection H as <- <-.
    destruct (setv_one_ok a l kvs g g1 n1 m O C E1 M) as (O1 & H1 & M1).
    destruct (IH (a ++ [g1]) l2 n2 (replay n1 m)) as (O2 & (l3 & -> & F) & M2); [rewrite <- app_assoc; exact O1|exact E2|rewrite <- app_assoc; exact M1|].
    split; [exact O2|]. split; [exists (g1 :: l3); rewrite <- app_assoc; split; [reflexivity|constructor; assumption]|]. intros k P. rewrite replay_app. apply M2, P.
Qed.
Definition event_ok (e : levent) : Prop :=
  match e with LSet kvs => Forall (fun kv => canonical (fst kv)) kvs | LInner k _ => canonical k end.
Lemma lhistory_ok l es ns l' : lhistory l es ns l' -> forall m, okl l -> Forall event_ok es -> mirrors m l -> okl l' /\ length l' = length l /\ mirrors (replay ns m) l'.
Proof.
  induction 1 as [l|l kvs l1 n es ns l' Hs H IH|a g b k v g1 n es ns l' Hs H IH|a t t' d b es ns l' Hs H IH]; intros m O C M.
  - auto.
  - destruct (setv_loop_ok kvs (Forall_inv C) l [] l1 n m O Hs M) as (O1 & (l2 & -> & F) & M1). destruct (IH _ O1 (Forall_inv_tail C) M1) as (O' & Le & M').
    split; [exact O'|]. split; [rewrite Le; cbn [app]; symmetry; exact (f2len _ _ _ F)|]. intros q P. rewrite replay_app. apply M', P.
  - destruct (set_one_ok a g b (k, v) g1 n m O (Forall_inv C) Hs M) as (O1 & _ & M1). destruct (IH _ O1 (Forall_inv_tail C) M1) as (O' & Le & M').
    split; [exact O'|]. split; [rewrite Le, !app_length; reflexivity|]. intros q P. rewrite replay_app. apply M', P.
  - assert (W : WF t) by (unfold okl in O; rewrite Forall_app in O; exact (Forall_inv (proj2 O))). destruct (shuffle_ok t t' Hs W) as (W1 & _ & _ & L).
    destruct (IH m) as (O' & Le & M').
    + unfold okl in *. rewrite Forall_app in *. destruct O as [Oa Ob]. split; [exact Oa|constructor; [exact W1|exact (Forall_inv_tail Ob)]].
    + exact C.
    + intros q P. rewrite M by exact P. rewrite !lhas_app. cbn [lhas]. change (has {| root := Some t'; dirty := d |} q) with (lk t' q). change (has {| root := Some t; dirty := d |} q) with (lk t q). rewrite L by exact P. reflexivity.
    + split; [exact O'|]. split; [rewrite Le, !app_length; reflexivity|exact M'].
Qed.
Lemma okl_init l : Forall (eq tinit) l -> okl l.
Proof. intros H. eapply Forall_impl; [|exact H]. intros g <-. exact I. Qed.

(** ** Iteration *)
Lemma seen_in d s : Forall plain d -> plain s -> existsb (fun x => same_seg x s) d = true <-> In (low s) (map low d).
Proof.
  intros Pd P. rewrite existsb_exists, in_map_iff. rewrite Forall_forall in Pd. split.
  - intros (x & Hx & S). exists x. split; [|exact Hx]. rewrite same_seg_teq in S by (apply plain_nulf; auto). apply teq_spec, S.
  - intros (x & E & Hx). exists x. split; [exact Hx|]. rewrite same_seg_teq by (apply plain_nulf; auto). apply teq_spec, E.
Qed.
Definition nm (x : bytes * bytes) : bytes := low (fst x).
Lemma iter_one_ok : forall its d o d', Forall plain d -> Forall (fun x => plain (fst x)) its -> NoDup (map nm its) -> iter_one d its = (o, d') ->
  Forall plain d' /\ NoDup (map nm o) /\ (forall x, In x o <-> In x its /\ ~ In (nm x) (map low d)) /\ (forall s, In s (map low d') <-> In s (map low d) \/ In s (map nm its)).
Proof.
  induction its as [|x its IH]; intros d o d' Pd Pi N H; cbn [iter_one] in H.
  - injection H as <- <-. split; [exact Pd|]. split; [constructor|]. split; [intros y; cbn; tauto|]. intros s. cbn. tauto.
  - pose proof (Forall_inv Pi) as Px. pose proof (Forall_inv_tail Pi) as Pi'. inversion N as [|? ? Nx N']; subst.
    destruct (existsb (fun s => same_seg s (fst x)) d) eqn:E.
    + apply seen_in in E; [|exact Pd|exact Px]. destruct (IH d o d' Pd Pi' N' H) as (H1 & H2 & H3 & H4). split; [exact H1|]. split; [exact H2|]. split.
      * intros y. rewrite H3. cbn [In]. split; [tauto|]. intros [[<-|Hy] Hn]; [contradiction|tauto].
      * intros s. rewrite H4. cbn [map In]. split; [tauto|]. intros [Hs|[<-|Hs]]; [tauto|left; exact E|tauto].
    + assert (Nd : ~ In (nm x) (map low d)) by (intros Hi; apply seen_in in Hi; [congruence|exact Pd|exact Px]).
      destruct (iter_one (d ++ [fst x]) its) as [o1 d1] eqn:E1. injection H as <- <-.
      destruct (IH (d ++ [fst x]) o1 d1) as (H1 & H2 & H3 & H4); [apply Forall_app; auto|exact Pi'|exact N'|exact E1|].
      assert (Hd : forall s, In s (map low (d ++ [fst x])) <-> In s (map low d) \/ nm x = s) by (intros s; rewrite map_app, in_app_iff; cbn; tauto).
      split; [exact H1|]. split; [|split].
      * cbn [map]. constructor; [|exact H2]. intros Hi. apply in_map_iff in Hi. destruct Hi as (y & Ey & Hy). apply H3 in Hy. apply (proj2 Hy). apply Hd. right. symmetry. exact Ey.
      * intros y. cbn [In]. rewrite H3, Hd. split.
        -- intros [<-|[Hy Hn]]; [split; [left; reflexivity|exact Nd]|]. split; [right; exact Hy|]. tauto.
        -- intros [[<-|Hy] Hn]; [left; reflexivity|]. right. split; [exact Hy|]. intros [Hi|Ei]; [contradiction|]. apply Nx. rewrite Ei. apply in_map. exact Hy.
      * intros s. rewrite H4, Hd. cbn [map In]. tauto.
Qed.
Lemma iter_all_ok : forall its d, Forall plain d -> Forall (fun i => Forall (fun x => plain (fst x)) i /\ NoDup (map nm i)) its ->
  let o := iter_all d its in
  NoDup (map nm o) /\ forall x, In x o <-> ~ In (nm x) (map low d) /\ exists a i b, its = a ++ i :: b /\ In x i /\ forall j, In j a -> ~ In (nm x) (map nm j).
Proof.
  induction its as [|i its IH]; intros d Pd F; cbn [iter_all]; cbv zeta.
  - split; [constructor|]. intros x. split; [intros []|]. intros (_ & a & i & b & E & _). destruct a; discriminate.
  - destruct (Forall_inv F) as [Pi Ni]. destruct (iter_one d i) as [o1 d1] eqn:E1. destruct (iter_one_ok i d o1 d1 Pd Pi Ni E1) as (Pd1 & N1 & H1 & D1).
    destruct (IH d1 Pd1 (Forall_inv_tail F)) as (N2 & H2). split.
    + rewrite map_app. apply NoDup_app_intro; [exact N1|exact N2|]. intros s I1 I2. apply in_map_iff in I1, I2. destruct I1 as (x & <- & Hx), I2 as (y & Ey & Hy).
      apply H1 in Hx. apply H2 in Hy. apply (proj1 Hy). rewrite Ey. apply D1. right. apply in_map, Hx.
    + intros x. rewrite in_app_iff, H1, H2. split.
      * intros [[Hx Hn]|(Hn & a & j & b & -> & Hx & Ha)].
        -- split; [exact Hn|]. exists [], i, its. split; [reflexivity|]. split; [exact Hx|]. intros j [].
        -- split; [intros Hi; apply Hn, D1; left; exact Hi|]. exists (i :: a), j, b. split; [reflexivity|]. split; [exact Hx|]. intros j' [<-|Hj]; [intros Hi; apply Hn, D1; right; exact Hi|apply Ha, Hj].
      * intros (Hn & a & j & b & E & Hx & Ha). destruct a as [|i' a]; injection E as -> ->; [left; auto|]. right. split.
        -- intros Hi. apply D1 in Hi. destruct Hi as [Hi|Hi]; [contradiction|]. apply (Ha i' (or_introl eq_refl) Hi).
        -- exists a, j, b. split; [reflexivity|]. split; [exact Hx|]. intros j' Hj. apply Ha. right. exact Hj.
Qed.
(** what one generator lists *)
Lemma titer_ok g k : WFo (root g) -> canonical k ->
  match titer g k with
  | None => forall s, plain s -> has g (named k ++ [s]) = None
  | Some i => Forall (fun x => plain (fst x)) i /\ NoDup (map nm i) /\ forall s v, plain s -> has g (named k ++ [s]) = Some v <-> exists s0, In (s0, v) i /\ teq s0 s = true
  end.
Proof.
  intros W C. unfold titer, has. destruct (root g) as [t|]; [|intros; reflexivity]. pose proof (find_lk t k (or_introl C)) as F. cbn [lko]. destruct (find t k) as [n|].
  - destruct F as (_ & Wn & F). specialize (Wn W). pose proof (WF_inv _ Wn) as (P & N & _). split; [rewrite Forall_map; exact P|]. split; [rewrite map_map; exact N|].
    intros s v Ps. rewrite F. apply children_ok; assumption.
  - intros s _. apply F.
Qed.
Lemma liter_ok l k : okl l -> canonical k -> let o := liter l k in
  NoDup (map nm o) /\ Forall (fun x => plain (fst x)) o /\ forall s v, plain s -> lhas l (named k ++ [s]) = Some v <-> exists s0, In (s0, v) o /\ teq s0 s = true.
Proof.
  intros O C. cbv zeta. unfold liter. set (its := flat_map (fun g => match titer g k with Some i => [i] | None => [] end) l).
  assert (F : Forall (fun i => Forall (fun x => plain (fst x)) i /\ NoDup (map nm i)) its).
  { apply Forall_forall. intros i Hi. apply in_flat_map in Hi. destruct Hi as (g & Hg & Hi). unfold okl in O. rewrite Forall_forall in O. pose proof (titer_ok g k (O g Hg) C) as T. destruct (titer g k); [|contradiction].
    destruct Hi as [<-|[]]. tauto. }
  destruct (iter_all_ok its [] (Forall_nil _) F) as (N & H). split; [exact N|]. split.
  { apply Forall_forall. intros x Hx. apply H in Hx. destruct Hx as (_ & a & i & b & E & Hx & _). rewrite Forall_forall in F. assert (Hi : In i its) by (rewrite E; apply in_app_iff; right; left; reflexivity).
    destruct (F i Hi) as [Pi _]. rewrite Forall_forall in Pi. apply Pi, Hx. }
  clear N F. assert (H' : forall s v, plain s -> (exists s0, In (s0, v) (iter_all [] its) /\ teq s0 s = true) <->
    exists s0 a i b, its = a ++ i :: b /\ In (s0, v) i /\ teq s0 s = true /\ forall j, In j a -> ~ In (low s) (map nm j)).
  { intros s v Ps. split.
    - intros (s0 & Hi & T). apply H in Hi. destruct Hi as (_ & a & i & b & E & Hx & Ha). exists s0, a, i, b. split; [exact E|]. split; [exact Hx|]. split; [exact T|]. apply teq_spec in T. rewrite <- T. exact Ha.
    - intros (s0 & a & i & b & E & Hx & T & Ha). exists s0. split; [|exact T]. apply H. split; [intros []|]. exists a, i, b. split; [exact E|]. split; [exact Hx|]. apply teq_spec in T. unfold nm. cbn [fst]. rewrite T. exact Ha. }
  intros s v Ps. rewrite H' by exact Ps. clear H H'. subst its. induction l as [|g l IH]; cbn [lhas flat_map].
  - split; [discriminate|]. intros (s0 & a & i & b & E & _). destruct a; discriminate.
  - pose proof (titer_ok g k (Forall_inv O) C) as T. specialize (IH (Forall_inv_tail O)). destruct (titer g k) as [i|]; cbn [app].
    + destruct T as (Pi & Ni & T). destruct (has g (named k ++ [s])) as [w|] eqn:Eh.
      * pose proof (proj1 (T s w Ps) Eh) as (s0 & Hi & Ts). split.
        -- intros X. injection X as <-. exists s0, [], i, (flat_map (fun g => match titer g k with Some i => [i] | None => [] end) l). split; [reflexivity|]. split; [exact Hi|]. split; [exact Ts|]. intros j [].
        -- intros (s1 & a & j & b & E & Hj & T1 & Ha). destruct a as [|i' a].
           ++ injection E as -> E. pose proof (proj2 (T s v Ps) (ex_intro _ s1 (conj Hj T1))) as X. congruence.
           ++ injection E as -> E. exfalso. apply (Ha i' (or_introl eq_refl)). apply in_map_iff. exists (s0, w). split; [apply teq_spec; exact Ts|exact Hi].
      * rewrite IH. split.
        -- intros (s1 & a & j & b & E & Hj & T1 & Ha). exists s1, (i :: a), j, b. split; [cbn [app]; f_equal; exact E|]. split; [exact Hj|]. split; [exact T1|]. intros j' [<-|Hj']; [|apply Ha, Hj'].
           intros X. apply in_map_iff in X. destruct X as ([s2 w] & X & Hi). assert (has g (named k ++ [s]) = Some w) by (apply T; [exact Ps|]; exists s2; split; [exact Hi|apply teq_spec; exact X]). congruence.
        -- intros (s1 & a & j & b & E & Hj & T1 & Ha). destruct a as [|i' a]; injection E as -> E.
           ++ pose proof (proj2 (T s v Ps) (ex_intro _ s1 (conj Hj T1))) as X. congruence.
           ++ exists s1, a, j, b. split; [exact E|]. split; [exact Hj|]. split; [exact T1|]. intros j' Hj'. apply Ha. right. exact Hj'.
    + rewrite (T s Ps). exact IH.
Qed.
