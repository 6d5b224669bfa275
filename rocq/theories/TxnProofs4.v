From Coq Require Import Permutation.
From Verif Require Import Base BaseFacts Ctype KeyModel KeySpec KeyProofs TempModel TempSpec TreeProofs TempProofs TxnModel TxnSpec TxnProofs TxnProofs2 TxnProofs3.
Local Open Scope nat_scope.

(** ** Refresh *)
Lemma tells_flat m m' (L : list (bytes * list notif)) : low_inv m -> low_inv m' -> Forall (fun x => plain (fst x)) L -> NoDup (map low (map fst L)) ->
  (forall s n, In (s, n) L -> tells (sub m s) (sub m' s) n) ->
  (forall s r, plain s -> Forall plain r -> m (s :: r) <> m' (s :: r) -> exists s' n, In (s', n) L /\ teq s' s = true) ->
  m [] = m' [] -> tells m m' (flat_map (fun x => pre [fst x] (snd x)) L).
Proof.
  intros Lw Lw' P N T C M0. split.
  - intros k v H. apply in_flat_map in H. destruct H as ([s n] & Hs & H). unfold pre in H. apply in_map_iff in H. destruct H as ([q w] & E & H). cbn in E. injection E as <- <-.
    destruct (T s n Hs) as [T1 _ _]. destruct (T1 q w H) as (Pq & <- & Nq). rewrite Forall_forall in P. specialize (P _ Hs). split; [constructor; auto|]. auto.
  - intros [|s r] Pk D; [elim D; exact M0|].
    pose proof (Forall_inv Pk) as Ps. pose proof (Forall_inv_tail Pk) as Pr. destruct (C s r Ps Pr D) as (s' & n & Hi & E).
    destruct (T s' n Hi) as [_ A _]. rewrite Forall_forall in P. pose proof (P _ Hi) as Ps'. cbn in Ps'.
    assert (Sm : same (s :: r) (s' :: r) = true) by (rewrite same_cons, teq_sym, E, same_refl; reflexivity).
    rewrite (Lw (s :: r) (s' :: r)) in D by (auto; constructor; auto). rewrite (Lw' (s :: r) (s' :: r)) in D by (auto; constructor; auto).
    destruct (A r Pr D) as (q & w & Hq & Sq). exists (s' :: q), w. split.
    + apply in_flat_map. exists (s', n). split; [exact Hi|]. unfold pre. apply in_map_iff. exists (q, w). auto.
    + rewrite same_cons, E. exact Sq.
  - clear C M0. induction L as [|[s n] L IH]; [constructor|]. cbn [flat_map fst snd]. rewrite map_app. cbn [map fst] in N. inversion N as [|? ? N1 N2]; subst. apply NoDup_app_intro.
    + apply NoDup_prefix. destruct (T s n (or_introl eq_refl)). assumption.
    + apply IH; auto; [inversion P; assumption|]. intros s' n' H. apply T. right. exact H.
    + intros x H1 H2. apply N1. unfold pre in H1. rewrite map_map in H1. apply in_map_iff in H1. destruct H1 as (y1 & E1 & _). apply in_map_iff in H2. destruct H2 as (y2 & E2 & H2).
      apply in_flat_map in H2. destruct H2 as ([s2 n2] & Hs2 & H2). unfold pre in H2. apply in_map_iff in H2. destruct H2 as (y3 & <- & _).
      cbn in E1, E2. rewrite <- E1 in E2. injection E2 as E2 _. rewrite <- E2. apply in_map_iff. exists s2. split; [reflexivity|]. apply in_map_iff. exists (s2, n2). auto.
Qed.
Lemma flat_keys (L : list (bytes * list notif)) x : In x (flat_map (fun x => pre [fst x] (snd x)) L) -> exists s r, fst x = s :: r.
Proof. intros H. apply in_flat_map in H. destruct H as ([s n] & _ & H). unfold pre in H. apply in_map_iff in H. destruct H as (z & <- & _). eexists _, _. reflexivity. Qed.
Lemma tells_node m m' (L : list (bytes * list notif)) n1 n2 : low_inv m -> low_inv m' -> Forall (fun x => plain (fst x)) L -> NoDup (map low (map fst L)) ->
  (forall s n, In (s, n) L -> tells (sub m s) (sub m' s) n) ->
  (forall s r, plain s -> Forall plain r -> m (s :: r) <> m' (s :: r) -> exists s' n, In (s', n) L /\ teq s' s = true) ->
  (m [] = m' [] /\ n1 = [] /\ n2 = [] \/ m [] <> m' [] /\ (n1 = [([], m' [])] /\ n2 = [] \/ n1 = [] /\ n2 = [([], m' [])])) ->
  tells m m' (n1 ++ flat_map (fun x => pre [fst x] (snd x)) L ++ n2).
Proof.
  intros Lw Lw' P N T C [(E & -> & ->)|(E & [[-> ->]|[-> ->]])].
  - rewrite app_nil_r. apply tells_flat; assumption.
  - rewrite app_nil_r. set (m1 := fun k => match k with [] => m' [] | _ => m k end). apply (tells_app m m1 m').
    + apply (tells_one m m1); [reflexivity|exact E].
    + apply tells_flat; auto. intros [|s r] [|s' r'] Pk Pk' Sm; try reflexivity; try discriminate. apply (Lw (s :: r) (s' :: r')); auto.
    + intros x y [<-|[]] Hy. destruct (flat_keys L y Hy) as (s & r & ->). reflexivity.
  - cbn [app]. set (m1 := fun k => match k with [] => m [] | _ => m' k end). apply (tells_app m m1 m').
    + apply tells_flat; auto. intros [|s r] [|s' r'] Pk Pk' Sm; try reflexivity; try discriminate. apply (Lw' (s :: r) (s' :: r')); auto.
    + apply (tells_one m1 m'); [reflexivity|exact E].
    + intros x y Hx [<-|[]]. destruct (flat_keys L x Hx) as (s & r & ->). reflexivity.
Qed.
Lemma child_teq {V} (c d : tree V) s s' : WF c -> plain s -> plain s' -> teq s s' = true -> child (tch c) s = child (tch c) s'.
Proof. intros W P P' E. symmetry. apply child_same; auto. Qed.

Lemma cancel_values_ok : forall b new p, WF b -> WFo new -> exists n', cancel_values new b p = pre p n' /\ tells (lko new) (lk b) n'.
Proof.
  induction b as [k0 v ch IH] using tree_ind2. intros new p W Wn. pose proof (WF_inv _ W) as (Pch & Nch & Wch). cbn [tch] in Pch, Nch, Wch.
  set (nch := match new with Some t => tch t | None => [] end).
  assert (Hn : forall s, match new with Some t => child (tch t) s | None => None end = child nch s) by (intros s; unfold nch; destruct new; reflexivity).
  assert (Wnc : WF (Node [] [] nch)) by (unfold nch; destruct new as [[a b c]|]; [destruct (WF_inv _ Wn) as (Q1 & Q2 & Q3); constructor; assumption|repeat constructor]).
  pose proof (WF_inv _ Wnc) as (Pn & Nn & Wnn). cbn [tch] in Pn, Nn, Wnn.
  assert (Ln : forall s r, lko new (s :: r) = match child nch s with Some d => lk d r | None => None end) by (intros s r; unfold nch; destruct new as [[a b c]|]; reflexivity).
  set (lost1 := fun d : tree bytes => match child ch (tkey d) with None => true | Some _ => false end).
  destruct (collect (@tkey bytes) (fun d => visit (p ++ [tkey d]) d) p (fun d n' => tells (sub (lko new) (tkey d)) (sub (lk (Node k0 v ch)) (tkey d)) n') (filter lost1 nch)) as (L1 & K1 & F1 & T1).
  { intros d Hd. apply filter_In in Hd. destruct Hd as [Hd Hl]. exists (visit [] d). split; [apply visit_full|]. rewrite Forall_forall in Wnn.
    eapply tells_ext; [| |apply visit_tells, Wnn, Hd]; intros q Pq; unfold sub.
    - rewrite Ln. pose proof (child_self (Node [] [] nch) d Wnc Hd) as Cs. cbn [tch] in Cs. rewrite Cs. reflexivity.
    - cbn [lk tch]. unfold lost1 in Hl. destruct (child ch (tkey d)); [discriminate|reflexivity]. }
  destruct (collect (@tkey bytes) (fun d => cancel_values (child nch (tkey d)) d (p ++ [tkey d])) p (fun d n' => tells (sub (lko new) (tkey d)) (sub (lk (Node k0 v ch)) (tkey d)) n') ch) as (L2 & K2 & F2 & T2).
  { intros d Hd. rewrite Forall_forall in IH, Wch, Pch. destruct (IH d Hd (child nch (tkey d)) (p ++ [tkey d]) (Wch d Hd)) as (n' & En & T).
    - destruct (child nch (tkey d)) as [e|] eqn:Ee; [|exact I]. apply (child_key (Node [] [] nch) e (tkey d) Wnc (Pch d Hd) Ee).
    - exists n'. split; [exact En|]. eapply tells_ext; [| |exact T]; intros q Pq; unfold sub.
      + rewrite Ln. destruct (child nch (tkey d)); reflexivity.
      + cbn [lk tch]. pose proof (child_self (Node k0 v ch) d W Hd) as Cs. cbn [tch] in Cs. rewrite Cs. reflexivity. }
  set (q := match new with None => true | Some t => if list_eq_dec ascii_dec (tval t) v then false else true end).
  exists ((if q then [([], Some v)] else []) ++ flat_map (fun x => pre [fst x] (snd x)) (L1 ++ L2) ++ []). split.
  - rewrite app_nil_r, flat_map_app, !pre_app, <- F1, <- F2. cbn [cancel_values]. fold q. f_equal; [destruct q; [apply pre_one|reflexivity]|]. f_equal.
    + rewrite <- flat_map_filter. unfold nch. destruct new as [t|]; [|reflexivity]. apply flat_map_ext. intros d. unfold lost1. destruct (child ch (tkey d)); reflexivity.
    + apply flat_map_ext. intros d. rewrite Hn. reflexivity.
  - rewrite Forall_forall in Pch, Pn. apply tells_node.
    + apply lko_low, Wn.
    + apply (lko_low (Some (Node k0 v ch))), W.
    + apply Forall_app. split; apply Forall_forall; intros [s nn] H; cbn [fst]; [destruct (T1 s nn H) as (d & Hd & -> & _)|destruct (T2 s nn H) as (d & Hd & -> & _)]; [apply filter_In in Hd; apply Pn, Hd|apply Pch, Hd].
    + rewrite !map_app, K1, K2, !map_map. apply NoDup_app_intro; [apply NoDup_map_filter; exact Nn|exact Nch|].
      intros x H1 H2. apply in_map_iff in H1. destruct H1 as (d & <- & Hd). apply in_map_iff in H2. destruct H2 as (b & Eb & Hb). apply filter_In in Hd. destruct Hd as [Hd Hl]. unfold lost1 in Hl.
      pose proof (child_self (Node k0 v ch) b W Hb) as Cb. pose proof (child_same (Node k0 v ch) (tkey b) (tkey d) W (Pch b Hb) (Pn d Hd) ltac:(apply teq_spec; exact Eb)) as Cd. cbn [tch] in Cb, Cd. rewrite Cd, Cb in Hl. discriminate.
    + intros s nn H. apply in_app_iff in H. destruct H as [H|H]; [destruct (T1 s nn H) as (d & _ & -> & T)|destruct (T2 s nn H) as (d & _ & -> & T)]; exact T.
    + intros s r Ps Pr D. rewrite Ln in D. cbn [lk tch] in D. destruct (child ch s) as [d|] eqn:Ed.
      * destruct (child_key (Node k0 v ch) d s W Ps Ed) as (Pd & _ & Td). assert (Hk : In (tkey d) (map fst L2)) by (rewrite K2; apply in_map; eapply child_In, Ed).
        apply in_map_iff in Hk. destruct Hk as ([s' n0] & E & Hk). cbn in E. subst s'. exists (tkey d), n0. split; [apply in_app_iff; right; exact Hk|exact Td].
      * destruct (child nch s) as [d|] eqn:En; [|elim D; reflexivity]. destruct (child_key (Node [] [] nch) d s Wnc Ps En) as (Pd & _ & Td).
        assert (Hk : In (tkey d) (map fst L1)).
        { rewrite K1. apply in_map, filter_In. split; [eapply child_In, En|]. unfold lost1. pose proof (child_same (Node k0 v ch) (tkey d) s W Pd Ps Td) as Cs. cbn [tch] in Cs. rewrite <- Cs, Ed. reflexivity. }
        apply in_map_iff in Hk. destruct Hk as ([s' n0] & E & Hk). cbn in E. subst s'. exists (tkey d), n0. split; [apply in_app_iff; left; exact Hk|exact Td].
    + cbn [lk tval]. unfold q. destruct new as [t|]; cbn [lko].
      * assert (Lt : lk t [] = Some (tval t)) by (destruct t; reflexivity). rewrite Lt. destruct (list_eq_dec ascii_dec (tval t) v) as [E|N]; [left; split; [congruence|auto]|right; split; [congruence|left; auto]].
      * right. split; [discriminate|left; auto].
Qed.
Lemma cancel_changes_ok : forall c g p, WFo (root g) -> Forall plain p -> WF c -> MW (below g p) c ->
  exists n', cancel_changes g c p = pre p n' /\ tells (cv c (below g p)) (below g p) n'.
Proof.
  induction c as [k0 m ch IH] using tree_ind2. intros g p Wg Pp W M. pose proof (MW_inv _ _ M) as (A & _ & _ & Mc). cbn [tval tch] in A, Mc.
  pose proof (WF_inv _ W) as (Pch & Nch & Wch). cbn [tch] in Pch, Nch, Wch. pose proof (below_low g p Wg Pp) as Lb.
  destruct (match m with NewTree _ => true | _ => false end) eqn:Em.
  - destruct m as [|t| |]; try discriminate. destruct (A t eq_refl) as [-> Wt]. cbn [cancel_changes].
    assert (X : forall q, cv (Node k0 (NewTree t) []) (below g p) q = lko t q) by (intros [|]; reflexivity).
    pose proof (base_node_ok g p Wg Pp) as Bn. destruct (base_node g p) as [b|].
    + destruct Bn as [Wb Eb]. destruct (cancel_values_ok b t p Wb Wt) as (n' & En & T). exists n'. split; [exact En|]. eapply tells_ext; [| |exact T]; intros q Pq; symmetry; [apply X|apply Eb, Pq].
    + destruct t as [t|].
      * exists (visit [] t). split; [apply visit_full|]. eapply tells_ext; [| |apply visit_tells, Wt]; intros q Pq; symmetry; [apply X|apply Bn, Pq].
      * exists []. split; [reflexivity|]. apply tells_nil. intros q Pq. rewrite X, Bn by exact Pq. reflexivity.
  - assert (Nt : notree m) by (destruct m; [exact I|discriminate|exact I|exact I]).
    destruct (collect (X := ctree) (@tkey mode) (fun d => cancel_changes g d (p ++ [tkey d])) p (fun d n' => tells (sub (cv (Node k0 m ch) (below g p)) (tkey d)) (sub (below g p) (tkey d)) n') ch) as (L1 & K1 & F1 & T1).
    { intros d Hd. rewrite Forall_forall in IH, Pch, Wch, Mc. destruct (IH d Hd g (p ++ [tkey d]) Wg (app_one_plain _ _ Pp (Pch d Hd)) (Wch d Hd)) as (n' & En & T).
      - apply (MW_ext d (sub (below g p) (tkey d))); auto. intros q Pq. symmetry. apply below_sub, Pq.
      - exists n'. split; [exact En|]. eapply tells_ext; [| |exact T]; intros q Pq; [|apply below_sub, Pq]. unfold sub. rewrite cv_cons by exact Nt.
        pose proof (child_self (Node k0 m ch) d W Hd) as Cs. cbn [tch] in Cs. rewrite Cs. apply cv_ext; [exact Pq|apply below_sub]. }
    set (v := match m with Blank => None | _ => below g p [] end).
    set (n1 := match m, v with NewValue w, Some w' => if list_eq_dec ascii_dec w' w then [] else [([], v)] | _, _ => [] end : list notif).
    set (n2 := match m with Blank => [] | _ => if isnull v then [([], None)] else [] end : list notif).
    exists (n1 ++ flat_map (fun x => pre [fst x] (snd x)) L1 ++ n2). split.
    + rewrite !pre_app, <- F1. transitivity ((match m, v with NewValue w, Some w' => if list_eq_dec ascii_dec w' w then [] else [(p, v)] | _, _ => [] end) ++
        flat_map (fun d => cancel_changes g d (p ++ [tkey d])) ch ++ match m with Blank => [] | _ => if isnull v then [(p, None)] else [] end).
      { unfold v. destruct m; [|elim Nt| |]; cbn [cancel_changes]; rewrite ?tget_below by exact Pp; reflexivity. }
      unfold n1, n2. f_equal; [|f_equal].
      * destruct m as [w|t|w|]; try reflexivity. destruct v as [w'|]; [|reflexivity]. destruct (list_eq_dec ascii_dec w' w); [reflexivity|apply pre_one].
      * destruct m; try reflexivity; destruct (isnull v); try reflexivity; apply pre_one.
    + rewrite Forall_forall in Pch. apply tells_node.
      * intros k k' Pk Pk' E. apply cv_low; auto.
      * exact Lb.
      * apply Forall_forall; intros [s nn] H; cbn [fst]; destruct (T1 s nn H) as (d & Hd & -> & _); apply Pch, Hd.
      * rewrite K1, map_map. exact Nch.
      * intros s nn H. destruct (T1 s nn H) as (d & _ & -> & T). exact T.
      * intros s r Ps Pr D. rewrite cv_cons in D by exact Nt. destruct (child ch s) as [d|] eqn:Ed; [|elim D; reflexivity].
        destruct (child_key (Node k0 m ch) d s W Ps Ed) as (Pd & _ & Td). assert (Hk : In (tkey d) (map fst L1)) by (rewrite K1; apply in_map; eapply child_In, Ed).
        apply in_map_iff in Hk. destruct Hk as ([s' n0] & E & Hk). cbn in E. subst s'. exists (tkey d), n0. split; [exact Hk|exact Td].
      * unfold n1, n2, v. cbn [cv tval]. destruct m as [w|t|w|]; [| elim Nt | |left; auto].
        -- destruct (below g p []) as [w'|]; cbn [isnull].
           ++ destruct (list_eq_dec ascii_dec w' w) as [E|N]; [left; split; [congruence|auto]|right; split; [congruence|left; auto]].
           ++ right. split; [discriminate|right; auto].
        -- destruct (below g p []) as [w'|]; cbn [isnull]; [left; auto|]. right. split; [discriminate|right; auto].
Qed.
Lemma xrefresh_ok t t' n : INV t -> xrefresh t = (t', n) -> INV t' /\ base t' = base t /\ chg t' = None /\ tells (view t) (view t') n.
Proof.
  intros Hi. pose proof Hi as [Wg Hc]. unfold xrefresh, view. destruct (chg t) as [c|] eqn:Ec.
  - intros H. injection H as <- <-. cbn [base chg cvo]. destruct Hc as [Wc Mc]. destruct (cancel_changes_ok c (base t) [] Wg (Forall_nil _) Wc Mc) as (n' & En & T). rewrite En, pre_nil.
    split; [split; [exact Wg|exact I]|]. split; [reflexivity|]. split; [reflexivity|]. exact T.
  - intros H. injection H as <- <-. split; [exact Hi|]. split; [reflexivity|]. split; [exact Ec|]. apply tells_nil. intros q _. rewrite Ec. reflexivity.
Qed.

(** ** The iterator *)
Definition lists (l : list (bytes * option bytes)) (f : bytes -> option bytes) : Prop :=
  NoDup (map (fun x => map tolower (fst x)) l) /\ Forall (fun x => plain (fst x) /\ snd x <> None) l /\
  forall s v, plain s -> f s = Some v <-> exists s0, In (s0, Some v) l /\ teq s0 s = true.
Lemma lists_ext l f f' : (forall s, plain s -> f s = f' s) -> lists l f -> lists l f'.
Proof. intros E (N & P & H). split; [exact N|]. split; [exact P|]. intros s v Ps. rewrite <- E by exact Ps. apply H, Ps. Qed.
Lemma lists_none : lists [] (fun _ => None).
Proof. split; [constructor|]. split; [constructor|]. intros s v _. split; [discriminate|]. intros (s0 & [] & _). Qed.
Lemma lists_tree n : WF n -> lists (map (fun c : tree bytes => (tkey c, Some (tval c))) (tch n)) (fun s => lk n [s]).
Proof.
  intros W. pose proof (WF_inv _ W) as (P & N & _). split; [rewrite map_map; exact N|]. split.
  - apply Forall_forall. intros x H. apply in_map_iff in H. destruct H as (c & <- & Hc). rewrite Forall_forall in P. split; [apply P, Hc|discriminate].
  - intros s v Ps. rewrite children_ok by assumption. split; intros (s0 & H & E); exists s0; (split; [|exact E]); apply in_map_iff in H; destruct H as (c & Ec & Hc); injection Ec as <- <-; apply in_map_iff; exists c; auto.
Qed.
Lemma citer_ok : forall rest g c p, WFo (root g) -> Forall plain p -> Forall plain rest -> WF c -> MW (below g p) c ->
  match citer g (Some c) p rest with
  | None => cv c (below g p) rest = None
  | Some l => lists l (fun s => cv c (below g p) (rest ++ [s]))
  end.
Proof.
  induction rest as [|s r IH]; intros g [k0 m ch] p Wg Pp P W M; pose proof (MW_inv _ _ M) as (A & _ & _ & Mc); cbn [tval tch] in A, Mc;
    (destruct (match m with NewTree _ => true | _ => false end) eqn:Em; [destruct m as [|t| |]; try discriminate; destruct (A t eq_refl) as [-> Wt]|assert (Nt : notree m) by (destruct m; [exact I|discriminate|exact I|exact I])]).
  - cbn [citer]. destruct t as [t|]; [|apply lists_none]. cbn [find]. apply (lists_tree t), Wt.
  - pose proof (WF_inv _ W) as (Pch & Nch & Wch). cbn [tch] in Pch, Nch, Wch.
    set (n := match base_node g p with Some n => n | None => Node [] [] [] end).
    assert (Hn : WF n /\ base_children g p = tch n /\ forall s r, plain s -> Forall plain r -> below g p (s :: r) = match child (tch n) s with Some d => lk d r | None => None end).
    { pose proof (base_node_ok g p Wg Pp) as Hb. unfold base_children, n. destruct (base_node g p) as [t|].
      - destruct Hb as [Wt E]. split; [exact Wt|]. split; [reflexivity|]. intros s r Ps Pr. rewrite E by (constructor; auto). destruct t; reflexivity.
      - split; [repeat constructor|]. split; [reflexivity|]. intros s r Ps Pr. apply Hb. constructor; auto. }
    clearbody n. destruct Hn as (Wn & Bc & Bn). pose proof (WF_inv _ Wn) as (Pn & Nn & _). pose proof (below_low g p Wg Pp) as Lb.
    set (val := fun d : ctree => match tval d with NewValue v => Some v | NewTree (Some t) => Some (tval t) | _ => let v := tget g (p ++ [tkey d]) in if bang v then Some [] else v end).
    assert (Ec : citer g (Some (Node k0 m ch)) p [] = Some (map (fun d => (tkey d, val d)) (filter (fun d => live (tval d)) ch) ++ map (fun b => (tkey b, Some (tval b))) (filter (hidden ch) (base_children g p)))).
    { destruct m; try reflexivity. elim Nt. }
    rewrite Ec. clear Ec. rewrite Bc. rewrite Forall_forall in Pch, Pn.
    assert (Hv : forall d, In d ch -> live (tval d) = true -> val d = cv d (below g (p ++ [tkey d])) [] /\ val d <> None).
    { intros d Hd Lv. unfold val. rewrite tget_below by (apply app_one_plain; auto). destruct d as [kd md chd]. cbn [tval] in *. cbn [cv tval tkey]. destruct md as [w|[t|]|w|]; try discriminate.
      - split; [reflexivity|discriminate].
      - split; [destruct t; reflexivity|discriminate].
      - cbv zeta. destruct (below g (p ++ [kd]) []) as [[|x u]|]; split; (reflexivity || discriminate). }
    cbn [app]. split; [|split].
    + rewrite map_app, !map_map. cbn [fst]. apply NoDup_app_intro; [apply (NoDup_map_filter (fun d => low (tkey d))); exact Nch|apply (NoDup_map_filter (fun d => low (tkey d))); exact Nn|].
      intros x H1 H2. apply in_map_iff in H1. destruct H1 as (d & <- & Hd). apply in_map_iff in H2. destruct H2 as (b & Eb & Hb).
      apply filter_In in Hd. apply filter_In in Hb. destruct Hd as [Hd Lv]. destruct Hb as [Hb Hid]. unfold hidden in Hid.
      pose proof (child_self (Node k0 m ch) d W Hd) as Cd. pose proof (child_same (Node k0 m ch) (tkey d) (tkey b) W (Pch d Hd) (Pn b Hb) ltac:(apply teq_spec; symmetry; exact Eb)) as Cb. cbn [tch] in Cb, Cd.
      rewrite Cb, Cd in Hid. destruct (tval d); discriminate.
    + apply Forall_app. split; apply Forall_forall; intros x H; apply in_map_iff in H; destruct H as (d & <- & Hd); apply filter_In in Hd; cbn [fst snd]; [split; [apply Pch, Hd|apply Hv; apply Hd]|split; [apply Pn, Hd|discriminate]].
    + intros s v Ps. rewrite cv_cons by exact Nt. split.
      * intros H. destruct (child ch s) as [d|] eqn:Ed.
        -- destruct (child_key (Node k0 m ch) d s W Ps Ed) as (Pd & Wd & Td). pose proof (child_In _ _ _ Ed) as Hin.
           assert (Es : cv d (fun q => below g p (s :: q)) [] = cv d (below g (p ++ [tkey d])) []).
           { apply cv_ext; [constructor|]. intros q Pq. rewrite below_sub by exact Pq. symmetry. apply (sub_same (below g p) (tkey d) s); auto. }
           destruct (live (tval d)) eqn:Lv.
           ++ exists (tkey d). split; [|exact Td]. apply in_app_iff. left. apply in_map_iff. exists d. split; [|apply filter_In; auto]. f_equal. rewrite (proj1 (Hv d Hin Lv)), <- Es. exact H.
           ++ destruct (tval d) as [|[t|]| |] eqn:Ev; try discriminate.
              ** destruct d as [kd md chd]. cbn [tval] in Ev. subst md. discriminate.
              ** assert (Hb : below g p [s] = Some v) by (destruct d as [kd md chd]; cbn [tval] in Ev; subst md; exact H). rewrite Bn in Hb by auto.
                 destruct (child (tch n) s) as [b|] eqn:Eb; [|discriminate]. destruct (child_key n b s Wn Ps Eb) as (Pb & _ & Tb). exists (tkey b). split; [|exact Tb].
                 apply in_app_iff. right. apply in_map_iff. exists b. split; [f_equal; destruct b; exact Hb|]. apply filter_In. split; [eapply child_In, Eb|]. unfold hidden.
                 pose proof (child_same (Node k0 m ch) (tkey b) s W Pb Ps Tb) as Cs. cbn [tch] in Cs. rewrite <- Cs, Ed, Ev. reflexivity.
        -- rewrite Bn in H by auto. destruct (child (tch n) s) as [b|] eqn:Eb; [|discriminate]. destruct (child_key n b s Wn Ps Eb) as (Pb & _ & Tb). exists (tkey b). split; [|exact Tb].
           apply in_app_iff. right. apply in_map_iff. exists b. split; [f_equal; destruct b; exact H|]. apply filter_In. split; [eapply child_In, Eb|]. unfold hidden.
           pose proof (child_same (Node k0 m ch) (tkey b) s W Pb Ps Tb) as Cs. cbn [tch] in Cs. rewrite <- Cs, Ed. reflexivity.
      * intros (s0 & H & Ts). apply in_app_iff in H. destruct H as [H|H]; apply in_map_iff in H; destruct H as (d & Ed & Hd); injection Ed as <- Ev; apply filter_In in Hd; destruct Hd as [Hd Hl].
        -- pose proof (child_self (Node k0 m ch) d W Hd) as Cd. pose proof (child_same (Node k0 m ch) (tkey d) s W (Pch d Hd) Ps Ts) as Cs. cbn [tch] in Cd, Cs. rewrite Cs, Cd.
           rewrite <- Ev, (proj1 (Hv d Hd Hl)). apply cv_ext; [constructor|]. intros q Pq. rewrite below_sub by exact Pq. symmetry. apply (sub_same (below g p) (tkey d) s); auto.
        -- pose proof (child_self n d Wn Hd) as Cd. pose proof (child_same n (tkey d) s Wn (Pn d Hd) Ps Ts) as Cn. unfold hidden in Hl.
           pose proof (child_same (Node k0 m ch) (tkey d) s W (Pn d Hd) Ps Ts) as Cs. cbn [tch] in Cs. rewrite <- Cs in Hl.
           assert (Hb : below g p [s] = Some v) by (rewrite Bn by auto; rewrite Cn, Cd; destruct d; exact (f_equal Some Ev) || (injection Ev as <-; reflexivity)).
           destruct (child ch s) as [e|]; [|exact Hb]. destruct e as [ke me che]. cbn [tval] in Hl. destruct me; try discriminate. exact Hb.
  - cbn [citer]. destruct t as [t|]; [|apply lists_none]. pose proof (find_lk t (s :: r) (or_introl (or_introl P))) as Fk. destruct (plain_slashed (s :: r) P) as [_ Hnm]. rewrite Hnm in Fk.
    destruct (find t (s :: r)) as [n|].
    + destruct Fk as (_ & Wn & Fk). eapply lists_ext; [|apply lists_tree, Wn, Wt]. intros x _. cbn [cv tval app lko]. symmetry. apply (Fk x []).
    + destruct Fk as (_ & Fk). eapply lists_ext; [|apply lists_none]. intros x _. cbn [cv tval app lko]. symmetry. apply (Fk x []).
  - pose proof (Forall_inv P) as Ps. pose proof (Forall_inv_tail P) as Pr. assert (Pps : Forall plain (p ++ [s])) by (apply app_one_plain; auto).
    assert (Ec : citer g (Some (Node k0 m ch)) p (s :: r) = citer g (child ch s) (p ++ [s]) r).
    { transitivity (citer g (findchild (Node k0 m ch) s) (p ++ [s]) r); [destruct m; try reflexivity; elim Nt|]. unfold findchild. rewrite isempty_plain by exact Ps. reflexivity. }
    rewrite Ec. clear Ec. cbn [app]. rewrite cv_cons by exact Nt. destruct (child ch s) as [d|] eqn:Ed.
    + destruct (child_key (Node k0 m ch) d s W Ps Ed) as (Pd & Wd & Td). pose proof (child_Forall _ _ _ _ Mc Ed) as Md.
      assert (Mp : MW (below g (p ++ [s])) d).
      { apply (MW_ext d (sub (below g p) (tkey d))); auto. intros q Pq. rewrite below_sub by exact Pq. apply (sub_same (below g p) (tkey d) s); auto. apply below_low; auto. }
      specialize (IH g d (p ++ [s]) Wg Pps Pr Wd Mp). destruct (citer g (Some d) (p ++ [s]) r) as [l|].
      * eapply lists_ext; [|exact IH]. intros x Px. cbv beta. rewrite cv_cons, Ed by exact Nt. apply cv_ext; [apply app_one_plain; auto|apply below_sub].
      * rewrite <- IH. apply cv_ext; [exact Pr|]. intros q Pq. symmetry. apply below_sub, Pq.
    + assert (Ec : citer g None (p ++ [s]) r = match titer g ((p ++ [s]) ++ r) with Some l => Some (map (fun x => (fst x, Some (snd x))) l) | None => None end) by (destruct r; reflexivity).
      match goal with |- match ?xx with Some _ => _ | None => _ end => assert (E1 : xx = match titer g ((p ++ [s]) ++ r) with Some l => Some (map (fun x => (fst x, Some (snd x))) l) | None => None end) by exact Ec; rewrite E1; clear E1 end. clear Ec. assert (Pk : Forall plain ((p ++ [s]) ++ r)) by (apply Forall_app; auto). pose proof (base_node_ok g ((p ++ [s]) ++ r) Wg Pk) as Bn. unfold titer, base_node in *.
      assert (Eb : forall q, below g p (s :: r ++ q) = below g ((p ++ [s]) ++ r) q) by (intros q; unfold below; f_equal; rewrite <- !app_assoc; reflexivity).
      assert (E0 : match (match root g with Some t => find t ((p ++ [s]) ++ r) | None => None end) with
         | None => below g p (s :: r) = None
         | Some n => lists (map (fun x => (fst x, Some (snd x))) (map (fun c => (tkey c, tval c)) (tch n))) (fun x => cv (Node k0 m ch) (below g p) (s :: r ++ [x])) end).
      { destruct (match root g with Some t => find t ((p ++ [s]) ++ r) | None => None end) as [n|].
        - destruct Bn as [Wn En]. rewrite map_map. eapply lists_ext; [|apply lists_tree, Wn]. intros x Px. cbv beta. rewrite cv_cons, Ed by exact Nt. rewrite Eb. symmetry. apply En. constructor; auto.
        - rewrite <- (app_nil_r r), Eb. apply Bn. constructor. }
      destruct (root g) as [t|]; [|exact E0]. destruct (find t ((p ++ [s]) ++ r)) as [n|]; exact E0.
Qed.
Lemma xiter_ok t k : INV t -> Forall plain k ->
  match xiter t k with None => view t k = None | Some l => lists l (fun s => view t (k ++ [s])) end.
Proof.
  intros [Wg Hc] P. unfold xiter, view. destruct (chg t) as [c|].
  - destruct Hc as [Wc Mc]. apply (citer_ok k (base t) c [] Wg (Forall_nil _) P Wc Mc).
  - cbn [cvo]. assert (Ec : citer (base t) None [] k = match titer (base t) k with Some l => Some (map (fun x => (fst x, Some (snd x))) l) | None => None end) by (destruct k; reflexivity).
    match goal with |- match ?xx with Some _ => _ | None => _ end => assert (E1 : xx = match titer (base t) k with Some l => Some (map (fun x => (fst x, Some (snd x))) l) | None => None end) by exact Ec; rewrite E1; clear E1 end. pose proof (base_node_ok (base t) k Wg P) as Bn. unfold titer, base_node in *. unfold below in Bn. destruct (root (base t)) as [tb|] eqn:Er.
    + destruct (find tb k) as [n|].
      * destruct Bn as [Wn En]. rewrite map_map. eapply lists_ext; [|apply lists_tree, Wn]. intros x Px. symmetry. apply En. constructor; auto.
      * rewrite <- (app_nil_r k). apply Bn. constructor.
    + rewrite <- (app_nil_r k). apply Bn. constructor.
Qed.

(** ** The order of the hash tables *)
Definition alike (c c' : ctree) : Prop := WF c' /\ tkey c' = tkey c /\ (dead (tval c) -> dead (tval c')) /\ (forall b, MW b c -> MW b c') /\
  forall q, Forall plain q -> kind c' q = kind c q /\ forall b, cv c' b q = cv c b q.
Lemma alike_kids k m ch ch' : WF (Node k m ch') -> (forall b, MW b (Node k m ch) -> MW b (Node k m ch')) ->
  (forall s, plain s -> match child ch s, child ch' s with Some d, Some d' => forall q, Forall plain q -> kind d' q = kind d q /\ forall b, cv d' b q = cv d b q | None, None => True | _, _ => False end) ->
  alike (Node k m ch) (Node k m ch').
Proof.
  intros W M C. split; [exact W|]. split; [reflexivity|]. split; [auto|]. split; [exact M|].
  intros [|s r] P; [split; [|intros b]; reflexivity|]. specialize (C s (Forall_inv P)). pose proof (Forall_inv_tail P) as Pr.
  destruct (match m with NewTree _ => true | _ => false end) eqn:Em.
  - destruct m; try discriminate. split; [|intros b]; reflexivity.
  - assert (Nt : notree m) by (destruct m; [exact I|discriminate|exact I|exact I]). split; [|intros b]; rewrite ?kind_cons, ?cv_cons by exact Nt;
      (destruct (child ch s), (child ch' s); try (elim C); [apply C, Pr|reflexivity]).
Qed.
Lemma shuffle_alike c c' : shuffle c c' -> WF c -> alike c c'.
Proof.
  induction 1 as [k v ch ch' Hp|k v a x y b Hs IH]; intros W; pose proof (WF_inv _ W) as (P & N & F); cbn [tch] in *.
  - assert (I1 : forall d, In d ch' -> In d ch) by (intros d Hd; eapply Permutation_in; [symmetry; exact Hp|exact Hd]).
    assert (P' : Forall (fun c => plain (tkey c)) ch') by (rewrite Forall_forall in *; intros d Hd; apply P, I1, Hd).
    assert (N' : NoDup (map (fun c => low (tkey c)) ch')) by (eapply Permutation_NoDup; [apply Permutation_map; exact Hp|exact N]).
    apply alike_kids.
    + constructor; auto. rewrite Forall_forall in *; auto.
    + intros b M. apply MW_inv in M. cbn [tval tch] in M. destruct M as (A & Bl & Nn & C). constructor; auto.
      * intros t Et. destruct (A t Et) as [-> Wt]. split; [|exact Wt]. apply Permutation_nil. exact Hp.
      * intros Eb. specialize (Bl Eb). rewrite Forall_forall in *. auto.
      * rewrite Forall_forall in *. auto.
    + intros s Ps. assert (E : child ch' s = child ch s).
      { destruct (child ch s) as [d|] eqn:E.
        - apply child_in in E; auto using plain_nulf. apply child_in; auto using plain_nulf. destruct E as [E1 E2]. split; [eapply Permutation_in; eauto|exact E2].
        - destruct (child ch' s) as [d|] eqn:E'; [|reflexivity]. apply child_in in E'; auto using plain_nulf. destruct E' as [E1 E2].
          assert (child ch s = Some d); [|congruence]. apply child_in; auto using plain_nulf. }
      rewrite E. destruct (child ch s); auto.
  - pose proof F as F0. rewrite Forall_app in F. destruct F as [Fa Fb]. pose proof (Forall_inv Fb) as Fx. pose proof (Forall_inv_tail Fb) as Fb'. destruct (IH Fx) as (Wy & Ky & Dy & My & Ly).
    apply alike_kids.
    + constructor.
      * rewrite Forall_app in *. destruct P as [Pa Pb]. inversion Pb; subst. split; [assumption|]. constructor; [rewrite Ky|]; assumption.
      * rewrite !map_app in *. cbn [map] in *. rewrite Ky. exact N.
      * rewrite Forall_app. auto.
    + intros b0 M. apply MW_inv in M. cbn [tval tch] in M. destruct M as (A & Bl & Nn & C). constructor; auto.
      * intros t Et. destruct (A t Et) as [E _]. destruct a; discriminate E.
      * intros Eb. specialize (Bl Eb). rewrite Forall_app in *. destruct Bl as [B1 B2]. inversion B2; subst. auto.
      * rewrite Forall_app in *. destruct C as [C1 C2]. inversion C2; subst. split; [assumption|]. constructor; [rewrite Ky; auto|assumption].
    + intros s Ps. rewrite !child_app. cbn [child]. rewrite Ky. destruct (child a s); [auto|]. destruct (same_seg (tkey x) s); [exact Ly|]. destruct (child b s); auto.
Qed.
Lemma cshuffle_ok c c' : cshuffle c c' -> WF c -> (exists b, MW b c) -> alike c c'.
Proof.
  induction 1 as [c c' Hs|k m m' ch Hr|k v a x y b Hs IH]; intros W M0.
  - apply shuffle_alike; assumption.
  - destruct Hr as [t t' Hs]. destruct M0 as [b0 M0]. apply MW_inv in M0. destruct M0 as (A & _). destruct (A (Some t) eq_refl) as [Ec Wt]. cbn [tch] in Ec. subst ch. cbn in Wt.
    destruct (shuffle_ok t t' Hs Wt) as (Wt' & _ & _ & Lt). split; [repeat constructor|]. split; [reflexivity|]. split; [intros [D|D]; discriminate|]. split.
    + intros b _. constructor; try discriminate; [|constructor]. intros u Eu. injection Eu as <-. split; [reflexivity|exact Wt'].
    + intros q Pq. split; [destruct q; reflexivity|]. intros b. transitivity (lk t' q); [destruct q; reflexivity|]. rewrite Lt by exact Pq. destruct q; reflexivity.
  - pose proof (WF_inv _ W) as (P & N & F); cbn [tch] in *. rewrite Forall_app in F. destruct F as [Fa Fb]. pose proof (Forall_inv Fb) as Fx. pose proof (Forall_inv_tail Fb) as Fb'. destruct IH as (Wy & Ky & Dy & My & Ly); [exact Fx| |].
    { destruct M0 as [b0 M]. apply MW_inv in M. destruct M as (_ & _ & _ & C). cbn [tch] in C. apply Forall_app in C. destruct C as [_ C]. exists (sub b0 (tkey x)). exact (Forall_inv C). }
    apply alike_kids.
    + constructor.
      * rewrite Forall_app in *. destruct P as [Pa Pb]. inversion Pb; subst. split; [assumption|]. constructor; [rewrite Ky|]; assumption.
      * rewrite !map_app in *. cbn [map] in *. rewrite Ky. exact N.
      * rewrite Forall_app. auto.
    + intros b0 M. apply MW_inv in M. cbn [tval tch] in M. destruct M as (A & Bl & Nn & C). constructor; auto.
      * intros t Et. destruct (A t Et) as [E _]. destruct a; discriminate E.
      * intros Eb. specialize (Bl Eb). rewrite Forall_app in *. destruct Bl as [B1 B2]. inversion B2; subst. auto.
      * rewrite Forall_app in *. destruct C as [C1 C2]. inversion C2; subst. split; [assumption|]. constructor; [rewrite Ky; auto|assumption].
    + intros s Ps. change ctree with (tree mode). rewrite !child_app. cbn [child]. rewrite Ky. destruct (child a s); [auto|]. destruct (same_seg (tkey x) s); [exact Ly|]. destruct (child b s); auto.
Qed.

(** ** Executions *)
Definition SIM (t : txn) (s : snap) : Prop := INV t /\ same_contents (has (base t)) (sbase s) /\ same_contents (view t) (sview s) /\
  forall q, Forall plain q -> kindo (chg t) q = sstat s q.
Lemma lost_unheard t s k v : SIM t s -> Forall plain k -> lost t k v = true <-> unheard s (Set_ k v).
Proof.
  intros (Hi & Eb & Ev & Ek) P. unfold lost, unheard. rewrite (Ek k P), <- (Ev k P). assert (Vw : sstat s k = Implied -> view t k = Some (match has (base t) k with Some w => w | None => [] end)).
  { intros H. rewrite <- (Ek k P) in H. unfold view. destruct (chg t) as [c|]; [|discriminate]. cbn [kindo cvo] in *. rewrite (cv_kind k c (has (base t))), H. reflexivity. }
  destruct (sstat s k); [split; [discriminate|intros (H & _); discriminate]| |split; [discriminate|intros (H & _); discriminate]]. rewrite (Vw eq_refl). unfold differ.
  split.
  - intros H. apply andb_true_iff in H. destruct H as [H1 H2]. apply andb_true_iff in H1. destruct H1 as [H0 H1]. 
    split; [reflexivity|]. destruct (has (base t) k) as [[|x a]|]; try discriminate. destruct v as [[|y b]|]; try discriminate. cbn [eq_val] in *.
    split; [|split; eexists _, _; reflexivity]. intros E. injection E as E1 E2. subst. destruct (list_eq_dec ascii_dec (y :: b) (y :: b)); [discriminate|congruence].
  - intros (_ & N & (x & a & Ex) & (y & b & Ey)). subst v. destruct (has (base t) k) as [w|]; [|discriminate]. injection Ex as ->. cbn [bang negb andb eq_val]. destruct (list_eq_dec ascii_dec (x :: a) (y :: b)) as [E|]; [rewrite E in N; congruence|reflexivity].
Qed.
Lemma set_key_same m m' kv : canonical (fst kv) -> same_contents m m' -> same_contents (set_key m kv) (set_key m' kv).
Proof. intros Ck E q Pq. destruct kv as [k v]. unfold set_key. destruct (slashed k); [destruct v; [apply E, Pq|]|]; apply set_ext, E, Pq. Qed.
Lemma perform_ok t s o t' n : SIM t s -> good_op o -> perform t o = (t', n) -> SIM t' (step s o) /\ (unheard s o /\ n = [] \/ ~ unheard s o /\
  match o with Commit => n = [] /\ same_contents (view t') (view t) | _ => tells (view t) (view t') n end).
Proof.
  intros S G E. pose proof S as (Hi & Eb & Ev & Ek). destruct o as [k v|k v| |]; cbn [perform good_op step] in *.
  - destruct (xset_ok t k v t' n Hi G E) as (Hi' & B & V & K & N). split.
    + split; [exact Hi'|]. cbn [sbase sview sstat]. split; [rewrite B; exact Eb|]. split.
      * intros q Pq. rewrite V by exact Pq. apply set_ext, Ev, Pq.
      * intros q Pq. rewrite K by exact Pq. apply status_ext, Ek, Pq.
    + pose proof (lost_unheard t s k v S G) as L. destruct (lost t k v); [left; split; [apply L; reflexivity|exact N]|right]. split; [intros U; apply L in U; discriminate|exact N].
  - unfold xbase_set in E. destruct (base_set_ok t [] k v t' n Hi G E) as (Hi' & B & Lk & o & Eo & T). cbn [app] in Eo. subst o. split; [|right; split; [exact (fun x => x)|exact T]].
    assert (B' : same_contents (has (base t')) (set_key (sbase s) (k, v))) by (intros q Pq; rewrite B by exact Pq; apply set_key_same; auto).
    split; [exact Hi'|]. cbn [sbase sview sstat]. split; [exact B'|]. split.
    + intros q Pq. destruct (Lk q Pq) as [_ L2]. unfold view. rewrite L2. specialize (Ek q Pq). specialize (Ev q Pq). specialize (B' q Pq). unfold view in Ev.
      destruct (chg t) as [c|]; cbn [cvo kindo] in *.
      * rewrite (cv_kind q c (has (base t))), Ek, B', Ev. destruct (sstat s q); reflexivity.
      * rewrite <- Ek. exact B'.
    + intros q Pq. destruct (Lk q Pq) as [L1 _]. rewrite L1. apply Ek, Pq.
  - destruct (xcommit_ok t t' n Hi E) as (Hi' & B & C & N). split.
    + split; [exact Hi'|]. cbn [start sbase sview sstat]. split; [intros q Pq; rewrite B by exact Pq; apply Ev, Pq|]. unfold view. rewrite C. cbn [cvo kindo]. split; [|reflexivity].
      intros q Pq. rewrite B by exact Pq. apply Ev, Pq.
    + right. split; [exact (fun x => x)|]. split; [exact N|]. unfold view at 1. rewrite C. exact B.
  - destruct (xrefresh_ok t t' n Hi E) as (Hi' & B & C & T). split.
    + split; [exact Hi'|]. cbn [start sbase sview sstat]. unfold view. rewrite C, B. cbn [cvo kindo]. auto.
    + right. split; [exact (fun x => x)|exact T].
Qed.
Lemma tells_replay_low m' m n k : low_inv m' -> tells m m' n -> Forall plain k -> replay n m k = m' k.
Proof.
  intros Lw [T A _] P.
  assert (G : forall l m0, (forall x, In x l -> In x n) -> (m0 k = m' k \/ exists k0 v, In (k0, v) l /\ same k0 k = true) -> replay l m0 k = m' k).
  { induction l as [|[k1 v1] l IH]; intros m0 Hl H.
    - destruct H as [H|(k0 & v & [] & _)]. exact H.
    - apply (IH (note m0 (k1, v1))); [intros x Hx; apply Hl; right; exact Hx|]. unfold note. cbn [fst snd].
      destruct (same k1 k) eqn:E.
      + left. destruct (T k1 v1 (Hl _ (or_introl eq_refl))) as (P1 & <- & _). apply Lw; assumption.
      + destruct H as [H|(k0 & v & [H|H] & S)]; [left; exact H| |right; exists k0, v; auto]. injection H as -> ->. congruence. }
  apply G; [auto|]. assert (D : m k = m' k \/ m k <> m' k) by (destruct (eq_val_dec (m k) (m' k)) as [[D _]|[D _]]; auto).
  destruct D as [D|D]; [left; exact D|right]. destruct (A k P D) as (k0 & v & H & S). exists k0, v. split; [exact H|]. exact S.
Qed.
Lemma run_ok t os ns t' : run t os ns t' -> forall s, SIM t s -> Forall good_op os -> SIM t' (fold_left step os s) /\
  (all_heard s os -> forall m, same_contents m (view t) -> same_contents (replay ns m) (view t')).
Proof.
  induction 1 as [t|t o t1 n os ns t' Hp Hr IH|d r r' c os ns t' Hs Hr IH|g c c' os ns t' Hs Hr IH]; intros s S G.
  - split; [exact S|]. intros _ m E. exact E.
  - pose proof (Forall_inv G) as G1. pose proof (Forall_inv_tail G) as G2. destruct (perform_ok t s o t1 n S G1 Hp) as (S1 & N).
    destruct (IH _ S1 G2) as (S' & R). split; [exact S'|]. intros [Hh Hr'] m E. rewrite replay_app. apply R; [exact Hr'|].
    destruct N as [[U _]|[_ N]]; [elim Hh; exact U|].
    assert (T : o = Commit /\ n = [] /\ same_contents (view t1) (view t) \/ tells (view t) (view t1) n) by (destruct o; auto).
    destruct T as [(_ & -> & T)|T].
    + intros q Pq. cbn. rewrite T by exact Pq. apply E, Pq.
    + intros q Pq. rewrite (replay_ext n m (view t)) by (apply E, Pq). apply tells_replay_low; auto. apply view_low. apply S1.
  - destruct S as ((W & M) & Eb & Ev & Ek). cbn [base chg root] in W, M. destruct (shuffle_ok r r' Hs W) as (W1 & _ & _ & L).
    assert (Sh : same_contents (has {| root := Some r; dirty := d |}) (has {| root := Some r'; dirty := d |})) by (intros q P; symmetry; apply L, P).
    assert (Vh : same_contents (view {| base := {| root := Some r; dirty := d |}; chg := c |}) (view {| base := {| root := Some r'; dirty := d |}; chg := c |})).
    { intros q P. unfold view. cbn [base chg]. destruct c as [c|]; cbn [cvo]; [apply cv_ext; auto|apply Sh, P]. }
    destruct (IH s) as (S' & R); [|exact G|].
    + split; [|split; [|split]].
      * split; [exact W1|]. cbn [chg base]. destruct c as [c|]; [|exact I]. destruct M as [Wc Mc]. split; [exact Wc|]. eapply MW_ext; eauto.
      * intros q P. cbn [base]. rewrite <- (Sh q P). apply Eb, P.
      * intros q P. rewrite <- (Vh q P). apply Ev, P.
      * exact Ek.
    + split; [exact S'|]. intros Hh m E. apply R; [exact Hh|]. intros q P. rewrite E by exact P. apply Vh, P.
  - destruct S as ((W & Wc & Mc) & Eb & Ev & Ek). cbn [base chg root] in W, Wc, Mc. destruct (cshuffle_ok c c' Hs Wc (ex_intro _ _ Mc)) as (Wc' & _ & _ & M' & L).
    assert (Vh : same_contents (view {| base := g; chg := Some c |}) (view {| base := g; chg := Some c' |})) by (intros q P; unfold view; cbn [base chg cvo]; symmetry; apply L, P).
    destruct (IH s) as (S' & R); [|exact G|].
    + split; [|split; [|split]].
      * split; [exact W|]. cbn [chg base]. split; [exact Wc'|]. apply M', Mc.
      * exact Eb.
      * intros q P. rewrite <- (Vh q P). apply Ev, P.
      * intros q P. cbn [chg kindo] in *. destruct (L q P) as [K _]. rewrite K. apply Ek, P.
    + split; [exact S'|]. intros Hh m E. apply R; [exact Hh|]. intros q P. rewrite E by exact P. apply Vh, P.
Qed.
Lemma sim_init : SIM xinit (start nothing).
Proof. split; [split; exact I|]. split; [intros q _; reflexivity|]. split; intros q _; reflexivity. Qed.
Lemma runs os ns t : run xinit os ns t -> Forall good_op os -> SIM t (steps os) /\ (all_heard (start nothing) os -> same_contents (replay ns nothing) (view t)).
Proof. intros H G. destruct (run_ok _ _ _ _ H _ sim_init G) as [S R]. split; [exact S|]. intros Hh. apply R; [exact Hh|]. intros q _. reflexivity. Qed.
