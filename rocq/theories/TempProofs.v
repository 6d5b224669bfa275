From Coq Require Import Permutation.
From Verif Require Import Base BaseFacts Ctype KeyModel KeySpec KeyProofs TempModel TempSpec TreeProofs.
Local Open Scope nat_scope.

(** ** Well-formed trees *)
Lemma ins_tkey full node k0 rest v : tkey (fst (fst (ins full node k0 rest v))) = match node with Some t => tkey t | None => k0 end.
Proof.
  destruct node as [[k v0 ch]|]; destruct rest as [|s r]; cbn [ins].
  - destruct (list_eq_dec ascii_dec v v0); reflexivity.
  - destruct (child ch s) as [c|].
    + destruct (ins (full ++ [tkey c]) (Some c) s r v) as [[c' n] d]. reflexivity.
    + destruct (ins (full ++ [s]) None s r v) as [[c' n] d]. reflexivity.
  - reflexivity.
  - destruct (ins (full ++ [s]) None s r v) as [[c' n] d]. reflexivity.
Qed.

(** [ins] does not depend on the prefix, except for the keys it reports. *)
Definition pre (full : key) (n : list notif) : list notif := map (fun x => (full ++ fst x, snd x)) n.
Lemma pre_app full a b : pre full (a ++ b) = pre full a ++ pre full b.
Proof. apply map_app. Qed.
Lemma pre_pre f g n : pre f (pre g n) = pre (f ++ g) n.
Proof. unfold pre. rewrite map_map. apply map_ext. intros [k v]. cbn. rewrite app_assoc. reflexivity. Qed.
Lemma pre_nil n : pre [] n = n.
Proof. unfold pre. rewrite <- (map_id n) at 2. apply map_ext. intros [k v]. reflexivity. Qed.
Lemma ins_full v : forall rest full node k0,
  ins full node k0 rest v = let '(t, n, d) := ins [] node k0 rest v in (t, pre full n, d).
Proof.
  induction rest as [|s r IH]; intros full node k0.
  - destruct node as [[k v0 ch]|]; cbn [ins].
    + destruct (list_eq_dec ascii_dec v v0); cbn; rewrite ?app_nil_r; reflexivity.
    + cbn. rewrite app_nil_r. reflexivity.
  - destruct node as [[k v0 ch]|]; cbn [ins].
    + destruct (child ch s) as [c|].
      * rewrite (IH (full ++ [tkey c])), (IH ([] ++ [tkey c])). destruct (ins [] (Some c) s r v) as [[c' n] d]. rewrite pre_pre. reflexivity.
      * rewrite (IH (full ++ [s])), (IH ([] ++ [s])). destruct (ins [] None s r v) as [[c' n] d]. rewrite pre_pre. reflexivity.
    + rewrite (IH (full ++ [s])), (IH ([] ++ [s])). destruct (ins [] None s r v) as [[c' n] d]. cbn [pre map fst snd]. rewrite app_nil_r.
      change (map _ (pre ([] ++ [s]) n)) with (pre full (pre ([] ++ [s]) n)). rewrite pre_pre. reflexivity.
Qed.

(** What a list of notifications says about a change of contents. *)
Record tells (m m' : contents) (n : list notif) : Prop := {
  t_true : forall k v, In (k, v) n -> Forall plain k /\ m' k = v /\ m k <> v;
  t_all : forall k, Forall plain k -> m k <> m' k -> exists k0 v, In (k0, v) n /\ same k0 k = true;
  t_once : NoDup (map (fun x => lows (fst x)) n) }.

(** Replacing a child *)
Lemma set_cons m s r v s' r' : set_spec m (s :: r) v (s' :: r') =
  if teq s s' then set_spec (fun k => m (s' :: k)) r v r' else m (s' :: r').
Proof.
  unfold set_spec. destruct v as [v|].
  - rewrite same_cons. cbn [under]. rewrite (teq_sym s' s). destruct (teq s s'); reflexivity.
  - cbn [under]. destruct (teq s s'); reflexivity.
Qed.
Lemma set_ext m m' k v k' : m k' = m' k' -> set_spec m k v k' = set_spec m' k v k'.
Proof. intros E. unfold set_spec. destruct v; rewrite E; reflexivity. Qed.

Lemma ins_WF v : forall rest full node k0, WFo node -> Forall plain rest -> WF (fst (fst (ins full node k0 rest v))).
Proof.
  induction rest as [|s r IH]; intros full node k0 W P.
  - destruct node as [[k v0 ch]|]; cbn [ins].
    + destruct (list_eq_dec ascii_dec v v0); cbn [fst]; [exact W|]. inversion W; constructor; assumption.
    + repeat constructor.
  - inversion P as [|? ? Ps Pr]; subst. destruct node as [[k v0 ch]|]; cbn [ins].
    + destruct (child ch s) as [c|] eqn:Ec.
      * pose proof (child_plain (Node k v0 ch) s c W Ec) as [Pc Wc]. specialize (IH (full ++ [tkey c]) (Some c) s Wc Pr).
        pose proof (ins_tkey (full ++ [tkey c]) (Some c) s r v) as Tk.
        destruct (ins (full ++ [tkey c]) (Some c) s r v) as [[c' n] d]. cbn [fst] in *. eapply WF_with_child; eauto.
      * specialize (IH (full ++ [s]) None s I Pr). pose proof (ins_tkey (full ++ [s]) None s r v) as Tk.
        destruct (ins (full ++ [s]) None s r v) as [[c' n] d]. cbn [fst] in *. apply WF_inv in W. cbn [tch] in W. destruct W as (Pc & N & F).
        constructor.
        -- apply Forall_app. split; [assumption|]. constructor; [rewrite Tk; assumption|constructor].
        -- rewrite map_app. cbn [map]. rewrite Tk. apply NoDup_Add with (a := low s) (l := map (fun c : tree bytes => low (tkey c)) ch).
           ++ rewrite <- (app_nil_r (map (fun c : tree bytes => low (tkey c)) ch)) at 1. apply Add_app.
           ++ split; [assumption|]. apply low_ne_child; auto using plain_nulf.
        -- apply Forall_app. auto.
    + specialize (IH (full ++ [s]) None s I Pr). pose proof (ins_tkey (full ++ [s]) None s r v) as Tk.
      destruct (ins (full ++ [s]) None s r v) as [[c' n] d]. cbn [fst] in *. constructor; [constructor; [rewrite Tk|]; auto| |auto].
      constructor; [intros []|constructor].
Qed.

Lemma ins_lk v : forall rest full node k0, WFo node -> Forall plain rest ->
  forall k', Forall plain k' -> lk (fst (fst (ins full node k0 rest v))) k' = set_spec (lko node) rest (Some v) k'.
Proof.
  induction rest as [|s r IH]; intros full node k0 W P k' Pk'.
  - destruct node as [[k v0 ch]|]; cbn [ins].
    + destruct (list_eq_dec ascii_dec v v0) as [->|N]; cbn [fst]; destruct k' as [|s' r']; reflexivity.
    + destruct k' as [|s' r']; reflexivity.
  - inversion P as [|? ? Ps Pr]; subst. pose proof (plain_nulf _ Ps) as Ns. destruct node as [[k v0 ch]|]; cbn [ins].
    + destruct (child ch s) as [c|] eqn:Ec.
      * pose proof (child_plain (Node k v0 ch) s c W Ec) as [Pc Wc]. specialize (IH (full ++ [tkey c]) (Some c) s Wc Pr).
        pose proof (ins_tkey (full ++ [tkey c]) (Some c) s r v) as Tk.
        destruct (ins (full ++ [tkey c]) (Some c) s r v) as [[c' n] d]. cbn [fst] in *.
        destruct k' as [|s' r']; [reflexivity|]. pose proof (Forall_inv Pk') as Ps'; pose proof (Forall_inv_tail Pk') as Pr'. pose proof (plain_nulf _ Ps') as Ns'.
        rewrite set_cons. cbn [lk tch lko]. pose proof (child_replace (Node k v0 ch) s c c' s' W Ns Ns' Ec Tk) as Cr. cbn [tch] in Cr. rewrite Cr.
        destruct (teq s s') eqn:T; [|reflexivity]. rewrite IH by assumption. apply set_ext. cbn [lko].
        assert (child ch s' = Some c) as ->.
        { apply child_in in Ec; try (apply WF_inv in W; cbn [tch] in W; tauto). apply WF_inv in W; cbn [tch] in W. apply child_in; try tauto.
          apply teq_spec in T. rewrite <- T. exact Ec. }
        reflexivity.
      * specialize (IH (full ++ [s]) None s I Pr). pose proof (ins_tkey (full ++ [s]) None s r v) as Tk.
        destruct (ins (full ++ [s]) None s r v) as [[c' n] d]. cbn [fst] in *.
        destruct k' as [|s' r']; [reflexivity|]. pose proof (Forall_inv Pk') as Ps'; pose proof (Forall_inv_tail Pk') as Pr'. pose proof (plain_nulf _ Ps') as Ns'.
        rewrite set_cons. cbn [lk tch lko]. apply WF_inv in W; cbn [tch] in W. destruct W as (Pc & N & F).
        rewrite child_added; [|rewrite Tk; assumption|assumption|rewrite Tk; assumption|assumption]. rewrite Tk.
        destruct (teq s s') eqn:T; [|reflexivity]. rewrite IH by assumption. apply set_ext. cbn [lko].
        destruct (child ch s') as [c|] eqn:Ec'; [|reflexivity]. exfalso. apply child_in in Ec'; auto.
        apply teq_spec in T. rewrite <- T in Ec'. apply child_in in Ec'; auto. congruence.
    + specialize (IH (full ++ [s]) None s I Pr). pose proof (ins_tkey (full ++ [s]) None s r v) as Tk.
      destruct (ins (full ++ [s]) None s r v) as [[c' n] d]. cbn [fst] in *.
      destruct k' as [|s' r']; [reflexivity|]. pose proof (Forall_inv Pk') as Ps'; pose proof (Forall_inv_tail Pk') as Pr'. pose proof (plain_nulf _ Ps') as Ns'.
      rewrite set_cons. cbn [lk tch lko]. rewrite child_one, Tk, same_seg_teq by auto.
      destruct (teq s s') eqn:T; [|reflexivity]. rewrite IH by assumption. apply set_ext. reflexivity.
Qed.

(** ** Deleting *)
Lemma visit_full : forall t full, visit full t = pre full (visit [] t).
Proof.
  induction t as [k v ch IH] using tree_ind2. intros full. cbn [visit]. rewrite pre_app. f_equal; [|cbn; rewrite app_nil_r; reflexivity].
  induction IH as [|c ch Hc _ IHch]; [reflexivity|]. cbn [flat_map]. rewrite pre_app, <- IHch, (Hc (full ++ [tkey c])), (Hc ([] ++ [tkey c])), pre_pre. reflexivity.
Qed.
Lemma del_full : forall k full t, del full t k = match del [] t k with Some (t', n) => Some (t', pre full n) | None => None end.
Proof.
  induction k as [|s r IH]; intros full t; cbn [del].
  - rewrite visit_full. reflexivity.
  - destruct (child (tch t) s) as [c|]; [|reflexivity]. rewrite (IH (full ++ [tkey c])), (IH ([] ++ [tkey c])).
    destruct (del [] c r) as [[c' n]|]; [|reflexivity]. rewrite pre_pre. reflexivity.
Qed.
Lemma visit_tells : forall t, WF t -> tells (lk t) nothing (visit [] t).
Proof.
  induction t as [k v ch IH] using tree_ind2. intros W. pose proof (WF_inv _ W) as (P & N & F). cbn [tch] in *.
  rewrite Forall_forall in IH, P, F. cbn [visit]. split.
  - intros p w H. apply in_app_iff in H. destruct H as [H|[E|[]]].
    + apply in_flat_map in H. destruct H as (c & Hc & H). rewrite visit_full in H. unfold pre in H. apply in_map_iff in H.
      destruct H as ([q u] & E & H). cbn in E. injection E as <- <-. destruct (IH c Hc (F c Hc)) as [T _ _].
      destruct (T q u H) as (Pq & <- & Nq). split; [constructor; auto|]. split; [reflexivity|]. cbn [app lk tch].
      assert (C : child ch (tkey c) = Some c) by (apply child_in; auto using plain_nulf; rewrite Forall_forall; exact P).
      rewrite C. exact Nq.
    + injection E as <- <-. split; [constructor|]. split; [reflexivity|]. discriminate.
  - intros [|s r] Pp H.
    + exists [], None. split; [|reflexivity]. apply in_app_iff. right. left. reflexivity.
    + inversion Pp as [|? ? Ps Pr]; subst. cbn [lk tch] in H. destruct (child ch s) as [c|] eqn:Ec; [|elim H; reflexivity].
      pose proof Ec as Hin. apply child_in in Hin; auto using plain_nulf; [|rewrite Forall_forall; exact P]. destruct Hin as [Hc El].
      destruct (IH c Hc (F c Hc)) as [_ A _]. destruct (A r Pr H) as (q & u & Hq & Sq). exists (tkey c :: q), u. split.
      * apply in_app_iff. left. apply in_flat_map. exists c. split; [exact Hc|]. rewrite visit_full. unfold pre. apply in_map_iff. exists (q, u). auto.
      * rewrite same_cons, Sq. apply andb_true_iff. split; [apply teq_spec; exact El|reflexivity].
  - rewrite map_app. cbn [map fst lows]. apply NoDup_Add with (a := []) (l := map (fun x => lows (fst x)) (flat_map (fun c => visit ([] ++ [tkey c]) c) ch)).
    { rewrite <- (app_nil_r (map _ _)) at 1. apply Add_app. }
    split.
    + clear W. induction ch as [|c ch IHch]; [constructor|]. cbn [flat_map]. rewrite map_app. cbn [map] in N. inversion N as [|? ? N1 N2]; subst.
      assert (Hc : forall x, In x (map (fun x => lows (fst x)) (visit ([] ++ [tkey c]) c)) -> exists r, x = low (tkey c) :: r).
      { intros x H. rewrite visit_full in H. unfold pre in H. rewrite map_map in H. apply in_map_iff in H. destruct H as (y & <- & _). cbn. eexists. reflexivity. }
      assert (Hch : forall x, In x (map (fun x => lows (fst x)) (flat_map (fun c => visit ([] ++ [tkey c]) c) ch)) -> exists d r, In d ch /\ x = low (tkey d) :: r).
      { intros x H. apply in_map_iff in H. destruct H as (y & <- & H). apply in_flat_map in H. destruct H as (d & Hd & H).
        rewrite visit_full in H. unfold pre in H. apply in_map_iff in H. destruct H as (z & <- & _). cbn. eauto. }
      apply NoDup_app_intro.
      * rewrite visit_full. unfold pre. rewrite map_map. destruct (IH c (or_introl eq_refl) (F c (or_introl eq_refl))) as [_ _ O].
        rewrite (map_ext _ (fun x => low (tkey c) :: lows (fst x))) by (intros; reflexivity).
        rewrite <- (map_map (fun x => lows (fst x)) (cons (low (tkey c)))). apply FinFun.Injective_map_NoDup; [|exact O]. intros x y E. injection E as ->. reflexivity.
      * apply IHch; auto using in_cons. 
      * intros x H1 H2. apply Hc in H1. apply Hch in H2. destruct H1 as (r1 & ->), H2 as (d & r2 & Hd & E). injection E as E _. apply N1. rewrite E.
        apply (in_map (fun c : tree bytes => low (tkey c))). exact Hd.
    + intros H. apply in_map_iff in H. destruct H as (y & E & H). apply in_flat_map in H. destruct H as (d & Hd & H).
      rewrite visit_full in H. unfold pre in H. apply in_map_iff in H. destruct H as (z & <- & _). discriminate.
Qed.

Lemma tells_ext m1 m1' m2 m2' n : (forall k, Forall plain k -> m1 k = m2 k) -> (forall k, Forall plain k -> m1' k = m2' k) ->
  tells m1 m1' n -> tells m2 m2' n.
Proof.
  intros E E' [T A O]. split; [| |exact O].
  - intros k v H. destruct (T k v H) as (P & T1 & T2). rewrite <- E, <- E' by exact P. auto.
  - intros k P N. apply A; [exact P|]. rewrite E, E' by exact P. exact N.
Qed.
(** A change below one child. *)
Lemma tells_below m m' n s0 : plain s0 ->
  (forall s r, plain s -> Forall plain r -> teq s0 s = true -> m (s :: r) = m (s0 :: r) /\ m' (s :: r) = m' (s0 :: r)) ->
  (forall s r, plain s -> Forall plain r -> teq s0 s = false -> m (s :: r) = m' (s :: r)) -> m [] = m' [] ->
  tells (fun k => m (s0 :: k)) (fun k => m' (s0 :: k)) n -> tells m m' (pre [s0] n).
Proof.
  intros P0 Es Eo En [T A O]. split.
  - intros k v H. unfold pre in H. apply in_map_iff in H. destruct H as ([q u] & E & H). cbn in E. injection E as <- <-.
    destruct (T q u H) as (Pq & T1 & T2). split; [constructor; assumption|]. auto.
  - intros [|s r] P N; [congruence|]. pose proof (Forall_inv P) as Ps. pose proof (Forall_inv_tail P) as Pr. cbv beta in *.
    destruct (teq s0 s) eqn:E; [|elim N; apply Eo; assumption]. destruct (Es s r Ps Pr E) as [E1 E2]. rewrite E1, E2 in N.
    destruct (A r Pr N) as (q & u & Hq & Sq). exists (s0 :: q), u. split.
    + unfold pre. apply in_map_iff. exists (q, u). auto.
    + rewrite same_cons, E, Sq. reflexivity.
  - unfold pre. rewrite map_map. rewrite (map_ext _ (fun x => low s0 :: lows (fst x))) by (intros; reflexivity).
    rewrite <- (map_map (fun x => lows (fst x)) (cons (low s0))). apply FinFun.Injective_map_NoDup; [|exact O]. intros x y E. injection E as ->. reflexivity.
Qed.
Lemma tells_same m n : tells m m n -> n = [].
Proof. intros [T _ _]. destruct n as [|[k v] n]; [reflexivity|]. destruct (T k v (or_introl eq_refl)) as (_ & H1 & H2). contradiction. Qed.
Lemma tells_nil m m' : (forall k, Forall plain k -> m k = m' k) -> tells m m' [].
Proof. intros E. split; [intros k v []|intros k P N; elim N; apply E, P|constructor]. Qed.

Lemma del_ok : forall k t, WF t -> Forall plain k ->
  match del [] t k with
  | Some (t', n) => WFo t' /\ (forall t1, t' = Some t1 -> tkey t1 = tkey t) /\ (t' = None -> k = []) /\
      (forall k', Forall plain k' -> lko t' k' = set_spec (lk t) k None k') /\ tells (lk t) (lko t') n /\ lk t k <> None
  | None => lk t k = None
  end.
Proof.
  induction k as [|s r IH]; intros t W P; cbn [del].
  - split; [exact I|]. split; [discriminate|]. split; [reflexivity|]. split; [intros k' _; reflexivity|]. split; [apply visit_tells; assumption|]. discriminate.
  - pose proof (Forall_inv P) as Ps. pose proof (Forall_inv_tail P) as Pr. cbn [lk]. destruct (child (tch t) s) as [c|] eqn:Ec; [|reflexivity].
    pose proof (child_plain t s c W Ec) as [Pc Wc]. rewrite del_full. specialize (IH c Wc Pr). destruct (del [] c r) as [[c' n]|]; [|exact IH].
    destruct IH as (Wc' & Tk & Nn & L & T & NN). destruct t as [k0 v0 ch]. cbn [tch tkey tval] in *.
    pose proof (WF_inv _ W) as (Pch & Nch & Fch). cbn [tch] in *. pose proof Ec as Hin. apply child_in in Hin; auto using plain_nulf. destruct Hin as [_ El].
    assert (W' : WF (Node k0 v0 (with_child ch s c'))).
    { destruct c' as [c'|]; [eapply WF_with_child; eauto|eapply WF_without; eauto]. }
    assert (C : forall s', plain s' -> child (with_child ch s c') s' = if teq s s' then c' else child ch s').
    { intros s' Ps'. destruct c' as [c'|].
      - apply (child_replace (Node k0 v0 ch) s c c' s'); auto using plain_nulf.
      - apply (child_remove (Node k0 v0 ch) s c s'); auto using plain_nulf. }
    split; [exact W'|]. split; [intros t1 E; injection E as <-; reflexivity|]. split; [discriminate|]. split; [|split; [|exact NN]].
    + intros [|s' r'] Pk; [reflexivity|]. rewrite set_cons. pose proof (Forall_inv Pk) as Ps'. pose proof (Forall_inv_tail Pk) as Pr'. cbn [lko lk tch].
      rewrite C by assumption. destruct (teq s s') eqn:E; [|reflexivity]. pose proof (child_same (Node k0 v0 ch) s s' W Ps Ps' E) as Cs. cbn [tch] in Cs.
      specialize (L r' Pr'). unfold set_spec in *. rewrite Cs, Ec, <- L. destruct c'; reflexivity.
    + assert (Tc : teq s (tkey c) = true) by (apply teq_spec; symmetry; exact El).
      apply tells_below.
      * exact Pc.
      * intros s' r' Ps' Pr' E. cbn [lko lk tch]. rewrite !C by assumption. rewrite Tc.
        assert (E2 : teq s s' = true) by (rewrite (teq_trans (tkey c) s s') ; [exact E|apply teq_spec; exact El]).
        rewrite E2. pose proof (child_same (Node k0 v0 ch) s s' W Ps Ps' E2) as C1. pose proof (child_same (Node k0 v0 ch) s (tkey c) W Ps Pc Tc) as C2.
        cbn [tch] in C1, C2. rewrite C1, C2. auto.
      * intros s' r' Ps' Pr' E. cbn [lko lk tch]. rewrite C by assumption.
        assert (E2 : teq s s' = false) by (rewrite (teq_trans (tkey c) s s') ; [exact E|apply teq_spec; exact El]).
        rewrite E2. reflexivity.
      * reflexivity.
      * pose proof (child_same (Node k0 v0 ch) s (tkey c) W Ps Pc Tc) as C2. cbn [tch] in C2.
        eapply tells_ext; [| |exact T].
        -- intros k' Pk. cbn [lk tch]. rewrite C2, Ec. reflexivity.
        -- intros k' Pk. cbn [lko lk tch]. rewrite C by assumption. rewrite Tc. destruct c'; reflexivity.
Qed.

(** ** Creating *)
Lemma ins_tells v : forall rest node k0, WFo node -> Forall plain rest ->
  tells (lko node) (lk (fst (fst (ins [] node k0 rest v)))) (snd (fst (ins [] node k0 rest v))).
Proof.
  induction rest as [|s r IH]; intros node k0 W P.
  - destruct node as [[k v0 ch]|]; cbn [ins].
    + destruct (list_eq_dec ascii_dec v v0) as [->|N]; cbn [fst snd]; [apply tells_nil; reflexivity|]. split.
      * intros k' v' [E|[]]. injection E as <- <-. split; [constructor|]. split; [reflexivity|]. cbn. congruence.
      * intros [|s r] Pk H; [|elim H; reflexivity]. exists [], (Some v). split; [left; reflexivity|reflexivity].
      * repeat constructor. intros [].
    + cbn [fst snd]. split.
      * intros k' v' [E|[]]. injection E as <- <-. split; [constructor|]. split; [reflexivity|]. cbn. congruence.
      * intros [|s r] Pk H; [|elim H; reflexivity]. exists [], (Some v). split; [left; reflexivity|reflexivity].
      * repeat constructor. intros [].
  - pose proof (Forall_inv P) as Ps. pose proof (Forall_inv_tail P) as Pr. destruct node as [[k v0 ch]|]; cbn [ins].
    + pose proof (WF_inv _ W) as (Pch & Nch & Fch). cbn [tch] in *. destruct (child ch s) as [c|] eqn:Ec.
      * pose proof (child_plain (Node k v0 ch) s c W Ec) as [Pc Wc]. specialize (IH (Some c) s Wc Pr).
        pose proof (ins_tkey [] (Some c) s r v) as Tk. rewrite ins_full.
        destruct (ins [] (Some c) s r v) as [[c' n] d]. cbn [fst snd] in *.
        pose proof Ec as Hin. apply child_in in Hin; auto using plain_nulf. destruct Hin as [_ El].
        assert (Tc : teq s (tkey c) = true) by (apply teq_spec; symmetry; exact El).
        assert (C : forall s', plain s' -> child (with_child ch s (Some c')) s' = if teq s s' then Some c' else child ch s').
        { intros s' Ps'. apply (child_replace (Node k v0 ch) s c c' s'); auto using plain_nulf. }
        apply tells_below.
        -- exact Pc.
        -- intros s' r' Ps' Pr' E. cbn [lko lk tch]. rewrite !C by assumption. rewrite Tc.
           assert (E2 : teq s s' = true) by (rewrite (teq_trans (tkey c) s s') ; [exact E|apply teq_spec; exact El]).
           rewrite E2. pose proof (child_same (Node k v0 ch) s s' W Ps Ps' E2) as C1. pose proof (child_same (Node k v0 ch) s (tkey c) W Ps Pc Tc) as C2.
           cbn [tch] in C1, C2. rewrite C1, C2. auto.
        -- intros s' r' Ps' Pr' E. cbn [lko lk tch]. rewrite C by assumption.
           assert (E2 : teq s s' = false) by (rewrite (teq_trans (tkey c) s s') ; [exact E|apply teq_spec; exact El]).
           rewrite E2. reflexivity.
        -- reflexivity.
        -- pose proof (child_same (Node k v0 ch) s (tkey c) W Ps Pc Tc) as C2. cbn [tch] in C2.
           eapply tells_ext; [| |exact IH].
           ++ intros k' Pk. cbn [lko lk tch]. rewrite C2, Ec. reflexivity.
           ++ intros k' Pk. cbn [lko lk tch]. rewrite C by assumption. rewrite Tc. reflexivity.
      * specialize (IH None s I Pr). pose proof (ins_tkey [] None s r v) as Tk. rewrite ins_full.
        destruct (ins [] None s r v) as [[c' n] d]. cbn [fst snd] in *.
        assert (C : forall s', plain s' -> child (ch ++ [c']) s' = if teq s s' then Some c' else child ch s').
        { intros s' Ps'. rewrite <- Tk. apply child_added; rewrite ?Tk; auto using plain_nulf. }
        apply tells_below.
        -- exact Ps.
        -- intros s' r' Ps' Pr' E. cbn [lko lk tch]. rewrite !C by assumption. rewrite teq_refl, E.
           pose proof (child_same (Node k v0 ch) s s' W Ps Ps' E) as C1. cbn [tch] in C1. rewrite C1. auto.
        -- intros s' r' Ps' Pr' E. cbn [lko lk tch]. rewrite C by assumption. rewrite E. reflexivity.
        -- reflexivity.
        -- eapply tells_ext; [| |exact IH].
           ++ intros k' Pk. cbn [lko lk tch]. rewrite Ec. reflexivity.
           ++ intros k' Pk. cbn [lko lk tch]. rewrite C by assumption. rewrite teq_refl. reflexivity.
    + specialize (IH None s I Pr). pose proof (ins_tkey [] None s r v) as Tk. rewrite ins_full.
      destruct (ins [] None s r v) as [[c' n] d]. cbn [fst snd] in *. cbn [lko] in *.
      assert (C : forall s', plain s' -> child [c'] s' = if teq s s' then Some c' else None).
      { intros s' Ps'. rewrite child_one, Tk, same_seg_teq by auto using plain_nulf. reflexivity. }
      destruct IH as [T A O]. split.
      * intros k' v' [E|H].
        { injection E as <- <-. split; [constructor|]. split; [reflexivity|discriminate]. }
        unfold pre in H. apply in_map_iff in H. destruct H as ([q u] & E & H). cbn in E. injection E as <- <-.
        destruct (T q u H) as (Pq & T1 & T2). split; [constructor; assumption|]. cbn [lk tch]. rewrite C, teq_refl by assumption. auto.
      * intros [|s' r'] Pk N.
        { exists [], (Some []). split; [left; reflexivity|reflexivity]. }
        pose proof (Forall_inv Pk) as Ps'. pose proof (Forall_inv_tail Pk) as Pr'. cbn [lk tch] in N. rewrite C in N by assumption.
        destruct (teq s s') eqn:E; [|elim N; reflexivity]. destruct (A r' Pr' N) as (q & u & Hq & Sq). exists (s :: q), u. split.
        -- right. unfold pre. apply in_map_iff. exists (q, u). auto.
        -- rewrite same_cons, E, Sq. reflexivity.
      * cbn [map fst]. constructor.
        -- intros H. unfold pre in H. rewrite map_map in H. apply in_map_iff in H. destruct H as (z & E & _). discriminate.
        -- unfold pre. rewrite map_map. rewrite (map_ext _ (fun x => low s :: lows (fst x))) by (intros; reflexivity).
           rewrite <- (map_map (fun x => lows (fst x)) (cons (low s))). apply FinFun.Injective_map_NoDup; [|exact O]. intros x y E. injection E as ->. reflexivity.
Qed.
Lemma ins_dirty v : forall rest full node k0, snd (ins full node k0 rest v) = match snd (fst (ins full node k0 rest v)) with [] => false | _ => true end.
Proof.
  induction rest as [|s r IH]; intros full node k0; destruct node as [[k v0 ch]|]; cbn [ins]; try reflexivity.
  - destruct (list_eq_dec ascii_dec v v0); reflexivity.
  - destruct (child ch s) as [c|].
    + specialize (IH (full ++ [tkey c]) (Some c) s). destruct (ins (full ++ [tkey c]) (Some c) s r v) as [[c' n] d]. exact IH.
    + specialize (IH (full ++ [s]) None s). destruct (ins (full ++ [s]) None s r v) as [[c' n] d]. exact IH.
  - destruct (ins (full ++ [s]) None s r v) as [[c' n] d]. reflexivity.
Qed.

(** ** Shuffling *)
(** ** Operations *)
Lemma isempty_ne s k : isempty (s :: k) = false.
Proof. reflexivity. Qed.
Lemma last_seg_plain k : k <> [] -> Forall plain k -> isempty (collapse (skipn (length k - 1) k)) = false.
Proof.
  intros Hk P. destruct (exists_last Hk) as (l & x & ->). rewrite app_length, Nat.add_sub. rewrite skipn_app, Nat.sub_diag, skipn_all. cbn [app skipn].
  apply isempty_plain. rewrite Forall_app in P. destruct P as [_ P]. exact (Forall_inv P).
Qed.
Lemma last_seg_trailing k : skipn (length (k ++ [[]]) - 1) (k ++ [[]]) = [@nil ascii] /\ firstn (length (k ++ [[]]) - 1) (k ++ [[]]) = k.
Proof.
  rewrite app_length, Nat.add_sub. split.
  - rewrite skipn_app, Nat.sub_diag, skipn_all. reflexivity.
  - rewrite firstn_app, Nat.sub_diag, firstn_all. cbn. apply app_nil_r.
Qed.

Definition has (g : gen) : contents := lko (root g).
Lemma tset_ok g k v g' n : WFo (root g) -> canonical k -> tset g k v = (g', n) ->
  WFo (root g') /\ (forall k', Forall plain k' -> has g' k' = set_key (has g) (k, v) k') /\ tells (has g) (has g') n /\
  dirty g' = dirty g || match n with [] => false | _ => true end.
Proof.
  intros W Hc H. unfold tset in H.
  assert (K : strip k = (named k, slashed k) /\ Forall plain (named k)).
  { destruct Hc as [P|(k' & Hk & P & ->)].
    - unfold strip, last_seg. destruct (plain_slashed k P) as [-> ->]. split; [|exact P]. destruct k as [|s r]; [reflexivity|]. rewrite isempty_ne.
      cbv zeta. rewrite last_seg_plain by (auto; discriminate). reflexivity.
    - unfold strip, last_seg. destruct (trailing_slashed k' P) as [-> ->]. split; [|exact P]. destruct (last_seg_trailing k') as [-> ->]. rewrite (plain_collapse k' P).
      destruct k' as [|s r]; [congruence|]. reflexivity. }
  destruct K as [K P]. rewrite K in H. clear K. unfold set_key.
  assert (SP : slashed k = false -> named k = k).
  { intros Hs. destruct Hc as [Q|(k' & Hk & Q & E)]; [apply plain_slashed; exact Q|]. subst. destruct (trailing_slashed k' Q). congruence. }
  destruct v as [v|].
  - destruct (slashed k) eqn:Es.
    + injection H as <- <-. split; [exact W|]. split; [reflexivity|]. split; [apply tells_nil; reflexivity|]. rewrite orb_false_r. reflexivity.
    + rewrite SP in * by reflexivity. pose proof (ins_WF v k [] (root g) [] W P) as W'. pose proof (ins_lk v k [] (root g) [] W P) as L.
      pose proof (ins_tells v k (root g) [] W P) as T. pose proof (ins_dirty v k [] (root g) []) as D.
      destruct (ins [] (root g) [] k v) as [[t' n'] d]. cbn [fst snd] in *. injection H as <- <-. cbn [root dirty].
      split; [exact W'|]. split; [exact L|]. split; [exact T|]. rewrite D. reflexivity.
  - assert (ET : (if slashed k then set_spec (has g) (named k) None else set_spec (has g) k None) = set_spec (has g) (named k) None).
    { destruct (slashed k) eqn:Es; [reflexivity|rewrite SP; reflexivity]. }
    rewrite ET. unfold has in *. destruct (root g) as [t|] eqn:Er.
    + pose proof (del_ok (named k) t W P) as D. destruct (del [] t (named k)) as [[t' n']|].
      * injection H as <- <-. cbn [root dirty]. destruct D as (W' & _ & _ & L & T & NN). split; [exact W'|]. split; [exact L|]. split; [exact T|].
        destruct n' as [|x n']; [|rewrite orb_true_r; reflexivity]. exfalso.
        destruct T as [_ A _]. destruct (A (named k) P) as (? & ? & [] & _). rewrite L by exact P. unfold set_spec.
        assert (under (named k) (named k) = true) as -> by (apply under_lows; exists []; rewrite app_nil_r; reflexivity). exact NN.
      * injection H as <- <-. rewrite Er. split; [exact W|]. split; [|split; [apply tells_nil; reflexivity|rewrite orb_false_r; reflexivity]].
        intros k' Pk'. unfold set_spec. destruct (under (named k) k') eqn:U; [|reflexivity]. cbn [lko].
        revert D U. generalize (named k) as q, P. clear - W Pk'. intros q Pq. revert t k' W Pk'. induction q as [|s q IH]; intros t k' W Pk' D U; [discriminate|].
        destruct k' as [|s' k']; [discriminate|]. cbn in U. apply andb_true_iff in U. destruct U as [U1 U2].
        pose proof (Forall_inv Pq) as Ps. pose proof (Forall_inv_tail Pq) as Pqs. pose proof (Forall_inv Pk') as Ps'. pose proof (Forall_inv_tail Pk') as Pks.
        cbn [lk] in *. rewrite (child_same t s s' W Ps Ps' U1). destruct (child (tch t) s) as [c|] eqn:Ec; [|reflexivity].
        apply IH; auto. eapply child_plain; eauto.
    + injection H as <- <-. rewrite Er. split; [exact I|]. split; [|split; [apply tells_nil; reflexivity|rewrite orb_false_r; reflexivity]].
      intros k' _. unfold set_spec. cbn [lko]. destruct (under _ _); reflexivity.
Qed.

(** ** Lookups *)
Lemma isempty_klast k : canonical k -> negb (isempty k) && isempty (last_seg k) = slashed k.
Proof.
  intros [P|(k' & Hk & P & ->)].
  - destruct (plain_slashed k P) as [-> _]. destruct k as [|s r]; [reflexivity|]. rewrite isempty_ne. cbn [negb andb].
    apply last_seg_plain; [discriminate|exact P].
  - destruct (trailing_slashed k' P) as [-> _]. destruct k' as [|s r]; [congruence|]. cbn [app]. rewrite isempty_ne. cbn [negb andb].
    change (s :: r ++ [[]]) with ((s :: r) ++ [[]]) in *. unfold last_seg. destruct (last_seg_trailing (s :: r)) as [-> _]. reflexivity.
Qed.
Lemma tget_has g k : canonical k -> tget g k = if slashed k then None else has g k.
Proof.
  intros Hc. unfold tget, has. destruct (root g) as [t|]; [|destruct (slashed k); reflexivity]. rewrite isempty_klast by assumption.
  destruct (slashed k) eqn:E; [reflexivity|]. cbn [lko]. pose proof (find_lk t k (or_introl Hc)) as F.
  assert (named k = k) as En.
  { destruct Hc as [P|(k' & _ & P & ->)]; [apply plain_slashed; exact P|]. destruct (trailing_slashed k' P). congruence. }
  rewrite En in F. destruct (find t k) as [n|]; destruct F as [-> _]; reflexivity.
Qed.

(** ** Histories *)
Lemma has_low g k k' : WFo (root g) -> Forall plain k -> Forall plain k' -> same k k' = true -> has g k = has g k'.
Proof. unfold has. intros W P P' E. destruct (root g) as [t|]; [|reflexivity]. apply lk_low; assumption. Qed.
Lemma replay_app a b m : replay (a ++ b) m = replay b (replay a m).
Proof. apply fold_left_app. Qed.
Lemma replay_ext n : forall m m' k, m k = m' k -> replay n m k = replay n m' k.
Proof.
  induction n as [|x n IH]; intros m m' k E; [exact E|]. apply (IH (note m x) (note m' x)). unfold note. rewrite E. reflexivity.
Qed.
Lemma option_eq_dec {A} (d : forall x y : A, {x = y} + {x <> y}) (a b : option A) : {a = b} + {a <> b}.
Proof. decide equality. Defined.
Lemma tells_replay g' m n k : WFo (root g') -> tells m (has g') n -> Forall plain k -> replay n m k = has g' k.
Proof.
  intros W [T A _] P.
  assert (G : forall l m0, (forall x, In x l -> In x n) -> (m0 k = has g' k \/ exists k0 v, In (k0, v) l /\ same k0 k = true) -> replay l m0 k = has g' k).
  { induction l as [|[k1 v1] l IH]; intros m0 Hl H.
    - destruct H as [H|(k0 & v & [] & _)]. exact H.
    - apply (IH (note m0 (k1, v1))); [intros x Hx; apply Hl; right; exact Hx|]. unfold note. cbn [fst snd].
      destruct (same k1 k) eqn:E.
      + left. destruct (T k1 v1 (Hl _ (or_introl eq_refl))) as (P1 & <- & _). apply has_low; assumption.
      + destruct H as [H|(k0 & v & [E0|H] & S0)]; [left; exact H| |right; eauto].
        injection E0 as -> ->. congruence. }
  apply G; [auto|]. destruct (option_eq_dec (list_eq_dec ascii_dec) (m k) (has g' k)) as [E|N]; [left; exact E|right; apply A; assumption].
Qed.

Definition same_contents (m m' : contents) : Prop := forall k, Forall plain k -> m k = m' k.
Lemma set_key_ext m m' kv : same_contents m m' -> same_contents (set_key m kv) (set_key m' kv).
Proof. intros E k P. destruct kv as [k0 v]. unfold set_key. destruct (slashed k0); [destruct v; [apply E; exact P|]|]; apply set_ext, E, P. Qed.
Lemma sets_ext hs : forall m m', same_contents m m' -> same_contents (fold_left set_key hs m) (fold_left set_key hs m').
Proof. induction hs as [|h hs IH]; intros m m' E; [exact E|]. cbn [fold_left]. apply IH, set_key_ext, E. Qed.

Lemma history_ok g hs ns g' : history g hs ns g' -> WFo (root g) -> Forall (fun h => canonical (fst h)) hs ->
  WFo (root g') /\ same_contents (has g') (fold_left set_key hs (has g)) /\ (forall m, same_contents m (has g) -> same_contents (replay ns m) (has g')) /\
  dirty g' = dirty g || match ns with [] => false | _ => true end.
Proof.
  induction 1 as [g|g k v g1 n hs ns g' Hs Hh IH|d t t' hs ns g' Hs Hh IH]; intros W C.
  - split; [exact W|]. split; [intros k P; reflexivity|]. split; [auto|]. rewrite orb_false_r. reflexivity.
  - pose proof (Forall_inv C) as C1. pose proof (Forall_inv_tail C) as C2. cbn in C1.
    destruct (tset_ok g k v g1 n W C1 Hs) as (W1 & E1 & T1 & D1). destruct (IH W1 C2) as (W' & E' & R' & D').
    split; [exact W'|]. split; [|split].
    + intros q P. rewrite E' by exact P. cbn [fold_left]. apply sets_ext; [|exact P]. exact E1.
    + intros m Em. rewrite replay_app. apply R'. intros q P. rewrite (replay_ext n m (has g)) by (apply Em, P). apply tells_replay; assumption.
    + rewrite D', D1. destruct n; [rewrite orb_false_r; reflexivity|]. cbn [app]. rewrite !orb_true_r. reflexivity.
  - destruct (shuffle_ok t t' Hs W) as (W1 & _ & _ & L). destruct (IH W1 C) as (W' & E' & R' & D').
    assert (S : same_contents (has {| root := Some t'; dirty := d |}) (has {| root := Some t; dirty := d |})) by (intros q P; apply L, P).
    split; [exact W'|]. split; [|split].
    + intros q P. rewrite E' by exact P. apply sets_ext; [exact S|exact P].
    + intros m Em. apply R'. intros q P. rewrite Em by exact P. symmetry. apply S, P.
    + exact D'.
Qed.

Lemma reach hs ns g : history tinit hs ns g -> Forall (fun h => canonical (fst h)) hs ->
  WFo (root g) /\ same_contents (has g) (sets hs) /\ same_contents (replay ns nothing) (has g) /\ dirty g = match ns with [] => false | _ => true end.
Proof.
  intros H C. destruct (history_ok _ _ _ _ H I C) as (W & E & R & D). split; [exact W|]. split; [exact E|]. split; [|exact D].
  apply R. intros k _. reflexivity.
Qed.

Lemma children_ok (n : tree bytes) s v : WF n -> plain s -> lk n [s] = Some v <-> exists s0, In (s0, v) (map (fun c : tree bytes => (tkey c, tval c)) (tch n)) /\ teq s0 s = true.
Proof.
  intros W Ps. pose proof (WF_inv _ W) as (P & N & F). cbn [lk]. split.
  - intros H. destruct (child (tch n) s) as [c|] eqn:Ec; [|discriminate]. injection H as <-. apply child_in in Ec; auto using plain_nulf. destruct Ec as [Hi El].
    exists (tkey c). split; [apply in_map_iff; exists c; auto|apply teq_spec; exact El].
  - intros (s0 & H & E). apply in_map_iff in H. destruct H as (c & Ec & Hi). injection Ec as <- <-. apply teq_spec in E.
    assert (child (tch n) s = Some c) as -> by (apply child_in; auto using plain_nulf). reflexivity.
Qed.
