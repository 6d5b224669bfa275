(** Proofs about walking through directories. *)
From Verif Require Import Base BaseFacts StrModel StrProps DiriSpec DiriModel.
Local Open Scope nat_scope.

Lemma below_folder enter full rel d kids : below enter full rel (Folder d true kids) = if enter d then listing enter full rel kids else [].
Proof. cbn [below]. destruct (enter d); [|reflexivity]. unfold listing. induction kids as [|[n t] l IH]; [reflexivity|]. cbn [flat_map fst snd]. rewrite IH. reflexivity. Qed.

Definition part (ns : list bytes) : bytes := concat (map (fun n => n ++ B "/") (rev ns)).
Lemma part_cons n ns : part (n :: ns) = part ns ++ n ++ B "/".
Proof. unfold part. cbn [rev]. rewrite map_app, concat_app. cbn [map concat]. rewrite app_nil_r. reflexivity. Qed.
Lemma part_dir n m ns : named n -> named m -> getdirname (part (n :: m :: ns)) = Ok (part ns ++ m).
Proof.
  intros [Nn Sn] [Nm _]. rewrite part_cons, part_cons. replace ((part ns ++ m ++ B "/") ++ n ++ B "/") with ((part ns ++ m) ++ B "/" ++ n ++ repeat "/"%char 1) by (rewrite <- !app_assoc; reflexivity).
  destruct (C67_names (part ns ++ m) n 1 Nn Sn) as (_ & -> & _). destruct (part ns ++ m) eqn:E; [|reflexivity]. apply app_eq_nil in E. destruct E; congruence.
Qed.

Fixpoint rem (enter : nat -> bool) (fs : list frame) (ns : list bytes) : list ent :=
  match fs with
  | [] => []
  | f :: fs => listing enter (dirname f) (part ns) (todo f) ++ rem enter fs (tl ns)
  end.
Definition top0 (s : iter) : nat := match topdev s with Some d => d | None => match dirs s with f :: _ => match todo f with (_, t) :: _ => dev t | [] => 0 end | [] => 0 end end.
Definition enters (s : iter) : nat -> bool := fun d => (recurse s && (negb (skip_mounts s) || Nat.eqb d (top0 s)))%bool.
Record inv (s : iter) (ns : list bytes) : Prop := Inv {
  i_len : S (length ns) = length (dirs s);
  i_rel : relpath s = part ns;
  i_names : Forall named ns;
  i_todo : Forall (fun f => proper_all (todo f)) (dirs s);
  i_top : topdev s = None -> length (dirs s) = 1 }.
Definition left_over (s : iter) (ns : list bytes) : list ent := rem (enters s) (dirs s) ns.

Lemma found_ok s f fs n t l ns : dirs s = f :: fs -> todo f = (n, t) :: l -> inv s ns -> go_up s = false ->
  exists s' ns', found s f fs n t l = (s', Ent (dirname f ++ B "/" ++ n) n (part ns ++ n) (is_folder t)) /\ inv s' ns' /\ go_up s' = false /\
    left_over s ns = Ent (dirname f ++ B "/" ++ n) n (part ns ++ n) (is_folder t) :: left_over s' ns' /\
    left_over s' ns' = below (enters s) (dirname f ++ B "/" ++ n) ((part ns ++ n) ++ B "/") t ++ rem (enters s) (Frame l (all f) (dirname f) :: fs) ns /\
    (forall d kids, t = Folder d true kids -> enters s d = true -> exists g, dirs s' = g :: Frame l (all f) (dirname f) :: fs /\ tl ns' = ns) /\ enters s' = enters s.
Proof.
  intros D T [L R N P TP] G.
  assert (TT : match topdev s with Some d => d | None => dev t end = top0 s) by (unfold top0; rewrite D, T; reflexivity).
  rewrite D in P. inversion P as [|? ? Pf Pfs]; subst. rewrite T in Pf. inversion Pf as [|? ? [Nn Pt] Pl]; subst. cbn [fst snd] in Nn, Pt.
  assert (P1 : Forall (fun f => proper_all (todo f)) (Frame l (all f) (dirname f) :: fs)) by (constructor; assumption).
  assert (L0 : left_over s ns = Ent (dirname f ++ B "/" ++ n) n (part ns ++ n) (is_folder t) :: below (enters s) (dirname f ++ B "/" ++ n) (part ns ++ n ++ B "/") t ++ rem (enters s) (Frame l (all f) (dirname f) :: fs) ns).
  { unfold left_over. rewrite D. cbn [rem todo dirname]. rewrite T. unfold listing at 1. cbn [flat_map fst snd]. cbn [app]. rewrite <- app_assoc. reflexivity. }
  assert (STAY : below (enters s) (dirname f ++ B "/" ++ n) (part ns ++ n ++ B "/") t = [] ->
    let s' := Iter (Frame l (all f) (dirname f) :: fs) (relpath s) (go_up s) (recurse s) (skip_mounts s) (Some (top0 s)) in
    inv s' ns /\ enters s' = enters s /\ left_over s ns = Ent (dirname f ++ B "/" ++ n) n (part ns ++ n) (is_folder t) :: left_over s' ns /\
    left_over s' ns = below (enters s) (dirname f ++ B "/" ++ n) ((part ns ++ n) ++ B "/") t ++ rem (enters s) (Frame l (all f) (dirname f) :: fs) ns).
  { intros Z s'. assert (E : enters s' = enters s) by reflexivity. split; [constructor; cbn; try assumption; [rewrite L, D; reflexivity|discriminate]|]. split; [exact E|]. rewrite L0. rewrite <- app_assoc, Z. split; reflexivity. }
  unfold found. rewrite TT, R. destruct t as [d|d [] kids].
  - exists (Iter (Frame l (all f) (dirname f) :: fs) (relpath s) (go_up s) (recurse s) (skip_mounts s) (Some (top0 s))), ns. destruct (STAY eq_refl) as (A1 & A2 & A3 & A4). rewrite R in *. split; [reflexivity|]. split; [exact A1|]. split; [exact G|]. split; [exact A3|]. split; [exact A4|]. split; [discriminate|exact A2].
  - destruct (recurse s && (negb (skip_mounts s) || Nat.eqb d (top0 s)))%bool eqn:EN.
    + eexists _, (n :: ns). split; [reflexivity|]. assert (Pk : proper_all kids) by (inversion Pt; assumption). split; [constructor; cbn; [rewrite L, D; reflexivity|symmetry; apply (part_cons n ns)|constructor; assumption|constructor; assumption|discriminate]|]. split; [exact G|].
      assert (EQ : left_over (Iter (Frame kids kids (dirname f ++ B "/" ++ n) :: Frame l (all f) (dirname f) :: fs) (part ns ++ n ++ B "/") (go_up s) (recurse s) (skip_mounts s) (Some (top0 s))) (n :: ns) = below (enters s) (dirname f ++ B "/" ++ n) (part ns ++ n ++ B "/") (Folder d true kids) ++ rem (enters s) (Frame l (all f) (dirname f) :: fs) ns).
      { unfold left_over. cbn [dirs]. rewrite below_folder. unfold enters at 2. rewrite EN. cbn [rem tl todo dirname]. rewrite part_cons. reflexivity. }
      split; [rewrite L0, EQ; reflexivity|]. split; [rewrite EQ, <- app_assoc; reflexivity|]. split; [intros; eexists; split; reflexivity|reflexivity].
    + eexists _, ns. split; [reflexivity|]. assert (Z : below (enters s) (dirname f ++ B "/" ++ n) (part ns ++ n ++ B "/") (Folder d true kids) = []) by (rewrite below_folder; unfold enters; rewrite EN; reflexivity).
      destruct (STAY Z) as (A1 & A2 & A3 & A4). rewrite R in *. split; [exact A1|]. split; [exact G|]. split; [exact A3|]. split; [exact A4|]. split; [|exact A2]. intros d0 k0 E X. injection E as <- <-. unfold enters in X. congruence.
  - exists (Iter (Frame l (all f) (dirname f) :: fs) (relpath s) (go_up s) (recurse s) (skip_mounts s) (Some (top0 s))), ns. destruct (STAY eq_refl) as (A1 & A2 & A3 & A4). rewrite R in *. split; [reflexivity|]. split; [exact A1|]. split; [exact G|]. split; [exact A3|]. split; [exact A4|]. split; [discriminate|exact A2].
Qed.

(** What [read] gives. *)
Definition in_frame (fs : list frame) (p : bytes) (t : tree) : Prop := exists f n, In f fs /\ In (n, t) (todo f) /\ p = dirname f ++ B "/" ++ n.
Definition gives (s : iter) (ns : list bytes) (r : res (iter * option ent)) : Prop :=
  (left_over s ns = [] /\ exists s' ns', r = Ok (s', None) /\ inv s' ns' /\ go_up s' = false /\ left_over s' ns' = []) \/
  (exists e s' ns' t c, r = Ok (s', Some e) /\ inv s' ns' /\ go_up s' = false /\ left_over s ns = e :: left_over s' ns' /\ (folder e = is_folder t /\ in_frame (dirs s) (fullname e) t) /\ enters s' = enters s /\
     left_over s' ns' = below (enters s) (fullname e) (relname e ++ B "/") t ++ c /\
     (forall d kids, t = Folder d true kids -> enters s d = true -> exists g fs, dirs s' = g :: fs /\ fs <> [] /\ c = rem (enters s) fs (tl ns'))).

Lemma read_ok : forall fuel s ns, length (dirs s) < fuel -> inv s ns -> go_up s = false -> gives s ns (read fuel s).
Proof.
  induction fuel as [|fuel IH]; intros s ns LF I G; [lia|]. cbn [read]. pose proof I as [L R N P TP]. destruct (dirs s) as [|f fs] eqn:D; [discriminate L|]. destruct (todo f) as [|[n t] l] eqn:T.
  - destruct fs as [|f2 fs].
    + left. assert (Z : left_over s ns = []) by (unfold left_over; rewrite D; cbn [rem]; rewrite T; reflexivity). split; [exact Z|]. exists s, ns. auto.
    + destruct ns as [|n ns]; [discriminate L|]. cbn in L. assert (NT : exists d, topdev s = Some d) by (destruct (topdev s); [eauto|specialize (TP eq_refl); discriminate TP]). destruct NT as (d0 & NT).
      assert (RL : match f2 :: fs with [_] => Ok [] | _ => let! d := getdirname (relpath s) in Ok (d ++ B "/") end = Ok (part ns)).
      { destruct fs as [|f3 fs]; [destruct ns; [reflexivity|discriminate L]|]. destruct ns as [|m ns]; [discriminate L|]. inversion N as [|? ? N1 N2]; subst. inversion N2 as [|? ? N3 N4]; subst. rewrite R, part_dir by assumption. cbn [bind]. rewrite part_cons, <- app_assoc. reflexivity. }
      cbv zeta. rewrite RL. cbn [bind].
      set (s1 := Iter (f2 :: fs) (part ns) (go_up s) (recurse s) (skip_mounts s) (topdev s)).
      assert (I1 : inv s1 ns). { inversion N; subst. inversion P; subst. constructor; cbn; try assumption; [cbn in L; lia|reflexivity|congruence]. }
      assert (EN : enters s1 = enters s) by (unfold enters, top0, s1; cbn; rewrite NT; reflexivity).
      assert (LO : left_over s (n :: ns) = left_over s1 ns). { unfold left_over. rewrite D, EN. cbn [rem tl dirs s1]. rewrite T. reflexivity. }
      assert (X := IH s1 ns ltac:(cbn in *; lia) I1 G). unfold gives in *. rewrite LO, <- EN. destruct X as [X|(e & s' & ns' & t & c & E1 & X1 & X2 & X3 & [X4 (g & m & Y1 & Y2)] & X5)]; [left; exact X|]. right. exists e, s', ns', t, c. split; [exact E1|]. split; [exact X1|]. split; [exact X2|]. split; [exact X3|]. split; [|exact X5]. split; [exact X4|]. exists g, m. split; [rewrite D; right; exact Y1|exact Y2].
  - destruct (found_ok s f fs n t l ns D T I G) as (s' & ns' & E & I' & G' & LO & BL & UP & EN). rewrite E. right. eexists _, s', ns', t, _. split; [reflexivity|]. split; [exact I'|]. split; [exact G'|]. split; [exact LO|]. split; [split; [reflexivity|exists f, n; rewrite D, T; split; [left; reflexivity|split; [left; reflexivity|reflexivity]]]|]. split; [exact EN|]. split; [exact BL|].
    intros d kids Et En. destruct (UP d kids Et En) as (g & Dg & Tn). exists g, (Frame l (all f) (dirname f) :: fs). split; [exact Dg|]. split; [discriminate|]. rewrite Tn. reflexivity.
Qed.

Lemma next_ok s ns : inv s ns -> go_up s = false -> gives s ns (next s).
Proof. intros I G. unfold next. destruct (dirs s) as [|f fs] eqn:D; [destruct I as [L _ _ _ _]; rewrite D in L; discriminate L|]. rewrite G, <- D. apply read_ok; [lia|exact I|exact G]. Qed.
Lemma collect_ok : forall n s ns, inv s ns -> go_up s = false -> length (left_over s ns) <= n -> forall fuel, n < fuel -> collect fuel s = Ok (left_over s ns).
Proof.
  induction n as [|n IH]; intros s ns I G L fuel LF; (destruct fuel as [|fuel]; [lia|]); cbn [collect]; destruct (next_ok s ns I G) as [(Z & s' & ns' & E & _)|(e & s' & ns' & t & c & E & I' & G' & LO & _)]; rewrite E; cbn [bind].
  - rewrite Z. reflexivity.
  - rewrite LO in L. cbn in L. lia.
  - rewrite Z. reflexivity.
  - rewrite LO in L. cbn in L. rewrite (IH s' ns' I' G') by lia. cbn [bind]. rewrite LO. reflexivity.
Qed.

(** ** Without the relative names *)
Definition key (e : ent) : bytes * bytes * bool := (fullname e, fname e, folder e).
Fixpoint key_below enter (t : tree) : forall full r r', map key (below enter full r t) = map key (below enter full r' t).
Proof.
  intros full r r'. destruct t as [d|d [] kids]; [reflexivity| |reflexivity]. rewrite !below_folder. destruct (enter d); [|reflexivity]. clear d. revert r r'. unfold listing. induction kids as [|[n t] l IH]; intros r r'; [reflexivity|].
  cbn [flat_map fst snd]. rewrite !map_app. cbn [map]. rewrite (key_below enter t (full ++ B "/" ++ n) (r ++ n ++ B "/") (r' ++ n ++ B "/")), (IH r r'). reflexivity.
Qed.
Lemma key_listing enter full r r' l : map key (listing enter full r l) = map key (listing enter full r' l).
Proof. unfold listing. induction l as [|[n t] l IH]; [reflexivity|]. cbn [flat_map fst snd]. rewrite !map_app. cbn [map]. rewrite (key_below enter t _ (r ++ n ++ B "/") (r' ++ n ++ B "/")), IH. reflexivity. Qed.
Definition remk (enter : nat -> bool) (fs : list frame) := flat_map (fun f => map key (listing enter (dirname f) [] (todo f))) fs.
Lemma rem_key enter : forall fs ns, map key (rem enter fs ns) = remk enter fs.
Proof. induction fs as [|f fs IH]; intros ns; [reflexivity|]. cbn [rem remk flat_map]. rewrite map_app, IH. f_equal. apply key_listing. Qed.

Lemma strrchr_short : forall s p q, strrchr s = Some (p, q) -> length p < length s.
Proof.
  induction s as [|c s IH]; intros p q E; cbn [strrchr] in E; [discriminate|]. destruct (strrchr s) as [[p' q']|] eqn:X.
  - injection E as <- <-. cbn. specialize (IH p' q' eq_refl). lia.
  - destruct (Ascii.eqb c "/"); [|discriminate]. injection E as <- <-. cbn. lia.
Qed.
Lemma dirname_total : forall fuel s, length s < fuel -> exists r, StrModel.dirname fuel s = Ok r.
Proof.
  induction fuel as [|fuel IH]; intros s L; [lia|]. cbn [StrModel.dirname]. destruct s as [|c s]; [eauto|]. destruct (strrchr (c :: s)) as [[p [|x q]]|] eqn:E; [|eauto|eauto]. apply strrchr_short in E. apply IH. lia.
Qed.
Lemma read_keys : forall fuel s d, length (dirs s) < fuel -> dirs s <> [] -> topdev s = Some d ->
  exists s' o, read fuel s = Ok (s', o) /\ dirs s' <> [] /\ go_up s' = go_up s /\ topdev s' = Some d /\ enters s' = enters s /\
    match o with None => remk (enters s) (dirs s) = [] | Some e => remk (enters s) (dirs s) = key e :: remk (enters s) (dirs s') end.
Proof.
  induction fuel as [|fuel IH]; intros s d LF N TP; [lia|]. cbn [read]. destruct (dirs s) as [|f fs] eqn:D; [congruence|]. destruct (todo f) as [|[n t] l] eqn:T.
  - destruct fs as [|f2 fs].
    + exists s, None. rewrite D. cbn [remk flat_map]. rewrite T. repeat split; congruence.
    + assert (RL : exists r, match f2 :: fs with [_] => Ok [] | _ => let! d := getdirname (relpath s) in Ok (d ++ B "/") end = Ok r).
      { destruct (dirname_total (S (length (relpath s))) (relpath s) ltac:(lia)) as (r & E). unfold getdirname. rewrite E. destruct fs; cbn [bind]; eexists; reflexivity. }
      destruct RL as (r & RL). cbv zeta. rewrite RL. cbn [bind].
      destruct (IH (Iter (f2 :: fs) r (go_up s) (recurse s) (skip_mounts s) (topdev s)) d ltac:(cbn in *; lia) ltac:(discriminate) TP) as (s' & o & E & N' & G' & T' & EN & K). exists s', o. split; [exact E|]. split; [exact N'|]. split; [exact G'|]. split; [exact T'|].
      assert (EN2 : enters (Iter (f2 :: fs) r (go_up s) (recurse s) (skip_mounts s) (topdev s)) = enters s) by (unfold enters, top0; cbn; rewrite TP; reflexivity). rewrite EN2 in *. split; [exact EN|]. cbn [dirs] in K.
      assert (Z : remk (enters s) (f :: f2 :: fs) = remk (enters s) (f2 :: fs)) by (unfold remk at 1; cbn [flat_map]; rewrite T; reflexivity). rewrite Z. exact K.
  - unfold found. rewrite TP. set (e := Ent _ _ _ _).
    assert (K0 : remk (enters s) (f :: fs) = key e :: map key (below (enters s) (dirname f ++ B "/" ++ n) ([] ++ n ++ B "/") t) ++ remk (enters s) (Frame l (all f) (dirname f) :: fs)).
    { unfold remk at 1. cbn [flat_map]. rewrite T. unfold listing at 1. cbn [flat_map fst snd]. rewrite map_app. cbn [map app]. rewrite <- app_assoc. reflexivity. }
    assert (STAY : below (enters s) (dirname f ++ B "/" ++ n) ([] ++ n ++ B "/") t = [] -> exists s' o, Ok (Iter (Frame l (all f) (dirname f) :: fs) (relpath s) (go_up s) (recurse s) (skip_mounts s) (Some d), Some e) = Ok (s', o) /\ dirs s' <> [] /\ go_up s' = go_up s /\ topdev s' = Some d /\ enters s' = enters s /\
      match o with None => remk (enters s) (f :: fs) = [] | Some e => remk (enters s) (f :: fs) = key e :: remk (enters s) (dirs s') end).
    { intros Z. eexists _, _. split; [reflexivity|]. split; [discriminate|]. split; [reflexivity|]. split; [reflexivity|]. split; [unfold enters, top0; cbn; rewrite TP; reflexivity|]. rewrite K0, Z. reflexivity. }
    destruct t as [dv|dv [] kids]; [apply STAY; reflexivity| |apply STAY; reflexivity].
    assert (EE : enters s dv = (recurse s && (negb (skip_mounts s) || Nat.eqb dv d))%bool) by (unfold enters, top0; rewrite TP; reflexivity). rewrite <- EE. destruct (enters s dv) eqn:EN; [|apply STAY; rewrite below_folder, EN; reflexivity].
    eexists _, _. split; [reflexivity|]. split; [discriminate|]. split; [reflexivity|]. split; [reflexivity|]. split; [unfold enters, top0; cbn; rewrite TP; reflexivity|]. rewrite K0, below_folder, EN. cbn [dirs]. unfold remk at 2. cbn [flat_map todo dirname]. f_equal. rewrite (key_listing _ _ ([] ++ n ++ B "/") []). reflexivity.
Qed.
Lemma collect_keys : forall n s d, go_up s = false -> dirs s <> [] -> topdev s = Some d -> length (remk (enters s) (dirs s)) <= n ->
  forall fuel, n < fuel -> exists l, collect fuel s = Ok l /\ map key l = remk (enters s) (dirs s).
Proof.
  induction n as [|n IH]; intros s d G N TP L fuel LF; (destruct fuel as [|fuel]; [lia|]); cbn [collect];
    (assert (NX : next s = read (S (length (dirs s))) s) by (unfold next; destruct (dirs s); [congruence|]; rewrite G; reflexivity)); rewrite NX;
    destruct (read_keys (S (length (dirs s))) s d ltac:(lia) N TP) as (s' & o & E & N' & G' & T' & EN & K); rewrite E; cbn [bind]; destruct o as [e|].
  - rewrite K in L. cbn in L. lia.
  - exists []. split; [reflexivity|]. rewrite K. reflexivity.
  - rewrite K in L. cbn in L. rewrite <- EN in L. destruct (IH s' d ltac:(congruence) N' T' ltac:(lia) fuel ltac:(lia)) as (l & E2 & M). rewrite E2. cbn [bind]. exists (e :: l). split; [reflexivity|]. cbn [map]. rewrite M, K, EN. reflexivity.
  - exists []. split; [reflexivity|]. rewrite K. reflexivity.
Qed.

(** ** The directory at the start *)
Definition same_end (s s' : iter) : Prop :=
  dirs s' <> [] /\ recurse s' = recurse s /\ skip_mounts s' = skip_mounts s /\ forall f0, all (last (dirs s') f0) = all (last (dirs s) f0) /\ dirname (last (dirs s') f0) = dirname (last (dirs s) f0).
Lemma read_end : forall fuel s s' o, read fuel s = Ok (s', o) -> dirs s <> [] -> same_end s s' /\ (o = None -> exists f, dirs s' = [f]).
Proof.
  induction fuel as [|fuel IH]; intros s s' o E N; [discriminate|]. cbn [read] in E. destruct (dirs s) as [|f fs] eqn:D; [congruence|]. destruct (todo f) as [|[n t] l] eqn:T.
  - destruct fs as [|f2 fs].
    + injection E as <- <-. split; [|intros _; exists f; exact D]. unfold same_end. rewrite D. split; [discriminate|]. auto.
    + revert E. cbv zeta. match goal with |- bind ?x _ = _ -> _ => destruct x as [r| |]; cbn [bind]; try discriminate end. intros E.
      apply IH in E; [|discriminate]. destruct E as [(A & R1 & R2 & A2) A3]. split; [|exact A3]. split; [exact A|]. split; [exact R1|]. split; [exact R2|]. intros f0. rewrite D. apply A2.
  - assert (X : forall top, same_end s (Iter (Frame l (all f) (dirname f) :: fs) (relpath s) (go_up s) (recurse s) (skip_mounts s) (Some top)) /\
      forall k full rel, same_end s (Iter (Frame k k full :: Frame l (all f) (dirname f) :: fs) rel (go_up s) (recurse s) (skip_mounts s) (Some top))).
    { intros top. split; [|intros k full rel]; (split; [discriminate|]); (split; [reflexivity|]); (split; [reflexivity|]); intros f0; rewrite D; cbn [dirs]; (destruct fs as [|f1 fs]; [split; reflexivity|]); split; reflexivity. }
    unfold found in E. destruct t as [d|d [] kids]; [| destruct (_ && _)%bool |]; injection E as <- <-; (split; [apply X|discriminate]).
Qed.
Inductive reached (s0 : iter) : iter -> Prop :=
| R_start : reached s0 s0
| R_next s s' o : reached s0 s -> next s = Ok (s', o) -> reached s0 s'.
Lemma next_end s s' o : next s = Ok (s', o) -> dirs s <> [] -> go_up s = false -> same_end s s' /\ (o = None -> exists f, dirs s' = [f]).
Proof. intros E N G. unfold next in E. destruct (dirs s) as [|f fs] eqn:D; [congruence|]. rewrite G in E. apply read_end in E; [exact E|congruence]. Qed.
Lemma same_end_trans a b c : same_end a b -> same_end b c -> same_end a c.
Proof. intros (A1 & A2 & A3 & A4) (B1 & B2 & B3 & B4). split; [exact B1|]. split; [congruence|]. split; [congruence|]. intros f0. destruct (A4 f0), (B4 f0). split; congruence. Qed.
Lemma reached_ok s0 : inv s0 [] -> go_up s0 = false -> forall s, reached s0 s -> exists ns, inv s ns /\ go_up s = false /\ same_end s0 s /\ (topdev s <> None \/ s = s0) /\ (left_over s ns <> [] -> enters s = enters s0).
Proof.
  intros I G s R. induction R as [|s s' o R IH E].
  - exists []. split; [exact I|]. split; [exact G|]. split; [split; [destruct I as [L _ _ _ _]; destruct (dirs s0); [discriminate L|discriminate]|]; auto|]. auto.
  - destruct IH as (ns & Is & Gs & SE & TD & EN). assert (Nd : dirs s <> []) by (apply SE). destruct (next_end s s' o E Nd Gs) as [SE2 SN]. pose proof (same_end_trans _ _ _ SE SE2) as SE3.
    destruct (next_ok s ns Is Gs) as [(Z & s1 & ns1 & E1 & I1 & G1 & Z1)|(e & s1 & ns1 & t & c & E1 & I1 & G1 & LO & _ & EN1 & _)]; rewrite E in E1; injection E1 as <- ->.
    + exists ns1. split; [exact I1|]. split; [exact G1|]. split; [exact SE3|]. split; [|congruence].
      destruct (topdev s') as [d|] eqn:TD'; [left; discriminate|]. right. destruct TD as [TD| ->].
      * exfalso. unfold next in E. destruct (dirs s) as [|f fs] eqn:D; [congruence|]. rewrite Gs in E. clear - E TD TD'. revert s E TD. generalize (S (length (f :: fs))). induction n as [|n IHn]; intros s E TD; [discriminate|]. cbn [read] in E. destruct (dirs s) as [|f1 f2]; [congruence|]. destruct (todo f1) as [|[nn t] l].
        -- destruct f2 as [|f3 f4]; [congruence|]. revert E. cbv zeta. match goal with |- bind ?x _ = _ -> _ => destruct x as [r| |]; cbn [bind]; try discriminate end. intros E. apply IHn in E; [exact E|exact TD].
        -- destruct (found s f1 f2 nn t l); discriminate.
      * destruct I as [L R0 _ _ _]. unfold next in E. destruct (dirs s0) as [|f [|f2 fs]] eqn:D; [congruence| |discriminate L]. rewrite Gs, <- D in E. cbn [read] in E. rewrite D in E. destruct (todo f) as [|[nn t] l]; [congruence|]. destruct (found s0 f [] nn t l); discriminate.
    + exists ns1. split; [exact I1|]. split; [exact G1|]. split; [exact SE3|]. split.
      * left. unfold next in E. destruct (dirs s) as [|f fs] eqn:D; [congruence|]. rewrite Gs in E. clear - E. revert s E. generalize (S (length (f :: fs))). induction n as [|n IHn]; intros s E; [discriminate|]. cbn [read] in E. destruct (dirs s) as [|f1 f2]; [congruence|]. destruct (todo f1) as [|[nn t] l].
        -- destruct f2 as [|f3 f4]; [congruence|]. revert E. cbv zeta. match goal with |- bind ?x _ = _ -> _ => destruct x as [r| |]; cbn [bind]; try discriminate end. intros E. apply IHn in E. exact E.
        -- unfold found in E. destruct t as [d|d [] kids]; [|destruct (_ && _)%bool|]; injection E as <- _; discriminate.
      * intros _. rewrite EN1. apply EN. rewrite LO. discriminate.
Qed.

(** ** Where the entries are *)
Definition placed (root : bytes) (top : list (bytes * tree)) (s : iter) : Prop := forall p t, in_frame (dirs s) p t -> is_at root top p t.
Lemma is_at_snoc root top p d r kids n t : is_at root top p (Folder d r kids) -> In (n, t) kids -> is_at root top (p ++ B "/" ++ n) t.
Proof.
  intros H. remember (Folder d r kids) as u eqn:U. induction H as [full l m u X|full l m d1 r1 k1 p u X H IH]; intros K.
  - subst u. eapply At_below; [exact X|]. apply At_here. exact K.
  - eapply At_below; [exact X|]. apply IH; assumption.
Qed.
Lemma read_placed root top : forall fuel s s' o, placed root top s -> read fuel s = Ok (s', o) -> placed root top s'.
Proof.
  induction fuel as [|fuel IH]; intros s s' o P E; [discriminate|]. cbn [read] in E. destruct (dirs s) as [|f fs] eqn:D; [injection E as <- _; exact P|]. destruct (todo f) as [|[n t] l] eqn:T.
  - destruct fs as [|f2 fs]; [injection E as <- _; exact P|]. revert E. cbv zeta. match goal with |- bind ?x _ = _ -> _ => destruct x as [r| |]; cbn [bind]; try discriminate end. intros E.
    eapply IH; [|exact E]. intros p t (g & m & G1 & G2). apply P. exists g, m. split; [rewrite D; right; exact G1|exact G2].
  - assert (W : placed root top (Iter (Frame l (all f) (dirname f) :: fs) (relpath s) (go_up s) (recurse s) (skip_mounts s) (topdev s))).
    { intros p u (g & m & [<-|G1] & G2 & G3); apply P; [exists f, m; rewrite D, T; split; [left; reflexivity|split; [right; exact G2|exact G3]]|exists g, m; rewrite D; split; [right; exact G1|auto]]. }
    unfold found in E. destruct t as [d|d [] kids]; [injection E as <- _; exact W| |injection E as <- _; exact W]. destruct (_ && _)%bool; injection E as <- _; [|exact W].
    intros p u (g & m & [<-|G1] & G2 & G3); [|apply W; exists g, m; auto]. cbn [todo dirname] in G2, G3. subst p. eapply is_at_snoc; [|exact G2]. apply P. exists f, n. rewrite D, T. split; [left; reflexivity|]. split; [left; reflexivity|reflexivity].
Qed.
Lemma reached_placed root top s0 : placed root top s0 -> (forall s, reached s0 s -> go_up s = false) -> forall s, reached s0 s -> placed root top s.
Proof.
  intros P G s R. induction R as [|s s' o R IH E]; [exact P|]. unfold next in E. destruct (dirs s) as [|f fs] eqn:D; [injection E as <- _; exact IH|]. rewrite (G s R) in E. eapply read_placed; [exact IH|exact E].
Qed.
