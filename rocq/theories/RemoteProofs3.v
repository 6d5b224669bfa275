(** Removing a key at the daemon, piece by piece, is the same as removing it at once. *)
From Verif Require Import Base BaseFacts Ctype TclModel TclSpec TclProofs KeyModel KeySpec KeyProofs UrlModel TreeProofs TempModel TempSpec TempProofs IniModel IniSpec IniProofs IniProofs2 IniProofs3 IntFmtModel RemoteModel RemoteSpec RemoteProofs RemoteProofs2.
Local Open Scope char_scope.
Local Open Scope list_scope.

(** * A place in a tree *)
Notation node := (TempModel.tree bytes).
Fixpoint nd (t : node) (k : key) : option node :=
  match k with [] => Some t | s :: r => match child (tch t) s with Some c => nd c r | None => None end end.
Fixpoint real (t : node) (k : key) : key :=
  match k with [] => [] | s :: r => match child (tch t) s with Some c => tkey c :: real c r | None => [] end end.
Fixpoint graft (t : node) (k : key) (o : option node) : option node :=
  match k with
  | [] => o
  | s :: r => match child (tch t) s with Some c => Some (Node (tkey t) (tval t) (with_child (tch t) s (graft c r o))) | None => Some t end
  end.
Lemma find_nd k : Forall plain k -> forall t, find t k = nd t k.
Proof.
  induction 1 as [|s k P _ IH]; intros t; [reflexivity|]. cbn [find nd]. unfold findchild. rewrite isempty_plain by exact P. destruct (child (tch t) s); auto.
Qed.
Lemma del_nd : forall k full t, del full t k = match nd t k with Some n => Some (graft t k None, visit (full ++ real t k) n) | None => None end.
Proof.
  induction k as [|s k IH]; intros full t; cbn [del nd real graft]; [rewrite app_nil_r; reflexivity|]. destruct (child (tch t) s) as [c|]; [|reflexivity]. rewrite IH. destruct (nd c k); [|reflexivity].
  rewrite <- app_assoc. reflexivity.
Qed.
Lemma nd_snoc : forall k t s, nd t (k ++ [s]) = match nd t k with Some n => child (tch n) s | None => None end.
Proof. induction k as [|x k IH]; intros t s; cbn [nd app]; [destruct (child (tch t) s); reflexivity|]. destruct (child (tch t) x); auto. Qed.
Lemma real_snoc : forall k t s n c, nd t k = Some n -> child (tch n) s = Some c -> real t (k ++ [s]) = real t k ++ [tkey c].
Proof.
  induction k as [|x k IH]; intros t s n c E Ec; cbn [nd real app] in *; [injection E as ->; rewrite Ec; reflexivity|]. destruct (child (tch t) x) as [d|]; [|discriminate]. cbn [app]. rewrite (IH d s n c); auto.
Qed.
Lemma graft_snoc : forall k t s n c o, nd t k = Some n -> child (tch n) s = Some c ->
  graft t (k ++ [s]) o = graft t k (Some (Node (tkey n) (tval n) (with_child (tch n) s o))).
Proof.
  induction k as [|x k IH]; intros t s n c o E Ec; cbn [nd graft app] in *; [injection E as ->; rewrite Ec; reflexivity|]. destruct (child (tch t) x) as [d|]; [|discriminate]. rewrite (IH d s n c); auto.
Qed.
Lemma child_put ch s (c c' : node) : child ch s = Some c -> tkey c' = tkey c -> child (with_child ch s (Some c')) s = Some c'.
Proof.
  intros Ec Tk. destruct (child_split _ _ _ Ec) as (a & b & -> & E & -> & Fa). rewrite child_app. apply child_none in Fa. rewrite Fa. cbn [child]. rewrite Tk, E. reflexivity.
Qed.
Lemma put_put ch s (c c' : node) o : child ch s = Some c -> tkey c' = tkey c -> with_child (with_child ch s (Some c')) s o = with_child ch s o.
Proof.
  intros Ec Tk. induction ch as [|d ch IH]; [discriminate|]. cbn [child] in Ec. cbn [with_child]. destruct (same_seg (tkey d) s) eqn:E; cbn [with_child].
  - injection Ec as ->. rewrite Tk, E. reflexivity.
  - rewrite E, IH by exact Ec. reflexivity.
Qed.
Lemma graft_some : forall k t n n', nd t k = Some n -> tkey n' = tkey n ->
  exists t', graft t k (Some n') = Some t' /\ tkey t' = tkey t /\ nd t' k = Some n' /\ real t' k = real t k /\ forall o, graft t' k o = graft t k o.
Proof.
  induction k as [|s k IH]; intros t n n' E Tk; cbn [nd graft real] in *.
  - injection E as ->. exists n'. auto.
  - destruct (child (tch t) s) as [c|] eqn:Ec; [|discriminate]. destruct (IH c n n' E Tk) as (c' & -> & Tc & E' & R & G).
    eexists. split; [reflexivity|]. cbn [tkey tch tval]. rewrite (child_put _ _ _ _ Ec Tc). split; [reflexivity|]. split; [exact E'|]. split; [rewrite Tc, R; reflexivity|].
    intros o. rewrite (put_put _ _ _ _ _ Ec Tc), G. reflexivity.
Qed.
Lemma graft_none : forall k t n, k <> [] -> WF t -> Forall plain k -> nd t k = Some n -> exists t', graft t k None = Some t' /\ tkey t' = tkey t /\ nd t' k = None.
Proof.
  induction k as [|s k IH]; intros t n Ne W P E; [congruence|]. cbn [nd graft] in *. destruct (child (tch t) s) as [c|] eqn:Ec; [|discriminate]. eexists. split; [reflexivity|]. cbn [tkey tch tval]. split; [reflexivity|].
  pose proof (Forall_inv P) as Ps. pose proof (plain_nulf _ Ps) as Ns. pose proof (child_plain _ _ _ W Ec) as [_ Wc]. destruct k as [|s2 k].
  - cbn [graft]. rewrite (child_remove t s c s W Ns Ns Ec), teq_refl. reflexivity.
  - destruct (IH c n ltac:(discriminate) Wc (Forall_inv_tail P) E) as (c' & Eg & Tc & En). rewrite Eg, (child_put _ _ _ _ Ec Tc). exact En.
Qed.
Lemma nd_WF : forall k t n, WF t -> nd t k = Some n -> WF n.
Proof.
  induction k as [|s k IH]; intros t n W E; cbn [nd] in E; [injection E as <-; exact W|]. destruct (child (tch t) s) as [c|] eqn:Ec; [|discriminate]. apply (IH c n); [|exact E]. apply (child_plain _ _ _ W Ec).
Qed.
Lemma nd_tidy : forall k t n, tidy t -> nd t k = Some n -> tidy n.
Proof.
  induction k as [|s k IH]; intros t n W E; cbn [nd] in E; [injection E as <-; exact W|]. destruct (child (tch t) s) as [c|] eqn:Ec; [|discriminate]. apply (IH c n); [|exact E].
  apply tidy_inv in W. eapply child_Forall; [|exact Ec]. tauto.
Qed.

(** Removing, in these terms *)
Lemma tset_null g k0 : canonical k0 -> tset g k0 None = match root g with
  | Some t => match nd t (named k0) with Some n => ({| root := graft t (named k0) None; dirty := true |}, visit (real t (named k0)) n) | None => (g, []) end
  | None => (g, []) end.
Proof. intros C. unfold tset. rewrite strip_named by exact C. destruct (root g) as [t|]; [|reflexivity]. rewrite del_nd. destruct (nd t (named k0)); reflexivity. Qed.

(** * Paths as text *)
Lemma path_snoc k s : path (k ++ [s]) = match k with [] => s | _ => path k ++ "/" :: s end.
Proof.
  induction k as [|x k IH]; [reflexivity|]. cbn [app]. destruct k as [|y k]; [reflexivity|]. cbn [app path] in *. rewrite IH. rewrite <- app_assoc. reflexivity.
Qed.
Lemma upto_none s : ~ In slash s -> upto_last_slash s = None.
Proof.
  induction s as [|c s IH]; intros H; [reflexivity|]. cbn [upto_last_slash]. rewrite IH by (intros Hi; apply H; right; exact Hi). destruct (Ascii.eqb_spec c slash) as [->|N]; [|reflexivity]. exfalso. apply H. left. reflexivity.
Qed.
Lemma upto_app a s : ~ In slash s -> upto_last_slash (a ++ slash :: s) = Some a.
Proof.
  intros H. induction a as [|c a IH]; cbn [app upto_last_slash]; [rewrite upto_none by exact H; reflexivity|]. rewrite IH. reflexivity.
Qed.
Lemma dirname_path k s : Forall plain k -> plain s -> getdirname (path (k ++ [s])) = match k with [] => B "." | _ => path k end.
Proof.
  intros P (Hs & Hl & _). rewrite path_snoc. destruct k as [|x k].
  - unfold getdirname. destruct s as [|c s]; [congruence|]. rewrite upto_none by exact Hl. reflexivity.
  - pose proof (plain_path (x :: k) P ltac:(discriminate)) as Ne. unfold getdirname. rewrite upto_app by exact Hl. destruct (path (x :: k)) as [|c p]; [congruence|]. reflexivity.
Qed.
Lemma path_end k s : plain s -> ~ white_end s -> exists x z, path (k ++ [s]) = x ++ [z] /\ z <> slash /\ ~ white z.
Proof.
  intros (Hs & Hl & _) N. destruct (exists_last Hs) as (y & z & E). assert (Hz : z <> slash /\ ~ white z).
  { split; [intros ->; apply Hl; rewrite E; apply in_or_app; right; left; reflexivity|]. intros W. apply N. exists y, z. auto. }
  rewrite path_snoc. destruct k as [|x k]; [exists y, z; auto|]. exists (path (x :: k) ++ "/" :: y), z. split; [|exact Hz]. rewrite E, <- app_assoc. reflexivity.
Qed.
Lemma unslash_keep x z : z <> slash -> ~ white z -> unslash (x ++ [z]) = x ++ [z] /\ unslash ((x ++ [z]) ++ [slash]) = x ++ [z].
Proof.
  intros Hz Hw. assert (R : forall y, rtrim (y ++ [z]) = y ++ [z]).
  { intros y. rewrite <- (app_nil_r (y ++ [z])) at 1. rewrite rtrim_app; [cbn; apply app_nil_r|]. intros (r & c & E & W). apply app_inj_tail in E. destruct E as [_ <-]. contradiction. }
  assert (Bz : forall l, blank (z :: l) = z :: l) by (intros l; cbn [blank]; destruct (Ascii.eqb_spec z slash); [contradiction|reflexivity]).
  destruct x as [|c x]; cbn [app unslash].
  - split; [exact (R [])|]. change (rtrim ([z] ++ [" "]) = [z]). rewrite rtrim_white by reflexivity. exact (R []).
  - rewrite !rev_app_distr. cbn [rev app]. change (blank (slash :: z :: rev x)) with (" " :: blank (z :: rev x)). rewrite !Bz. cbn [rev]. rewrite !rev_involutive. split; [exact (R (c :: x))|].
    change (c :: (x ++ [z]) ++ [" "]) with ((c :: x ++ [z]) ++ [" "]). rewrite rtrim_white by reflexivity. exact (R (c :: x)).
Qed.
Lemma unslash_key k0 : fit_key k0 -> unslash (printable k0) = path (named k0).
Proof.
  intros [[P|(k & Ne & P & ->)] N]; rewrite path_printable.
  - rewrite (proj2 (plain_slashed k0 P)). destruct k0 as [|a b] using rev_ind; [reflexivity|]. clear IHb. rewrite Forall_app in P, N. destruct (path_end b a (Forall_inv (proj2 P)) (Forall_inv (proj2 N))) as (x & z & E & H1 & H2).
    rewrite E. apply (unslash_keep x z H1 H2).
  - rewrite (proj2 (trailing_slashed k P)). rewrite path_snoc. rewrite Forall_app in N. destruct N as [N _]. destruct k as [|a b _] using rev_ind; [congruence|].
    rewrite Forall_app in P, N. destruct (path_end b a (Forall_inv (proj2 P)) (Forall_inv (proj2 N))) as (x & z & E & H1 & H2). rewrite E. destruct (b ++ [a]); [congruence|]. apply (unslash_keep x z H1 H2).
Qed.

(** * do_remove *)
Lemma remove_children k t kn vn : Forall plain k -> Forall neat k -> k <> [B "."] -> forall n, nd t k = Some n -> tkey n = kn -> forall l g, l <> [] ->
  root g = graft t k (Some (Node kn vn l)) -> good g ->
  remove_loop g k (map tkey l) = Ok ({| root := graft t k None; dirty := true |}, frames (map nmsg (flat_map (fun c => visit (real t k ++ [tkey c]) c) l ++ [(real t k, None)])))
  /\ good {| root := graft t k None; dirty := true |} /\ Forall fitnk (flat_map (fun c => visit (real t k ++ [tkey c]) c) l ++ [(real t k, None)]).
Proof.
  intros P N ND n En Kn. induction l as [|c l IH]; intros g Nl Eg G; [congruence|]. clear Nl. cbn [map remove_loop flat_map].
  destruct (graft_some k t n (Node kn vn (c :: l)) En) as (T & ET & KT & NT & RT & GT); [symmetry; exact Kn|]. rewrite ET in Eg.
  destruct G as [W Ty]. rewrite Eg in W, Ty. cbn [WFo tidyo] in W, Ty. pose proof (nd_WF _ _ _ W NT) as Wn. pose proof (nd_tidy _ _ _ Ty NT) as Tn.
  pose proof (WF_inv _ Wn) as (Pc & Un & _). cbn [tch] in Pc, Un. pose proof (tidy_inv _ Tn) as (_ & Nc & _). cbn [tch] in Nc. apply Forall_inv in Pc. apply Forall_inv in Nc. cbv beta in Pc, Nc.
  assert (Ch : child (c :: l) (tkey c) = Some c) by (cbn [child]; rewrite same_seg_teq, teq_refl by (apply plain_nulf; exact Pc); reflexivity).
  assert (Wh : with_child (c :: l) (tkey c) None = l) by (cbn [with_child]; rewrite same_seg_teq, teq_refl by (apply plain_nulf; exact Pc); reflexivity).
  assert (Pk : Forall plain (k ++ [tkey c])) by (apply Forall_app; auto). assert (Nk : Forall neat (k ++ [tkey c])) by (apply neat_snoc; auto).
  assert (Ck : canonical (k ++ [tkey c])) by (left; exact Pk).
  destruct (assign_ok g (k ++ [tkey c]) None ltac:(split; rewrite Eg; assumption) Ck Nk I) as (A1 & G1 & F1).
  rewrite A1. cbn [bind]. clear A1.
  assert (Es : tset g (k ++ [tkey c]) None = ({| root := graft t k (Some (Node kn vn l)); dirty := true |}, visit (real t k ++ [tkey c]) c)).
  { rewrite tset_null by exact Ck. rewrite Eg, (proj2 (plain_slashed _ Pk)), nd_snoc, NT. cbn [tch]. rewrite Ch. rewrite (graft_snoc k T (tkey c) _ c None NT Ch). cbn [tkey tval tch]. rewrite Wh, GT.
    rewrite (real_snoc k T (tkey c) _ c NT Ch), RT. reflexivity. }
  rewrite Es in *. cbn [fst snd] in *. clear Es.
  assert (Ed : (let! dir := if list_eq_dec ascii_dec (getdirname (printable (k ++ [tkey c]))) (B ".") then Ok [] else parse (Some (getdirname (printable (k ++ [tkey c])))) in Ok dir) = Ok k).
  { rewrite path_printable, dirname_path by assumption. destruct k as [|x k]; [reflexivity|]. destruct (list_eq_dec ascii_dec (path (x :: k)) (B ".")) as [E|_].
    - exfalso. apply ND. destruct k as [|y k]; [cbn in E; rewrite E; reflexivity|]. assert (Hd : parse (Some (path (x :: y :: k))) = Ok (x :: y :: k)) by (apply parse_path, P). rewrite E in Hd. cbn in Hd. discriminate.
    - rewrite parse_path by exact P. reflexivity. }
  destruct (if list_eq_dec ascii_dec (getdirname (printable (k ++ [tkey c]))) (B ".") then Ok [] else parse (Some (getdirname (printable (k ++ [tkey c]))))) as [dir| |]; cbn [bind] in Ed; try discriminate. injection Ed as ->. cbn [bind].
  destruct (graft_some k t n (Node kn vn l) En) as (T' & ET' & KT' & NT' & RT' & GT'); [symmetry; exact Kn|].
  assert (Hc : thaschildren {| root := graft t k (Some (Node kn vn l)); dirty := true |} k = match l with [] => false | _ => true end).
  { unfold thaschildren. cbn [root]. rewrite ET', find_nd, NT' by exact P. reflexivity. }
  rewrite Hc. destruct l as [|c2 l].
  - assert (Ckk : canonical k) by (left; exact P). destruct (assign_ok _ k None G1 Ckk N I) as (A2 & G2 & F2). rewrite A2. cbn [bind].
    assert (Es : tset {| root := graft t k (Some (Node kn vn [])); dirty := true |} k None = ({| root := graft t k None; dirty := true |}, [(real t k, None)])).
    { rewrite tset_null by exact Ckk. cbn [root]. rewrite ET', (proj2 (plain_slashed _ P)), NT', GT', RT'. reflexivity. }
    rewrite Es in *. cbn [fst snd] in *.
    assert (Ti : titer {| root := graft t k None; dirty := true |} (k ++ [tkey c]) = None).
    { unfold titer. cbn [root]. destruct k as [|x k]; [reflexivity|]. assert (WT' : WF T') by (destruct G1 as [G1 _]; cbn [root] in G1; rewrite ET' in G1; exact G1).
      destruct (graft_none (x :: k) T' _ ltac:(discriminate) WT' P NT') as (T2 & E2 & _ & N2). rewrite GT' in E2. rewrite E2, find_nd, nd_snoc, N2 by exact Pk. reflexivity. }
    rewrite Ti. cbn [map remove_loop bind flat_map app]. split; [|split; [exact G2|]].
    + f_equal. f_equal. rewrite app_nil_r, app_nil_r, map_app. unfold frames. rewrite flat_map_app. reflexivity.
    + rewrite app_nil_r. apply Forall_app. auto.
  - assert (Ti : titer {| root := graft t k (Some (Node kn vn (c2 :: l))); dirty := true |} (k ++ [tkey c]) = None).
    { unfold titer. cbn [root]. rewrite ET', find_nd, nd_snoc, NT' by exact Pk. cbn [tch]. destruct (child (c2 :: l) (tkey c)) as [d|] eqn:Ed; [|reflexivity]. exfalso.
      pose proof (WF_inv _ Wn) as (Pa & Ua & _). cbn [tch] in Pa, Ua. apply child_in in Ed; [|exact (Forall_inv_tail Pa)|cbn [map] in Ua; apply NoDup_cons_iff in Ua; apply Ua|apply plain_nulf, Pc].
      cbn [map] in Ua. apply NoDup_cons_iff in Ua. apply (proj1 Ua). destruct Ed as [Hi <-]. apply (in_map (fun c : node => low (tkey c)) _ _ Hi). }
    cbn [bind]. rewrite Ti. destruct (IH {| root := graft t k (Some (Node kn vn (c2 :: l))); dirty := true |} ltac:(discriminate) eq_refl G1) as (A2 & G2 & F2). rewrite A2. cbn [bind]. split; [|split; [exact G2|]].
    + f_equal. f_equal. rewrite <- app_assoc, (map_app nmsg (visit _ c)). unfold frames. rewrite flat_map_app. reflexivity.
    + rewrite <- app_assoc. apply Forall_app. auto.
Qed.
Theorem do_remove_ok g k0 : good g -> fit_key k0 -> named k0 <> [B "."] ->
  do_remove g k0 = Ok (fst (tset g k0 None), frames (map nmsg (snd (tset g k0 None)))) /\ good (fst (tset g k0 None)) /\ Forall fitnk (snd (tset g k0 None)).
Proof.
  intros G F ND. pose proof F as [C N]. pose proof (canonical_named _ C) as P. pose proof (neat_named _ N) as Nn. unfold do_remove. rewrite unslash_key by exact F. rewrite parse_path by exact P. cbn [bind].
  assert (Cn : canonical (named k0)) by (left; exact P). assert (NN : named (named k0) = named k0) by (apply plain_slashed, P).
  assert (Et : tset g k0 None = tset g (named k0) None) by (rewrite !tset_null by assumption; rewrite NN; reflexivity). rewrite Et.
  pose proof (assign_ok g (named k0) None G Cn Nn I) as A. set (k := named k0) in *. clearbody k. clear Et.
  unfold tget. rewrite tset_null in A |- * by exact Cn. rewrite NN in A |- *. destruct (root g) as [t|] eqn:Er; [|cbn [fst snd] in *; split; [reflexivity|]; split; [exact G|constructor]].
  assert (Hs : negb (isempty k) && isempty (last_seg k) = false) by (rewrite isempty_klast by exact Cn; apply plain_slashed, P). rewrite Hs. rewrite find_nd by exact P.
  destruct (nd t k) as [n|] eqn:En; [|cbn [fst snd]; split; [reflexivity|]; split; [exact G|constructor]].
  unfold titer. rewrite Er, find_nd, En by exact P. destruct (tch n) as [|c l] eqn:Ec; [exact A|]. cbn [map]. change (fst (tkey c, tval c) :: map fst (map (fun c => (tkey c, tval c)) l)) with (map fst (map (fun c : node => (tkey c, tval c)) (c :: l))).
  rewrite map_map. cbn [fst snd]. change (map (fun x : node => fst (tkey x, tval x)) (c :: l)) with (map (fun x : node => tkey x) (c :: l)).
  destruct n as [kn vn ch]. cbn [tch] in Ec. subst ch.
  assert (Gs : graft t k (Some (Node kn vn (c :: l))) = Some t).
  { clear - En. revert t En. induction k as [|s k IH]; intros t En; cbn [nd graft] in *; [congruence|]. destruct (child (tch t) s) as [d|] eqn:Ed; [|discriminate]. rewrite (IH d En).
    destruct (child_split _ _ _ Ed) as (a & b & E & _ & Wi & _). rewrite Wi, <- E. destruct t; reflexivity. }
  exact (remove_children k t kn vn P Nn ND _ En eq_refl (c :: l) g ltac:(discriminate) ltac:(rewrite Er, Gs; reflexivity) G).
Qed.
