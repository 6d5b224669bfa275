(** Proofs about the file system generator. *)
From Verif Require Import Base BaseFacts Ctype KeyModel KeySpec KeyProofs FsgSpec FsgModel.
Local Open Scope nat_scope.

(** ** Names *)
Lemma same_iff a b : same a b = true <-> a = b.
Proof. unfold same. destruct (list_eq_dec ascii_dec a b); split; congruence. Qed.
Lemma is_iff a b : is a b = true <-> a = b.
Proof. unfold is. destruct (path_dec a b); split; congruence. Qed.
Lemma is_refl a : is a a = true.
Proof. apply is_iff. reflexivity. Qed.
Lemma is_not a b : a <> b -> is a b = false.
Proof. intros N. destruct (is a b) eqn:E; [apply is_iff in E; congruence|reflexivity]. Qed.
Lemma below_iff p : forall q, below p q = true <-> inside p q.
Proof.
  unfold inside. induction p as [|a p IH]; intros [|c q]; cbn [below].
  - split; [exists []; reflexivity|reflexivity].
  - split; [exists (c :: q); reflexivity|reflexivity].
  - split; [discriminate|intros (r & E); discriminate].
  - rewrite andb_true_iff, same_iff, IH. split; [intros (-> & r & ->); exists r; reflexivity|intros (r & E); injection E as -> ->; split; [reflexivity|exists r; reflexivity]].
Qed.
Lemma low_dot c : tolower c = "."%char -> c = "."%char.
Proof. destruct c as [[] [] [] [] [] [] [] []]; vm_compute; congruence. Qed.
Lemma dots_text s n : map tolower s = repeat "."%char n -> s = repeat "."%char n.
Proof. revert n. induction s as [|c s IH]; intros [|n] E; cbn in *; try discriminate; [reflexivity|]. injection E as E1 E2. rewrite (low_dot _ E1), (IH _ E2). reflexivity. Qed.
Lemma bad_name s : ~ In "/"%char s -> nul_free s -> bad s = false -> name s.
Proof.
  intros NS NF H. unfold bad in H. destruct s as [|c s]; [discriminate H|]. cbn [collapse] in H. apply orb_false_iff in H. destruct H as [H _]. apply orb_false_iff in H. destruct H as [H1 H2].
  split; [split; [discriminate|]; split; assumption|]. split; intros E; [rewrite E in H1; discriminate H1|rewrite E in H2; discriminate H2].
Qed.
Lemma name_bad s : name s -> bad s = false.
Proof.
  intros ((N & NS & NF) & D1 & D2). unfold bad. destruct s as [|c s]; [congruence|]. cbn [collapse].
  assert (X : forall t, nul_free t -> (c :: s) <> t -> (map tolower (c :: s) = map tolower t -> (c :: s) = t) -> key_eq [c :: s] [t] = false).
  { intros t Ft Ne I. destruct (key_eq [c :: s] [t]) eqn:E; [|reflexivity]. apply key_eq_spec in E; [|repeat constructor; assumption|repeat constructor; assumption]. inversion E as [|? ? ? ? S _]. exfalso. apply Ne, I, S. }
  assert (F1 : nul_free (B ".")) by (intros [E|[]]; discriminate E). assert (F2 : nul_free (B "..")) by (intros [E|[E|[]]]; discriminate E).
  rewrite (X (B ".") F1 D1 (dots_text _ 1)), (X (B "..") F2 D2 (dots_text _ 2)). reflexivity.
Qed.
Lemma safe_names k : canonical k -> key_safe k = true -> Forall name k.
Proof.
  intros C S. unfold key_safe in S. apply negb_true_iff in S.
  assert (B0 : forall s, In s k -> bad s = false). { intros s I. destruct (bad s) eqn:E; [|reflexivity]. assert (existsb bad k = true) by (apply existsb_exists; eauto). congruence. }
  destruct C as [C|(k' & N & C & ->)].
  - apply Forall_forall. intros s I. rewrite Forall_forall in C. destruct (C s I) as (_ & NS & NF). apply bad_name; auto.
  - assert (X : bad [] = false) by (apply B0, in_or_app; right; left; reflexivity). discriminate X.
Qed.
Lemma names_safe k : Forall name k -> key_safe k = true.
Proof. intros F. unfold key_safe. apply negb_true_iff. destruct (existsb bad k) eqn:E; [|reflexivity]. apply existsb_exists in E. destruct E as (s & I & E). rewrite Forall_forall in F. rewrite (name_bad s (F s I)) in E. discriminate. Qed.

(** ** Paths *)
Lemma pieces_app s : forall cur t, ~ In "/"%char s -> pieces cur (s ++ t) = pieces (cur ++ s) t.
Proof.
  induction s as [|c s IH]; intros cur t N; cbn [app pieces]; [rewrite app_nil_r; reflexivity|].
  destruct (Ascii.eqb_spec c "/") as [->|E]; [exfalso; apply N; left; reflexivity|]. rewrite IH by (intros I; apply N; right; exact I). rewrite <- app_assoc. reflexivity.
Qed.
Lemma pieces_loop k : Forall name k -> forall cur, pieces cur (print_loop k) = match k with [] => [cur] | s :: r => (cur ++ s) :: r end.
Proof.
  induction k as [|s k IH]; intros F cur; [reflexivity|]. inversion F as [|? ? P F']; subst. destruct P as ((_ & NS & _) & _). cbn [print_loop]. destruct k as [|t k].
  - rewrite <- (app_nil_r s) at 1. rewrite pieces_app by exact NS. cbn [pieces]. reflexivity.
  - rewrite pieces_app by exact NS. cbn [app pieces]. change (Ascii.eqb slash "/") with true. cbv iota. rewrite IH by exact F'. reflexivity.
Qed.
Lemma pieces_text dir : Forall name dir -> forall cur x, pieces cur (text dir ++ ["/"%char] ++ x) = cur :: dir ++ pieces [] x.
Proof.
  induction dir as [|n dir IH]; intros F cur x; [reflexivity|]. inversion F as [|? ? P F']; subst. destruct P as ((_ & NS & _) & _). unfold text. cbn [flat_map app pieces]. rewrite Ascii.eqb_refl. fold (text dir). rewrite <- app_assoc, pieces_app by exact NS. cbn [app] in IH |- *. rewrite IH by exact F'. reflexivity.
Qed.
Lemma enter_name p n : name n -> enter p n = p ++ [n].
Proof.
  intros ((N & _) & D1 & D2). unfold enter. destruct (same n []) eqn:E; [apply same_iff in E; congruence|]. destruct (same n (B ".")) eqn:E1; [apply same_iff in E1; congruence|]. destruct (same n (B "..")) eqn:E2; [apply same_iff in E2; congruence|]. reflexivity.
Qed.
Lemma enter_all l : Forall name l -> forall p, fold_left enter l p = p ++ l.
Proof. induction l as [|n l IH]; intros F p; cbn [fold_left]; [rewrite app_nil_r; reflexivity|]. inversion F as [|? ? P F']; subst. rewrite enter_name, IH, <- app_assoc by assumption. reflexivity. Qed.
Lemma print_is k : printable k = print_loop k.
Proof. destruct k as [|s [|t k]]; reflexivity. Qed.
Lemma resolve_file dir k : Forall name dir -> Forall name k -> resolve (file_of dir k) = dir ++ k.
Proof.
  intros Fd Fk. unfold resolve, file_of. rewrite pieces_text, print_is, pieces_loop by assumption. cbn [fold_left]. change (enter [] []) with (@nil bytes). rewrite fold_left_app, (enter_all dir Fd). cbn [app].
  destruct k as [|s k]; [cbn [fold_left]; rewrite app_nil_r; unfold enter; reflexivity|]. apply enter_all, Fk.
Qed.
Lemma removelast_one k : Forall name k -> removelast k 1 = List.removelast k.
Proof.
  intros F. unfold removelast, range. destruct k as [|s k]; [reflexivity|]. rewrite removelast_firstn_len. set (k0 := s :: k) in *. assert (L : 1 <= length k0) by (cbn; lia).
  destruct (Z.ltb_spec (Z.of_nat (length k0)) (Z.of_nat (length k0) - 1)) as [X|X]; [lia|]. change (0 <? 0)%Z with false. cbv iota. destruct (Z.ltb_spec (Z.of_nat (length k0) - 1) 0) as [Y|Y]; [lia|].
  rewrite Z.sub_0_r. change (Z.to_nat 0) with 0. cbn [skipn]. replace (Z.to_nat (Z.of_nat (length k0) - 1)) with (pred (length k0)) by lia.
  assert (Fn : Forall name (firstn (pred (length k0)) k0)) by (apply Forall_forall; intros x I; rewrite Forall_forall in F; apply F; rewrite <- (firstn_skipn (pred (length k0)) k0); apply in_or_app; left; exact I).
  destruct (firstn (pred (length k0)) k0) as [|[|] [|]]; try reflexivity. inversion Fn as [|? ? ((N & _) & _) _]. congruence.
Qed.
Lemma names_init k : Forall name k -> Forall name (List.removelast k).
Proof. intros F. apply Forall_removelast, F. Qed.
Lemma init_app (a : path) k : k <> [] -> List.removelast (a ++ k) = a ++ List.removelast k.
Proof. intros N. apply removelast_app, N. Qed.

(** ** Lookups *)
Lemma lookup_cons p n f q : p <> [] -> lookup ((p, n) :: f) q = if is p q then Some n else lookup f q.
Proof. intros N. destruct q as [|x q]; cbn [lookup find fst]; [rewrite is_not by exact N; reflexivity|]. destruct (is p (x :: q)); reflexivity. Qed.
Lemma lookup_filter (g : path * node -> bool) (f : fs) (q : path) : (forall e, In e f -> fst e = q -> g e = true) -> lookup (filter g f) q = lookup f q.
Proof.
  intros H. destruct q as [|x q]; [reflexivity|]. unfold lookup. f_equal. induction f as [|e f IH]; [reflexivity|]. cbn [filter find]. destruct (g e) eqn:G.
  - cbn [find]. destruct (is (fst e) (x :: q)); [reflexivity|]. apply IH. intros e' I. apply H. right. exact I.
  - destruct (is (fst e) (x :: q)) eqn:E; [apply is_iff in E; rewrite (H e (or_introl eq_refl) E) in G; discriminate|]. apply IH. intros e' I. apply H. right. exact I.
Qed.
Lemma lookup_gone (g : path * node -> bool) (f : fs) (q : path) : q <> [] -> (forall e, In e f -> fst e = q -> g e = false) -> lookup (filter g f) q = None.
Proof.
  intros N H. destruct q as [|x q]; [congruence|]. unfold lookup. assert (X : find (fun e => is (fst e) (x :: q)) (filter g f) = None); [|rewrite X; reflexivity].
  induction f as [|e f IH]; [reflexivity|]. cbn [filter]. destruct (g e) eqn:G; [|apply IH; intros e' I; apply H; right; exact I]. cbn [find]. destruct (is (fst e) (x :: q)) eqn:E; [apply is_iff in E; rewrite (H e (or_introl eq_refl) E) in G; discriminate|].
  apply IH. intros e' I. apply H. right. exact I.
Qed.
Lemma lookup_rm f p q : lookup (rm_rf f p) q = if (below p q && negb (is q []))%bool then None else lookup f q.
Proof.
  unfold rm_rf. destruct q as [|x q]; [rewrite is_refl, andb_false_r; reflexivity|]. rewrite (is_not (x :: q) []) by discriminate. rewrite andb_true_r. destruct (below p (x :: q)) eqn:B.
  - apply lookup_gone; [discriminate|]. intros e _ ->. rewrite B. reflexivity.
  - apply lookup_filter. intros e _ ->. rewrite B. reflexivity.
Qed.
Lemma lookup_spill f p d q : p <> [] -> lookup (spill f p d) q =
  if (is p q && match lookup f p with Some Dir => false | Some _ => true | None => isdir f (List.removelast p) end)%bool then Some (File d) else lookup f q.
Proof.
  intros N. unfold spill. destruct (lookup f p) as [[d0|]|] eqn:L.
  - rewrite lookup_cons, andb_true_r by exact N. destruct (is p q) eqn:E; [reflexivity|]. apply lookup_filter. intros e _ ->. destruct (is q p) eqn:E2; [apply is_iff in E2; subst; rewrite is_refl in E; discriminate|reflexivity].
  - rewrite andb_false_r. reflexivity.
  - destruct (isdir f (List.removelast p)); [rewrite lookup_cons, andb_true_r by exact N; reflexivity|rewrite andb_false_r; reflexivity].
Qed.

(** ** mkdirp *)
Lemma mkdirp_keep rest : forall f dn q n, lookup f q = Some n -> lookup (mkdirp f dn rest) q = Some n.
Proof.
  induction rest as [|s rest IH]; intros f dn q n L; cbn [mkdirp]; [exact L|]. destruct (lookup f (dn ++ [s])) as [[d|]|] eqn:E; [exact L|apply IH, L|].
  apply IH. rewrite lookup_cons by (destruct dn; discriminate). destruct (is (dn ++ [s]) q) eqn:Q; [apply is_iff in Q; congruence|exact L].
Qed.
Lemma mkdirp_new rest : forall f dn q, lookup f q = None -> lookup (mkdirp f dn rest) q = None \/ (lookup (mkdirp f dn rest) q = Some Dir /\ inside q (dn ++ rest)).
Proof.
  induction rest as [|s rest IH]; intros f dn q L; cbn [mkdirp]; [left; exact L|]. replace (dn ++ s :: rest) with ((dn ++ [s]) ++ rest) by (rewrite <- app_assoc; reflexivity).
  destruct (lookup f (dn ++ [s])) as [[d|]|] eqn:E; [left; exact L|apply IH, L|].
  destruct (is (dn ++ [s]) q) eqn:Q.
  - right. apply is_iff in Q. subst q. split; [|exists rest; reflexivity]. apply mkdirp_keep. rewrite lookup_cons, is_refl by (destruct dn; discriminate). reflexivity.
  - apply IH. rewrite lookup_cons, Q by (destruct dn; discriminate). exact L.
Qed.
Definition clear (f : fs) (p : path) : Prop := forall q, inside q p -> forall d, lookup f q <> Some (File d).
Lemma mkdirp_made rest : forall f dn, clear f (dn ++ rest) -> forall q, inside q (dn ++ rest) -> ~ inside q dn -> lookup (mkdirp f dn rest) q = Some Dir.
Proof.
  induction rest as [|s rest IH]; intros f dn C q I N; [rewrite app_nil_r in I; contradiction|]. cbn [mkdirp]. assert (A : dn ++ s :: rest = (dn ++ [s]) ++ rest) by (rewrite <- app_assoc; reflexivity). rewrite A in *.
  assert (ST : inside q (dn ++ [s]) -> q = dn ++ [s]).
  { intros (r & E). destruct r as [|x r] using rev_ind; [rewrite app_nil_r in E; congruence|]. rewrite app_assoc in E. apply app_inj_tail in E. destruct E as [E _]. exfalso. apply N. exists r. exact E. }
  destruct (lookup f (dn ++ [s])) as [[d|]|] eqn:E.
  - exfalso. apply (C (dn ++ [s]) (ex_intro _ rest eq_refl) d E).
  - destruct (is q (dn ++ [s])) eqn:Q; [apply is_iff in Q; subst q; apply mkdirp_keep, E|]. apply IH; [exact C|exact I|]. intros X. rewrite (ST X), is_refl in Q. discriminate.
  - assert (NE : dn ++ [s] <> []) by (destruct dn; discriminate). destruct (is q (dn ++ [s])) eqn:Q.
    + apply is_iff in Q. subst q. apply mkdirp_keep. rewrite lookup_cons, is_refl by exact NE. reflexivity.
    + apply IH; [|exact I|intros X; rewrite (ST X), is_refl in Q; discriminate]. intros q0 I0 d. rewrite lookup_cons by exact NE. destruct (is (dn ++ [s]) q0); [discriminate|apply C, I0].
Qed.
Lemma mkdirp_clear f p q : clear f p -> lookup (mkdirp f [] p) q = match lookup f q with Some n => Some n | None => if below q p then Some Dir else None end.
Proof.
  intros C. destruct (lookup f q) as [n|] eqn:L; [apply mkdirp_keep, L|]. destruct (below q p) eqn:B.
  - apply mkdirp_made; [exact C|apply below_iff, B|]. intros (r & E). destruct q; [discriminate L|discriminate E].
  - destruct (mkdirp_new p f [] q L) as [X|[_ X]]; [exact X|]. apply below_iff in X. cbn [app] in X. congruence.
Qed.

(** ** Well-formed file systems *)
Lemma lookup_in f p n : lookup f p = Some n -> p <> [] -> In (p, n) f.
Proof.
  destruct p as [|x p]; [congruence|]. unfold lookup. destruct (find (fun e => is (fst e) (x :: p)) f) as [[q m]|] eqn:E; [|discriminate]. intros H _. injection H as ->. apply find_some in E. destruct E as [I E]. cbn in E. apply is_iff in E. subst. exact I.
Qed.
Lemma in_lookup f p n : NoDup (map fst f) -> In (p, n) f -> p <> [] -> lookup f p = Some n.
Proof.
  intros ND I N. destruct p as [|x p]; [congruence|]. unfold lookup. induction f as [|[q m] f IH]; [contradiction|]. cbn [map fst find] in *. inversion ND as [|? ? NI ND']; subst. destruct I as [E|I].
  - injection E as -> ->. rewrite is_refl. reflexivity.
  - destruct (is q (x :: p)) eqn:Q; [|apply IH; assumption]. apply is_iff in Q. subst q. exfalso. apply NI. change (x :: p) with (fst (x :: p, n)). apply in_map, I.
Qed.
Lemma in_some f p n : NoDup (map fst f) -> In (p, n) f -> lookup f p <> None.
Proof. intros ND I. destruct p as [|x p]; [discriminate|]. rewrite (in_lookup f (x :: p) n ND I) by discriminate. discriminate. Qed.
Lemma wf_parent f p n : wf f -> lookup f p = Some n -> p <> [] -> lookup f (List.removelast p) = Some Dir.
Proof. intros [ND W] L N. apply lookup_in in L; [|exact N]. apply W in L. destruct L as [_ L]. unfold isdir in L. destruct (lookup f (List.removelast p)) as [[|]|]; congruence. Qed.
Lemma wf_prefix f : wf f -> forall b a n, lookup f (a ++ b) = Some n -> b <> [] -> lookup f a = Some Dir.
Proof.
  intros W. induction b as [|x b IH] using rev_ind; intros a n L N; [congruence|]. rewrite app_assoc in L. apply (wf_parent f _ n W) in L; [|destruct a; [destruct b|]; discriminate]. rewrite removelast_last in L.
  destruct b as [|y b]; [rewrite app_nil_r in L; exact L|]. eapply IH; [exact L|discriminate].
Qed.
Lemma wf_add f p n : wf f -> lookup f p = None -> isdir f (List.removelast p) = true -> wf ((p, n) :: f).
Proof.
  intros [ND W] L D. assert (N : p <> []) by (intros ->; discriminate L). split.
  - cbn [map fst]. constructor; [|exact ND]. intros I. apply in_map_iff in I. destruct I as ([q m] & E & I). cbn in E. subst q. apply (in_some f p m ND I), L.
  - assert (K : forall q, isdir f q = true -> isdir ((p, n) :: f) q = true). { intros q H. unfold isdir in *. rewrite lookup_cons by exact N. destruct (is p q) eqn:E; [apply is_iff in E; subst q; rewrite L in H; discriminate|exact H]. }
    intros q m [E|I]; [injection E as <- <-; split; [exact N|apply K, D]|]. destruct (W q m I) as [A C]. split; [exact A|apply K, C].
Qed.
Lemma wf_mkdirp rest : forall f dn, wf f -> isdir f dn = true -> wf (mkdirp f dn rest).
Proof.
  induction rest as [|s rest IH]; intros f dn W D; cbn [mkdirp]; [exact W|]. destruct (lookup f (dn ++ [s])) as [[d|]|] eqn:E; [exact W| |].
  - apply IH; [exact W|]. unfold isdir. rewrite E. reflexivity.
  - apply IH; [apply wf_add; [exact W|exact E|rewrite removelast_last; exact D]|]. unfold isdir. rewrite lookup_cons, is_refl by (destruct dn; discriminate). reflexivity.
Qed.
Lemma init_inside p q : inside p (List.removelast q) -> inside p q.
Proof. intros (r & E). destruct q as [|x q] using rev_ind; [exists r; exact E|]. rewrite removelast_last in E. exists (r ++ [x]). rewrite E, <- app_assoc. reflexivity. Qed.
Lemma NoDup_map_filter {A C} (h : A -> C) g l : NoDup (map h l) -> NoDup (map h (filter g l)).
Proof.
  induction l as [|x l IH]; intros H; [constructor|]. cbn [map] in H. inversion H as [|? ? N H']; subst. cbn [filter]. destruct (g x); [|apply IH, H']. cbn [map]. constructor; [|apply IH, H']. intros I. apply N. apply in_map_iff in I. destruct I as (y & E & I). apply filter_In in I. rewrite <- E. apply in_map, I.
Qed.
Lemma wf_rm f p : wf f -> wf (rm_rf f p).
Proof.
  intros [ND W]. split; [apply NoDup_map_filter, ND|]. intros q n I. unfold rm_rf in I. apply filter_In in I. destruct I as [I B]. destruct (W q n I) as [N D]. split; [exact N|]. cbn in B. unfold isdir in *. rewrite lookup_rm.
  destruct (below p (List.removelast q)) eqn:B2; [|exact D]. apply below_iff, init_inside, below_iff in B2. rewrite B2 in B. discriminate B.
Qed.
Lemma wf_spill f p d : wf f -> wf (spill f p d).
Proof.
  intros W. unfold spill. destruct (lookup f p) as [[d0|]|] eqn:L; [|exact W|].
  - assert (N : p <> []) by (intros ->; discriminate L). pose proof W as [ND W0]. assert (PD := wf_parent f p _ W L N).
    assert (K : forall q, isdir f q = true -> isdir ((p, File d) :: filter (fun e => negb (is (fst e) p)) f) q = true).
    { intros q H. unfold isdir in *. rewrite lookup_cons by exact N. destruct (is p q) eqn:E; [apply is_iff in E; subst q; rewrite L in H; discriminate|]. rewrite lookup_filter; [exact H|]. intros e _ ->. rewrite is_not; [reflexivity|]. intros ->. rewrite is_refl in E. discriminate. }
    split.
    + cbn [map fst]. constructor; [|apply NoDup_map_filter, ND]. intros I. apply in_map_iff in I. destruct I as ([q m] & E & I). apply filter_In in I. destruct I as [_ I]. cbn in *. subst q. rewrite is_refl in I. discriminate.
    + intros q m [E|I]; [injection E as <- <-; split; [exact N|apply K; unfold isdir; rewrite PD; reflexivity]|]. apply filter_In in I. destruct I as [I _]. destruct (W0 q m I) as [A C]. split; [exact A|apply K, C].
  - destruct (isdir f (List.removelast p)) eqn:D; [apply wf_add; assumption|exact W].
Qed.
