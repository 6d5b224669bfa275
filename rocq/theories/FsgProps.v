(** C96: the file system generator. *)
From Verif Require Import Base BaseFacts Ctype KeyModel KeySpec KeyProofs FsgSpec FsgModel FsgProofs.
Local Open Scope nat_scope.

(** Whatever the key: what lies outside the directory stays as it is, but that the
    directories above it are made if they were missing; and what is outside has no
    influence on what is read. *)
Theorem C96_inside dir f k v q : Forall name dir -> canonical k -> ~ inside dir q ->
  lookup (set dir f k v) q = lookup f q \/ (lookup f q = None /\ lookup (set dir f k v) q = Some Dir /\ inside q dir).
Proof.
  intros Fd C N. unfold set. destruct (key_safe k) eqn:S; [|left; reflexivity]. pose proof (safe_names k C S) as Fk. cbv zeta. rewrite removelast_one, !resolve_file by (try apply names_init; assumption).
  assert (NU : ~ inside (dir ++ k) q) by (intros (r & E); apply N; exists (k ++ r); rewrite E, app_assoc; reflexivity).
  assert (E : lookup (match v with None => rm_rf (mkdirp f [] (dir ++ List.removelast k)) (dir ++ k) | Some d => spill (mkdirp f [] (dir ++ List.removelast k)) (dir ++ k) d end) q = lookup (mkdirp f [] (dir ++ List.removelast k)) q).
  { destruct v as [d|].
    - destruct (dir ++ k) as [|x p] eqn:P; [unfold spill; reflexivity|]. rewrite lookup_spill by discriminate. destruct (is (x :: p) q) eqn:Q; [|reflexivity]. apply is_iff in Q. exfalso. apply NU. exists []. rewrite app_nil_r. congruence.
    - rewrite lookup_rm. destruct (below (dir ++ k) q) eqn:Q; [apply below_iff in Q; contradiction|reflexivity]. }
  rewrite E. destruct (lookup f q) as [n|] eqn:L; [left; apply mkdirp_keep, L|]. destruct (mkdirp_new (dir ++ List.removelast k) f [] q L) as [X|[X I]]; [left; exact X|]. right. split; [reflexivity|]. split; [exact X|]. cbn [app] in I.
  destruct I as (r & I). (* q and dir are both prefixes of dir ++ ...; q does not go beyond dir *)
  destruct (Nat.le_gt_cases (length q) (length dir)) as [Le|Gt].
  - exists (skipn (length q) dir). rewrite <- (firstn_skipn (length q) dir) at 1. f_equal. apply (f_equal (firstn (length q))) in I. rewrite firstn_app, firstn_app, Nat.sub_diag, firstn_all in I. cbn in I. rewrite app_nil_r in I. replace (length q - length dir) with 0 in I by lia. cbn in I. rewrite app_nil_r in I. exact I.
  - exfalso. apply N. exists (skipn (length dir) q). rewrite <- (firstn_skipn (length dir) q) at 1. f_equal. apply (f_equal (firstn (length dir))) in I. rewrite !firstn_app, Nat.sub_diag, firstn_all in I. cbn in I. rewrite app_nil_r in I. replace (length dir - length q) with 0 in I by lia. cbn in I. rewrite app_nil_r in I. symmetry. exact I.
Qed.
Theorem C96_reads dir f f' k : Forall name dir -> canonical k -> (forall q, inside dir q -> lookup f q = lookup f' q) -> get dir f k = get dir f' k.
Proof.
  intros Fd C H. unfold get. destruct (key_safe k) eqn:S; [|reflexivity]. pose proof (safe_names k C S) as Fk. rewrite resolve_file by assumption. unfold slurp. rewrite H by (exists k; reflexivity). reflexivity.
Qed.

Lemma get_name dir f k : Forall name dir -> Forall name k -> get dir f k = match lookup f (dir ++ k) with None => None | Some Dir => Some [] | Some (File d) => Some d end.
Proof. intros Fd Fk. unfold get. rewrite names_safe, resolve_file by assumption. unfold slurp. destruct (lookup f (dir ++ k)) as [[|]|]; reflexivity. Qed.
Lemma set_name dir f k v : Forall name dir -> Forall name k -> set dir f k v =
  match v with None => rm_rf (mkdirp f [] (dir ++ List.removelast k)) (dir ++ k) | Some d => spill (mkdirp f [] (dir ++ List.removelast k)) (dir ++ k) d end.
Proof. intros Fd Fk. unfold set. rewrite names_safe by exact Fk. cbv zeta. rewrite removelast_one, !resolve_file by (try apply names_init; assumption). reflexivity. Qed.
Lemma inside_app (a b c : path) : inside (a ++ b) (a ++ c) <-> inside b c.
Proof. split; intros (r & E); exists r; [rewrite <- app_assoc in E; apply app_inv_head in E; exact E|rewrite E, app_assoc; reflexivity]. Qed.
Lemma below_app (a b c : path) : below (a ++ b) (a ++ c) = below b c.
Proof. apply Bool.eq_iff_eq_true. rewrite !below_iff. apply inside_app. Qed.
Lemma is_app (a b c : path) : is (a ++ b) (a ++ c) = is b c.
Proof. apply Bool.eq_iff_eq_true. rewrite !is_iff. split; [apply app_inv_head|congruence]. Qed.
Lemma below_init (q k : path) : k <> [] -> below q (List.removelast k) = (below q k && negb (is q k))%bool.
Proof.
  intros N. destruct k as [|x k] using rev_ind; [congruence|]. rewrite removelast_last. apply Bool.eq_iff_eq_true. rewrite andb_true_iff, !below_iff, negb_true_iff. split.
  - intros (r & ->). split; [exists (r ++ [x]); rewrite <- app_assoc; reflexivity|]. apply is_not. intros E. apply (f_equal (@length _)) in E. rewrite !app_length in E. cbn in E. lia.
  - intros [(r & E) Q]. destruct r as [|y r] using rev_ind; [rewrite app_nil_r in E; rewrite E, is_refl in Q; discriminate|]. rewrite app_assoc in E. apply app_inj_tail in E. destruct E as [-> ->]. exists r. reflexivity.
Qed.

(** Storing a value where no file is in the way and no directory has the name: the key
    has the value, the keys above it exist, and nothing else changes. *)
Theorem C96_set_partial dir f k v k' : Forall name dir -> Forall name k -> Forall name k' -> k <> [] ->
  clear f (dir ++ List.removelast k) -> lookup f (dir ++ k) <> Some Dir ->
  get dir (set dir f k (Some v)) k' =
    if is k k' then Some v else if below k' k then match get dir f k' with None => Some [] | o => o end else get dir f k'.
Proof.
  intros Fd Fk Fk' N C ND. rewrite set_name, !get_name by assumption. rewrite lookup_spill by (destruct dir; [exact N|discriminate]). rewrite is_app, !mkdirp_clear by exact C.
  assert (X : match lookup f (dir ++ k) with Some n => Some n | None => if below (dir ++ k) (dir ++ List.removelast k) then Some Dir else None end = lookup f (dir ++ k)).
  { rewrite below_app, below_init, is_refl, andb_false_r by exact N. destruct (lookup f (dir ++ k)); reflexivity. }
  rewrite X. rewrite !below_app.
  assert (D : isdir (mkdirp f [] (dir ++ List.removelast k)) (List.removelast (dir ++ k)) = true).
  { unfold isdir. rewrite init_app, mkdirp_clear by assumption. destruct (lookup f (dir ++ List.removelast k)) as [[d|]|] eqn:L; [exfalso; apply (C (dir ++ List.removelast k) (ex_intro _ [] (eq_sym (app_nil_r _))) d L)|reflexivity|].
    assert (Z : below (dir ++ List.removelast k) (dir ++ List.removelast k) = true) by (apply below_iff; exists []; symmetry; apply app_nil_r). rewrite Z. reflexivity. }
  rewrite D. assert (Y : match lookup f (dir ++ k) with Some (File _) => true | Some Dir => false | None => true end = true) by (destruct (lookup f (dir ++ k)) as [[|]|]; congruence).
  rewrite Y, andb_true_r. destruct (is k k') eqn:Q; [reflexivity|].
  rewrite below_init by exact N. assert (Q2 : is k' k = false) by (apply is_not; intros ->; rewrite is_refl in Q; discriminate). rewrite Q2, andb_true_r. destruct (lookup f (dir ++ k')) as [[|]|], (below k' k); reflexivity.
Qed.

(** Where a file is in the way, or the key has keys below it, nothing is stored. *)
Theorem C96_blocked dir f k v k' : wf f -> Forall name dir -> Forall name k -> Forall name k' -> k <> [] ->
  lookup f (dir ++ k) = Some Dir \/ (exists q d, inside q (dir ++ List.removelast k) /\ lookup f q = Some (File d)) ->
  get dir (set dir f k (Some v)) k' = get dir f k'.
Proof.
  intros W Fd Fk Fk' N BL. rewrite set_name, !get_name by assumption. rewrite lookup_spill by (destruct dir; [exact N|discriminate]).
  assert (KEEP : forall q, lookup (mkdirp f [] (dir ++ List.removelast k)) q = lookup f q).
  { assert (MK : forall rest f0 dn, (forall a b, rest = a ++ b -> a <> [] -> lookup f0 (dn ++ a) = None -> exists c e d, a = c ++ e /\ c <> [] /\ lookup f0 (dn ++ c) = Some (File d)) -> mkdirp f0 dn rest = f0).
    { induction rest as [|s rest IH]; intros f0 dn H; [reflexivity|]. cbn [mkdirp]. destruct (lookup f0 (dn ++ [s])) as [[d|]|] eqn:L; [reflexivity| |].
      - apply IH. intros a b E Na La. rewrite <- app_assoc in La. cbn [app] in La. destruct (H (s :: a) b) as (c & e & d & Ec & Nc & Lc); [rewrite E; reflexivity|discriminate|exact La|]. destruct c as [|c0 c]; [congruence|]. cbn in Ec. injection Ec as <- ->.
        exists c, e, d. split; [reflexivity|]. split; [intros ->; rewrite L in Lc; discriminate|]. rewrite <- app_assoc. exact Lc.
      - exfalso. destruct (H [s] rest eq_refl ltac:(discriminate) L) as (c & e & d & Ec & Nc & Lc). destruct c as [|c0 [|c1 c]]; [congruence| |discriminate]. cbn in Ec. injection Ec as <- _. rewrite L in Lc. discriminate. }
    intros q. rewrite MK; [reflexivity|]. intros a b E Na La. cbn [app] in *. destruct BL as [BL|(p & d & (r & E2) & Lp)].
    - exfalso. destruct k as [|x k] using rev_ind; [congruence|]. rewrite removelast_last in E. rewrite app_assoc in BL. rewrite E, <- app_assoc in BL. rewrite (wf_prefix f W (b ++ [x]) a _ BL) in La by (destruct b; discriminate). discriminate.
    - (* the file p and the missing a are both above the same place *)
      assert (Np : p <> []) by (intros ->; discriminate Lp). rewrite E in E2. destruct (Nat.le_gt_cases (length p) (length a)) as [Le|Gt].
      + exists p, (skipn (length p) a), d. split; [|split; assumption]. rewrite <- (firstn_skipn (length p) a) at 1. f_equal. apply (f_equal (firstn (length p))) in E2. rewrite !firstn_app, Nat.sub_diag, firstn_all in E2. replace (length p - length a) with 0 in E2 by lia. cbn in E2. rewrite !app_nil_r in E2. exact E2.
      + exfalso. assert (Pa : p = a ++ skipn (length a) p). { rewrite <- (firstn_skipn (length a) p) at 1. f_equal. apply (f_equal (firstn (length a))) in E2. rewrite !firstn_app, Nat.sub_diag, firstn_all in E2. replace (length a - length p) with 0 in E2 by lia. cbn in E2. rewrite !app_nil_r in E2. symmetry. exact E2. }
        rewrite Pa in Lp. rewrite (wf_prefix f W _ a _ Lp) in La; [discriminate|]. intros Z. apply (f_equal (@length _)) in Z. rewrite skipn_length in Z. cbn in Z. lia. }
  rewrite !KEEP. unfold isdir. rewrite KEEP.
  assert (Z : match lookup f (dir ++ k) with Some (File _) => true | Some Dir => false | None => match lookup f (List.removelast (dir ++ k)) with Some Dir => true | _ => false end end = false).
  { destruct BL as [->|(p & d & (r & E2) & Lp)]; [reflexivity|]. rewrite init_app by exact N. assert (NP : lookup f (dir ++ List.removelast k) <> Some Dir).
    { rewrite E2. destruct r as [|x r]; [rewrite app_nil_r; congruence|]. intros L. rewrite (wf_prefix f W _ p _ L) in Lp by discriminate. discriminate. }
    destruct (lookup f (dir ++ k)) as [n|] eqn:L.
    - exfalso. apply NP. apply (wf_parent f _ n W) in L; [|destruct dir; [exact N|discriminate]]. rewrite init_app in L by exact N. exact L.
    - destruct (lookup f (dir ++ List.removelast k)) as [[|]|]; congruence. }
  rewrite Z, andb_false_r. reflexivity.
Qed.

(** Removing a key: it and all below it are gone; all else that existed is as it was, and
    only keys above it can have come into being. *)
Theorem C96_remove_partial dir f k k' : Forall name dir -> dir <> [] -> Forall name k -> Forall name k' ->
  (below k k' = true -> get dir (set dir f k None) k' = None) /\
  (below k k' = false -> get dir f k' <> None \/ below k' k = false -> get dir (set dir f k None) k' = get dir f k').
Proof.
  intros Fd Nd Fk Fk'. rewrite set_name, !get_name, lookup_rm, below_app by assumption. rewrite (is_not (dir ++ k') []) by (destruct dir; [congruence|discriminate]). rewrite andb_true_r. split; intros B.
  - rewrite B. reflexivity.
  - rewrite B. intros H. destruct (lookup f (dir ++ k')) as [n|] eqn:L; [rewrite (mkdirp_keep _ _ _ _ _ L); reflexivity|]. destruct H as [H|H]; [congruence|].
    destruct (mkdirp_new (dir ++ List.removelast k) f [] _ L) as [X|[_ X]]; [rewrite X; reflexivity|]. cbn [app] in X. exfalso. apply inside_app, init_inside, below_iff in X. congruence.
Qed.

(** The invariant holds for any sequence of calls, and the iterator gives exactly the
    names of the keys below. *)
Definition play (dir : path) (f : fs) (calls : list (key * option bytes)) : fs := fold_left (fun f c => set dir f (fst c) (snd c)) calls f.
Theorem C96_wf dir calls : forall f, wf f -> wf (play dir f calls).
Proof.
  induction calls as [|[k v] calls IH]; intros f W; [exact W|]. apply IH. cbn [fst snd]. unfold set. destruct (key_safe k); [|exact W]. pose proof (wf_mkdirp (resolve (file_of dir (removelast k 1))) f [] W eq_refl) as M. destruct v; [apply wf_spill, M|apply wf_rm, M].
Qed.
Theorem C96_iterate dir f k s : wf f -> Forall name dir -> Forall name k -> name s -> In s (iterate dir f k) <-> get dir f (k ++ [s]) <> None.
Proof.
  intros W Fd Fk Ns. rewrite get_name by (try assumption; apply Forall_app; auto). unfold iterate. rewrite names_safe, resolve_file by assumption. cbv zeta. rewrite in_flat_map. pose proof W as [ND W0]. split.
  - intros ([q n] & I & X). cbn [fst] in X. destruct q as [|x q]; [contradiction|]. destruct (is (List.removelast (x :: q)) (dir ++ k)) eqn:E; [|contradiction]. apply is_iff in E. destruct X as [<-|[]].
    rewrite app_assoc, <- E, <- app_removelast_last by discriminate. rewrite (in_lookup f (x :: q) n ND I) by discriminate. destruct n; discriminate.
  - intros H. destruct (lookup f (dir ++ k ++ [s])) as [n|] eqn:L; [|congruence]. rewrite app_assoc in L. exists ((dir ++ k) ++ [s], n). split; [apply lookup_in; [exact L|destruct (dir ++ k); discriminate]|]. cbn [fst].
    destruct ((dir ++ k) ++ [s]) as [|x q] eqn:Q; [destruct (dir ++ k); discriminate|]. rewrite <- Q, removelast_last, is_refl, last_last. left. reflexivity.
Qed.

Definition home : path := [B "home"; B "c"].
Definition ex_fs : fs := [([B "home"], Dir); ([B "home"; B "c"], Dir); ([B "etc"], Dir); ([B "etc"; B "p"], File (B "root"))].
(** A key has no value of its own once there are keys below it, and the other way round. *)
Theorem C96_both_refuted :
  let f := play home ex_fs [([B "a"; B "b"], Some (B "1")); ([B "a"], Some (B "2")); ([B "x"], Some (B "3")); ([B "x"; B "y"], Some (B "4"))] in
  get home f [B "a"] = Some [] /\ get home f [B "x"; B "y"] = None.
Proof. split; vm_compute; reflexivity. Qed.
(** Removing a key that is not there makes the keys above it. *)
Theorem C96_ghost_refuted : get home ex_fs [B "a"] = None /\ get home (set home ex_fs [B "a"; B "b"] None) [B "a"] = Some [].
Proof. split; vm_compute; reflexivity. Qed.
(** Keys that are equal but for the case of letters are not the same file. *)
Theorem C96_case_refuted : key_eq [B "A"] [B "a"] = true /\ get home (set home ex_fs [B "A"] (Some (B "1"))) [B "a"] = None.
Proof. split; vm_compute; reflexivity. Qed.

Example C96_ex_meets : wf ex_fs /\ Forall name home /\ name (B "a") /\ clear ex_fs (home ++ List.removelast [B "a"; B "b"]) /\ lookup ex_fs (home ++ [B "a"; B "b"]) <> Some Dir.
Proof.
  assert (NM : forall s, In s [B "home"; B "c"; B "a"] -> name s).
  { intros s I. cbn in I. repeat (destruct I as [<-|I]; [split; [split; [discriminate|]; split; intros X; cbn in X; repeat (destruct X as [X|X]; [discriminate X|]); exact X|]; split; discriminate|]). contradiction. }
  split; [split; [repeat constructor; cbn; intuition discriminate|]|].
  - intros p n I. cbn in I. repeat (destruct I as [E|I]; [injection E as <- <-; split; [discriminate|reflexivity]|]). contradiction.
  - split; [repeat constructor; apply NM; cbn; auto|]. split; [apply NM; cbn; auto|]. split; [|vm_compute; discriminate]. intros q (r & E) d. cbn in E. destruct q as [|x [|y [|z [|w q]]]]; try discriminate; injection E; intros; subst; vm_compute; discriminate.
Qed.
Example C96_ex : let f := play home ex_fs [([B "a"; B "b"], Some (B "1")); ([B ".."; B ".."; B "etc"; B "p"], Some (B "hacked")); ([B "a"; B "c"], Some (B "2"))] in
  get home f [B "a"; B "b"] = Some (B "1") /\ iterate home f [B "a"] = [B "c"; B "b"] /\ lookup f [B "etc"; B "p"] = Some (File (B "root")) /\ get home f [B ".."; B ".."; B "etc"; B "p"] = None /\
  resolve (file_of home [B ".."; B ".."; B "etc"; B "p"]) = [B "etc"; B "p"] /\ get home (set home f [B "a"] None) [B "a"; B "b"] = None.
Proof. repeat split; vm_compute; reflexivity. Qed.

Print Assumptions C96_inside.
Print Assumptions C96_reads.
Print Assumptions C96_set_partial.
Print Assumptions C96_blocked.
Print Assumptions C96_remove_partial.
Print Assumptions C96_wf.
Print Assumptions C96_iterate.
Print Assumptions C96_both_refuted.
Print Assumptions C96_ghost_refuted.
Print Assumptions C96_case_refuted.
