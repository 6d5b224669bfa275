(** C55: refreshing a configuration file. *)
From Verif Require Import Base BaseFacts Ctype KeyModel KeySpec KeyProofs TempModel TempSpec TreeProofs TempProofs IniModel RefreshModel RefreshSpec RefreshProofs.
Local Open Scope nat_scope.

Lemma get_has' g k : Forall plain k -> tget g k = has g k.
Proof. intros P. rewrite tget_has by (left; exact P). destruct (plain_slashed _ P) as [-> _]. reflexivity. Qed.
Lemma reports_tells g g' n : WFo (root g) -> WFo (root g') -> reports [] (has g) (has g') n -> tells_change (tget g) (tget g') n.
Proof.
  intros W W' [S A O].
  assert (T : forall k v, In (k, v) n -> Forall plain k /\ tget g' k = v /\ tget g k <> v).
  { intros k v H. destruct (S k v H) as (P & r & Pr & E & E1 & E2). cbn in E. assert (Sk : same k r = true) by (apply same_lows; exact E). split; [exact P|]. rewrite !get_has' by exact P.
    rewrite (has_low g' k r), (has_low g k r) by assumption. auto. }
  split; [exact T| |].
  - intros k P H. rewrite !get_has' in H by exact P. destruct (A k P H) as (q & w & Hi & E). exists q, w. split; [exact Hi|]. apply same_lows. exact E.
  - intros l k v l' k' v' -> H. destruct (same k k') eqn:Sk; [|reflexivity]. exfalso.
    destruct (T k (Some v)) as (P & E1 & _); [apply in_app_iff; right; left; reflexivity|]. destruct (T k' v') as (P' & E1' & _); [apply in_app_iff; apply in_app_iff in H; destruct H; [left|right; right]; assumption|].
    assert (v' = Some v) as ->. { rewrite <- E1', <- E1, !get_has' by assumption. symmetry. apply has_low; assumption. }
    rewrite filter_app, map_app in O. cbn [filter snd map fst] in O. apply NoDup_remove_2 in O. apply O. apply same_lows in Sk. rewrite Sk.
    apply in_app_iff in H. apply in_app_iff. destruct H as [H|H]; [left|right]; apply in_map_iff; exists (k', Some v); (split; [reflexivity|]); apply filter_In; auto.
Qed.

Lemma stat_ne a b : a <> b -> stat_eqb a b = false.
Proof.
  intros H. destruct (stat_eqb a b) eqn:E; [|reflexivity]. exfalso. apply H. unfold stat_eqb in E. rewrite !andb_true_iff, !Z.eqb_eq in E. destruct a, b. cbn in E. destruct E as ((((-> & ->) & ->) & ->) & ->). reflexivity.
Qed.

(** After any changes and refreshes: if the file can be read and looks different from
    the last time, a refresh succeeds, whatever is in the file; the generator then
    holds just what is in the file, has nothing left to be saved, and has told about
    the changes. *)
Theorem C55_refresh es ns i st content g : ini_history ini_new es ns i -> keys_ok es -> st <> old_st i -> load content = Ok g ->
  exists i' n, ini_refresh i (Readable st content false) = Ok (i', true, n) /\
    (forall k, tget (live i') k = tget g k) /\ dirty (live i') = false /\ tells_change (tget (live i)) (tget g) n.
Proof.
  intros H K Hd Hl. assert (Hs : stat_eqb st (old_st i) = false) by (apply stat_ne; exact Hd). destruct (history_fine _ _ _ _ H new_fine K) as (F & _). destruct (refresh_load i st content g F Hs Hl) as (n & E & R). eexists. exists n. split; [exact E|].
  split; [intros k; reflexivity|]. split; [reflexivity|]. apply reports_tells; [apply F|apply (load_good _ _ Hl)|exact R].
Qed.
(** Someone who starts with the empty root and applies every notification in turn
    knows all the contents. *)
Theorem C55_mirror es ns i : ini_history ini_new es ns i -> keys_ok es ->
  forall k, Forall plain k -> replay ns (fun k => match k with [] => Some [] | _ => None end) k = tget (live i) k.
Proof.
  intros H K k P. destruct (history_fine _ _ _ _ H new_fine K) as (_ & R). rewrite get_has' by exact P. apply R; [|exact P]. intros [|s r] _; reflexivity.
Qed.
(** A refresh that fails leaves everything as it was, changes that were not saved
    included, and tells nothing.  So does one that finds the file the same. *)
Theorem C55_failed i a i' n : ini_refresh i a = Ok (i', false, n) -> live i' = live i /\ n = [].
Proof.
  destruct a as [junk|st|st content failed]; cbn [ini_refresh]; try (intros H; injection H as <- <-; auto).
  destruct (stat_eqb st (old_st i)); [discriminate|]. destruct (load content); cbn [bind]; try discriminate. destruct failed; [intros H; injection H as <- <-; auto|].
  destruct (root (live i)); cbn [of_opt bind]; try discriminate. destruct (root a); cbn [of_opt bind]; try discriminate. destruct (compare _ _); cbn [bind]; discriminate.
Qed.
Theorem C55_same i st content failed : st = old_st i -> ini_refresh i (Readable st content failed) = Ok (i, true, []).
Proof. intros ->. unfold ini_refresh. assert (E : stat_eqb (old_st i) (old_st i) = true) by (unfold stat_eqb; rewrite !Z.eqb_refl; reflexivity). rewrite E. reflexivity. Qed.

(** The file is held to be the same if the time of the last change in whole seconds
    and the size are: a change within the second is not seen. *)
Definition st1 : stat := {| st_ctime := 1; st_dev := 1; st_ino := 1; st_blocks := 8; st_size := 6 |}.
Definition old_text : bytes := B "a = 1" ++ [newline].
Definition new_text : bytes := B "a = 2" ++ [newline].
Theorem C55_stale_refuted : exists es ns i i' n g, ini_history ini_new es ns i /\ keys_ok es /\ length new_text = length old_text /\ load new_text = Ok g /\
  ini_refresh i (Readable st1 new_text false) = Ok (i', true, n) /\ tget g [B "a"] = Some (B "2") /\ tget (live i') [B "a"] = Some (B "1").
Proof.
  destruct (ini_refresh ini_new (Readable st1 old_text false)) as [[[i b] n]| |] eqn:E; [|vm_compute in E; discriminate..].
  destruct (load new_text) as [g| |] eqn:El; [|vm_compute in El; discriminate..]. exists [Refresh (Readable st1 old_text false)], (n ++ []), i, i, [], g.
  split; [eapply I_refresh; [exact E|apply I_end]|]. split; [intros k v [H|[]]; discriminate|]. split; [reflexivity|]. split; [reflexivity|]. vm_compute in E, El. injection E as <- <- <-. injection El as <-.
  split; [reflexivity|]. split; reflexivity.
Qed.
(** After a refresh that failed in the middle of the file, the next one claims to
    have succeeded without having read it. *)
Theorem C55_retry_refuted : exists i i' g, ini_refresh ini_new (Readable st1 old_text true) = Ok (i, false, []) /\
  ini_refresh i (Readable st1 old_text false) = Ok (i', true, []) /\ load old_text = Ok g /\ tget g [B "a"] = Some (B "1") /\ tget (live i') [B "a"] = None.
Proof.
  destruct (load old_text) as [g| |] eqn:El; [|vm_compute in El; discriminate..]. exists {| live := live ini_new; old_st := st1 |}, {| live := live ini_new; old_st := st1 |}, g.
  split; [unfold ini_refresh; rewrite El; reflexivity|]. split; [reflexivity|]. split; [reflexivity|]. vm_compute in El. injection El as <-. split; reflexivity.
Qed.
(** That a key is gone is told once for each key above it that is gone too, and once
    more. *)
Definition deep_text : bytes := B "a/b/c = 1" ++ [newline].
Definition st2 : stat := {| st_ctime := 2; st_dev := 1; st_ino := 1; st_blocks := 8; st_size := 0 |}.
Theorem C55_removed_refuted : exists i n i' n', ini_refresh ini_new (Readable st1 deep_text false) = Ok (i, true, n) /\
  ini_refresh i (Readable st2 [] false) = Ok (i', true, n') /\ length (filter (fun x => same (fst x) [B "a"; B "b"; B "c"]) n') = 3.
Proof.
  destruct (ini_refresh ini_new (Readable st1 deep_text false)) as [[[i b] n]| |] eqn:E; [|vm_compute in E; discriminate..]. vm_compute in E. injection E as <- <- <-.
  eexists. eexists. eexists. eexists. split; [reflexivity|]. split; vm_compute; reflexivity.
Qed.

Example ex_refresh : exists i n, ini_refresh ini_new (Readable st1 (B "a = 1" ++ [newline] ++ B "[s]" ++ [newline] ++ B "B = {x y}" ++ [newline]) false) = Ok (i, true, n) /\
  n = [([B "a"], Some (B "1")); ([B "s"], Some []); ([B "s"; B "B"], Some (B "x y"))].
Proof. eexists. eexists. split; vm_compute; reflexivity. Qed.
(** a change, a new key and a removed one, over unsaved changes *)
Example ex_change : exists es ns i, ini_history ini_new es ns i /\ keys_ok es /\ st2 <> old_st i /\ tget (live i) [B "x"] = Some (B "y") /\
  exists i' n, ini_refresh i (Readable st2 (B "A = 3" ++ [newline] ++ B "b = 1" ++ [newline]) false) = Ok (i', true, n) /\
    n = [([B "A"], Some (B "3")); ([B "b"], Some (B "1")); ([B "x"], None)].
Proof.
  destruct (ini_refresh ini_new (Readable st1 old_text false)) as [[[i b] n]| |] eqn:E; [|vm_compute in E; discriminate..]. destruct (ini_set i [B "x"] (Some (B "y"))) as [i1 n1] eqn:Es.
  exists [Refresh (Readable st1 old_text false); Set_ [B "x"] (Some (B "y"))], (n ++ n1 ++ []), i1. split; [eapply I_refresh; [exact E|]; eapply I_set; [exact Es|apply I_end]|].
  split. { intros k v [H|[H|[]]]; [discriminate|]. injection H as <- <-. left. constructor; [|constructor]. split; [discriminate|]. split; intros [X|[]]; discriminate. }
  vm_compute in E. injection E as <- <- <-. vm_compute in Es. injection Es as <- <-. split; [discriminate|]. split; [reflexivity|]. eexists. eexists. split; vm_compute; reflexivity.
Qed.
Print Assumptions C55_refresh.
Print Assumptions C55_mirror.
