(** Proofs about the string cache. *)
From Verif Require Import Base BaseFacts ScacModel.
Local Open Scope nat_scope.

Lemma same_true a b : same a b = true <-> a = b.
Proof. unfold same. destruct (list_eq_dec Ascii.ascii_dec a b); split; congruence. Qed.

Record inv (s : st) : Prop := Inv {
  i_vars : Forall (fun b => b < length (bufs s)) (vars s);
  i_tab : Forall (fun b => b < length (bufs s)) (tab s);
  i_one : NoDup (map (txt s) (tab s));
  i_none : caches s = 0 -> tab s = [] }.

Lemma txt_grow s x v t c m b : b < length (bufs s) -> txt (St (bufs s ++ x) v t c m) b = txt s b.
Proof. intros H. unfold txt. cbn [bufs]. apply app_nth1, H. Qed.
Lemma txt_new l x v t c m : txt (St (l ++ [x]) v t c m) (length l) = x.
Proof. unfold txt. cbn. rewrite app_nth2, Nat.sub_diag by lia. reflexivity. Qed.
Lemma map_same {A B} (f g : A -> B) (P : A -> Prop) l : Forall P l -> (forall x, P x -> f x = g x) -> map f l = map g l.
Proof. intros H E. induction H; cbn; [reflexivity|]. rewrite E, IHForall by assumption. reflexivity. Qed.
Lemma grow n x l : Forall (fun b => b < n) l -> Forall (fun b => b < n + x) l.
Proof. intros H. eapply Forall_impl; [|exact H]. cbn. intros. lia. Qed.
Lemma NoDup_ids {A} (f : nat -> A) l : NoDup (map f l) -> NoDup l.
Proof. apply NoDup_map_inv. Qed.
Lemma NoDup_filter_map {A B} (f : A -> B) g l : NoDup (map f l) -> NoDup (map f (filter g l)).
Proof.
  induction l as [|a l IH]; intros H; [constructor|]. cbn in *. inversion H as [|? ? N D]; subst. destruct (g a); [|apply IH, D]. cbn. constructor; [|apply IH, D].
  intros X. apply N. apply in_map_iff in X. destruct X as (y & E & Y). apply filter_In in Y. apply in_map_iff. exists y. tauto.
Qed.
Lemma put_length {A} : forall (l : list A) i x, length (put l i x) = length l.
Proof. induction l; intros [|i] x; cbn; auto. Qed.
Lemma put_same {A} : forall (l : list A) i x, i < length l -> nth_error (put l i x) i = Some x.
Proof. induction l; intros [|i] x H; cbn in *; try lia; [reflexivity|apply IHl; lia]. Qed.
Lemma put_other {A} : forall (l : list A) i j x, i <> j -> nth_error (put l i x) j = nth_error l j.
Proof. induction l; intros [|i] [|j] x H; cbn; try reflexivity; try congruence. apply IHl. congruence. Qed.
Lemma put_nth {A} : forall (l : list A) i j x d, i <> j -> nth j (put l i x) d = nth j l d.
Proof. induction l; intros [|i] [|j] x d H; cbn; try reflexivity; try congruence. apply IHl. congruence. Qed.
Lemma put_nth_same {A} : forall (l : list A) i x d, i < length l -> nth i (put l i x) d = x.
Proof. induction l; intros [|i] x d H; cbn in *; try lia; [reflexivity|apply IHl; lia]. Qed.
Lemma put_In {A} : forall (l : list A) i x y, In y (put l i x) -> y = x \/ In y l.
Proof. induction l; intros [|i] x y H; cbn in *; intuition. apply IHl in H0. intuition. Qed.
Lemma del_In {A} : forall (l : list A) i y, In y (del l i) -> In y l.
Proof. induction l; intros [|i] y H; cbn in *; intuition. right. eapply IHl; eassumption. Qed.

Lemma unique_alone s b i : nth_error (vars s) i = Some b -> is_unique s b = true -> ~ In b (tab s) /\ forall j, nth_error (vars s) j = Some b -> j = i.
Proof.
  intros N U. apply Nat.leb_le in U. unfold links in U.
  assert (V : 1 <= count_occ Nat.eq_dec (vars s) b) by (apply (count_occ_In Nat.eq_dec), (nth_error_In _ _ N)). split; [intros T; apply (count_occ_In Nat.eq_dec) in T; lia|].
  assert (C : count_occ Nat.eq_dec (vars s) b <= 1) by lia. clear - N C. revert i N. induction (vars s) as [|a l IH]; intros i N j M; [destruct i; discriminate|]. cbn in C. destruct (Nat.eq_dec a b) as [->|Ne].
  - assert (Z : ~ In b l) by (apply (count_occ_not_In Nat.eq_dec); lia). destruct i, j; try reflexivity; cbn in N, M; exfalso; apply Z; eapply nth_error_In; eassumption.
  - destruct i, j; cbn in N, M; try congruence. f_equal. eapply IH; eassumption.
Qed.

Lemma clean_inv s : inv s -> inv (clean s).
Proof.
  intros [V T O N]. unfold clean. destruct (Nat.ltb _ _); [constructor; assumption|]. constructor; cbn; [exact V| | |].
  - apply Forall_forall. intros b H. apply filter_In in H. rewrite Forall_forall in T. apply T, H.
  - apply (NoDup_filter_map (txt s)). exact O.
  - intros Z. rewrite (N Z). reflexivity.
Qed.
Lemma lookup_some s t b : lookup s t = Some b -> In b (tab s) /\ txt s b = t.
Proof. intros H. apply find_some in H. rewrite same_true in H. exact H. Qed.
Lemma lookup_none s t : lookup s t = None -> ~ In t (map (txt s) (tab s)).
Proof. intros H X. apply in_map_iff in X. destruct X as (b & E & I). apply (find_none _ _ H) in I. cbn in I. assert (Y : same (txt s b) t = true) by (apply same_true; exact E). congruence. Qed.
Lemma step_inv s o s' : inv s -> step s o = Ok s' -> inv s'.
Proof.
  intros I E. pose proof I as [V T O N]. destruct o as [t|i|i t|t|i| | |]; cbn [step] in E.
  - injection E as <-. constructor; cbn [bufs vars tab caches limit map make drop]; rewrite ?app_length; [constructor; [cbn [length]; lia|apply grow; auto]|apply grow; auto| |exact N].
    erewrite (map_same _ (txt s)); [exact O|exact T|]. cbv beta. intros x X. apply txt_grow, X.
  - injection E as <-. constructor; cbn [bufs vars tab caches limit map make drop]; try assumption. apply Forall_forall. intros b X. apply del_In in X. rewrite Forall_forall in V. apply V, X.
  - injection E as <-. unfold edit. destruct (nth_error (vars s) i) as [b|] eqn:NE; [|exact I]. destruct (is_unique s b) eqn:U.
    + destruct (unique_alone s b i NE U) as [NT _]. constructor; cbn [bufs vars tab caches limit map make drop]; rewrite ?put_length; try assumption.
      erewrite (map_same _ (txt s)) with (P := fun x => In x (tab s)); [exact O|apply Forall_forall; auto|]. cbv beta. intros x X. unfold txt. cbn. apply put_nth. congruence.
    + constructor; cbn [bufs vars tab caches limit map make drop]; rewrite ?app_length; [| apply grow; auto| |exact N].
      * apply Forall_forall. intros x X. apply put_In in X. destruct X as [->|X]; [cbn; lia|]. rewrite Forall_forall in V. specialize (V x X). cbn in V. lia.
      * erewrite (map_same _ (txt s)); [exact O|exact T|]. cbv beta. intros x X. apply txt_grow, X.
  - unfold get_text in E. destruct (caches s) as [|c] eqn:C; [discriminate|]. destruct (lookup s t) as [b|] eqn:L; injection E as <-.
    + destruct (lookup_some _ _ _ L) as [Lb _]. constructor; cbn [bufs vars tab caches limit map make drop]; try assumption; try discriminate; constructor; [rewrite Forall_forall in T; apply T, Lb|exact V].
    + constructor; cbn [bufs vars tab caches limit map make drop]; rewrite ?app_length; [constructor; [cbn [length]; lia|apply grow; auto]|constructor; [cbn [length]; lia|apply grow; auto]| |discriminate].
      rewrite txt_new. erewrite (map_same _ (txt s)); [|exact T|]; [constructor; [exact (lookup_none _ _ L)|exact O]|]. cbv beta. intros x X. apply txt_grow, X.
  - unfold get_var in E. destruct (caches s) as [|c] eqn:C; [discriminate|]. destruct (nth_error (vars s) i) as [v|] eqn:NE; [|discriminate]. assert (Vv : v < length (bufs s)) by (rewrite Forall_forall in V; apply V, (nth_error_In _ _ NE)). destruct (lookup s (txt s v)) as [b|] eqn:L; injection E as <-.
    + destruct (lookup_some _ _ _ L) as [Lb _]. constructor; cbn [bufs vars tab caches limit map make drop]; try assumption; try discriminate; constructor; [rewrite Forall_forall in T; apply T, Lb|exact V].
    + constructor; cbn [bufs vars tab caches limit map make drop]; [constructor; assumption|constructor; assumption| |discriminate]. constructor; [exact (lookup_none _ _ L)|exact O].
  - destruct (caches s); [discriminate|]. injection E as <-. apply clean_inv, I.
  - injection E as <-. unfold construct. destruct (caches s); constructor; cbn [bufs vars tab caches limit map make drop]; try assumption; try constructor; discriminate.
  - injection E as <-. unfold destruct_cache. destruct (caches s) as [|[|c]] eqn:C; [exact I| |].
    + constructor; cbn [bufs vars tab caches limit map make drop]; try assumption; try constructor. 
    + apply clean_inv. constructor; cbn [bufs vars tab caches limit map make drop]; try assumption. discriminate.
Qed.
Lemma run_inv : forall l s s', inv s -> run s l = Ok s' -> inv s'.
Proof. induction l as [|o l IH]; intros s s' I E; cbn [run] in E; [congruence|]. destruct (step s o) as [s1| |] eqn:S1; try discriminate. eapply IH; [|exact E]. eapply step_inv; eassumption. Qed.
Lemma initial_inv : inv initial.
Proof. constructor; cbn; auto; constructor. Qed.

Lemma clean_bufs s : bufs (clean s) = bufs s /\ vars (clean s) = vars s /\ caches (clean s) = caches s.
Proof. unfold clean. destruct (Nat.ltb _ _); auto. Qed.
Lemma clean_keeps s b : In b (tab s) -> In b (vars s) -> In b (tab (clean s)).
Proof.
  intros T V. unfold clean. destruct (Nat.ltb _ _); [exact T|]. cbn. apply filter_In. split; [exact T|]. unfold is_unique, links. apply Bool.negb_true_iff, Nat.leb_gt.
  apply (count_occ_In Nat.eq_dec) in T, V. lia.
Qed.
Lemma clean_due s b : inv s -> limit s <= length (tab s) -> In b (tab (clean s)) <-> In b (tab s) /\ In b (vars s).
Proof.
  intros I L. split; [|intros [T V]; apply clean_keeps; assumption]. unfold clean. replace (Nat.ltb _ _) with false by (symmetry; apply Nat.ltb_ge, L). cbn. intros H. apply filter_In in H. destruct H as [T U]. split; [exact T|].
  apply Bool.negb_true_iff, Nat.leb_gt in U. unfold links in U. assert (C := proj1 (NoDup_count_occ Nat.eq_dec (tab s)) (NoDup_ids _ _ (i_one s I)) b). apply (count_occ_In Nat.eq_dec). lia.
Qed.
(** A table entry that is in use stays what it is. *)
Lemma step_tab s o s' b : inv s -> step s o = Ok s' -> In b (tab s) -> In b (vars s) -> caches s' <> 0 -> In b (tab s') /\ txt s' b = txt s b.
Proof.
  intros I E T V C. pose proof I as [Iv It _ _]. assert (Lb : b < length (bufs s)) by (rewrite Forall_forall in It; apply It, T). destruct o as [t|i|i t|t|i| | |]; cbn [step] in E.
  - injection E as <-. split; [exact T|]. apply txt_grow, Lb.
  - injection E as <-. split; [exact T|reflexivity].
  - injection E as <-. unfold edit in *. destruct (nth_error (vars s) i) as [c|] eqn:NE; [|auto]. destruct (is_unique s c) eqn:U; cbn [tab]; (split; [exact T|]).
    + destruct (unique_alone s c i NE U) as [NT _]. unfold txt. cbn. apply put_nth. congruence.
    + apply txt_grow, Lb.
  - unfold get_text in E. destruct (caches s); [discriminate|]. destruct (lookup s t); injection E as <-; cbn [tab]; split; auto; try (right; exact T). apply txt_grow, Lb.
  - unfold get_var in E. destruct (caches s); [discriminate|]. destruct (nth_error (vars s) i); [|discriminate]. destruct (lookup s (txt s n0)); injection E as <-; cbn [tab]; split; auto; try (right; exact T).
  - destruct (caches s); [discriminate|]. injection E as <-. split; [apply clean_keeps; assumption|]. unfold txt. rewrite (proj1 (clean_bufs s)). reflexivity.
  - injection E as <-. unfold construct in *. destruct (caches s) eqn:Cs; cbn; [|auto]. rewrite (i_none s I Cs) in T. contradiction.
  - injection E as <-. unfold destruct_cache in *. destruct (caches s) as [|[|c]]; cbn in *; [auto|congruence|]. set (s1 := St _ _ _ _ _) in *. split; [apply clean_keeps; assumption|]. unfold txt. rewrite (proj1 (clean_bufs s1)). reflexivity.
Qed.
Lemma lookup_in s b : inv s -> In b (tab s) -> lookup s (txt s b) = Some b.
Proof.
  intros I T. destruct (lookup s (txt s b)) as [c|] eqn:L; [|apply lookup_none in L; exfalso; apply L, in_map, T]. destruct (lookup_some _ _ _ L) as [Tc E]. f_equal.
  pose proof (i_one s I) as O. clear L I. revert O T Tc. generalize (tab s). induction l as [|a l IH]; intros O T Tc; [contradiction|]. cbn in O. inversion O as [|? ? N D]; subst. destruct T as [->|T], Tc as [->|Tc]; auto.
  - exfalso. apply N. apply in_map_iff. exists c. auto.
  - exfalso. apply N. apply in_map_iff. exists b. auto.
Qed.
