(** Proofs about the service manager. *)
From Verif Require Import Base ServSpec ServModel.

Definition nodes (o : order) : list node := map (fun h => Node h true) (firsts o) ++ map (fun h => Node h false) (middle o ++ lasts o).
Lemma nodes_handlers o : map handler (nodes o) = all o.
Proof. unfold nodes, all. rewrite map_app, !map_map. cbn [handler]. rewrite !map_id. reflexivity. Qed.
Lemma known_iff o h : existsb (fun n => Nat.eqb (handler n) h) (nodes o) = know o h.
Proof.
  unfold know. rewrite <- nodes_handlers. induction (nodes o) as [|n l IH]; [reflexivity|]. cbn [existsb map]. rewrite IH. f_equal. apply Nat.eqb_sym.
Qed.

Lemma add_loop_known h l : forall i p, existsb (fun n => Nat.eqb (handler n) h) l = true -> add_loop h l i p = None.
Proof. induction l as [|n l IH]; intros i p H; [discriminate|]. cbn [existsb add_loop] in *. destruct (Nat.eqb (handler n) h); [reflexivity|]. apply IH, H. Qed.
Lemma add_loop_false h m : forall i p, existsb (fun n => Nat.eqb (handler n) h) (map (fun x => Node x false) m) = false ->
  add_loop h (map (fun x => Node x false) m) i p = Some p.
Proof. induction m as [|n l IH]; intros i p H; [reflexivity|]. cbn [map existsb add_loop handler intercept] in *. destruct (Nat.eqb n h); [discriminate|]. apply IH, H. Qed.
Lemma add_loop_new h f m : forall i p, existsb (fun n => Nat.eqb (handler n) h) (map (fun x => Node x true) f ++ map (fun x => Node x false) m) = false -> p = i ->
  add_loop h (map (fun x => Node x true) f ++ map (fun x => Node x false) m) i p = Some (i + length f).
Proof.
  induction f as [|n f IH]; intros i p H ->; cbn [map app length].
  - rewrite add_loop_false by exact H. f_equal. lia.
  - cbn [map app existsb add_loop handler intercept] in *. destruct (Nat.eqb n h); [discriminate|]. rewrite IH by (exact H || reflexivity). f_equal. lia.
Qed.

Lemma remove_none h l : existsb (fun n => Nat.eqb (handler n) h) l = false -> remove_handler h l = l.
Proof. induction l as [|n l IH]; intros H; [reflexivity|]. cbn [existsb remove_handler] in *. destruct (Nat.eqb (handler n) h); [discriminate|]. f_equal. apply IH, H. Qed.
Lemma remove_app h a b : remove_handler h (a ++ b) = if existsb (fun n => Nat.eqb (handler n) h) a then remove_handler h a ++ b else a ++ remove_handler h b.
Proof. induction a as [|n a IH]; [reflexivity|]. cbn [app remove_handler existsb]. destruct (Nat.eqb (handler n) h); [reflexivity|]. cbn [orb]. rewrite IH. destruct (existsb _ a); reflexivity. Qed.
Lemma without_none h l : ~ In h l -> without h l = l.
Proof. induction l as [|x l IH]; intros H; [reflexivity|]. cbn [without filter]. destruct (Nat.eqb_spec h x); [destruct H; left; congruence|]. cbn [negb]. f_equal. apply IH. intros I. apply H. right. exact I. Qed.
Lemma remove_map h f l : NoDup l -> (forall x, handler (f x) = x) -> remove_handler h (map f l) = map f (without h l).
Proof.
  intros N F. induction N as [|x l X N IH]; [reflexivity|]. cbn [map remove_handler without filter]. rewrite F, Nat.eqb_sym. destruct (Nat.eqb_spec h x) as [->|]; cbn [negb].
  - fold (without x l). rewrite (without_none x l X). reflexivity.
  - cbn [map]. f_equal. exact IH.
Qed.
Lemma exists_in h f l : (forall x, handler (f x) = x) -> existsb (fun n => Nat.eqb (handler n) h) (map f l) = true <-> In h l.
Proof.
  intros F. rewrite existsb_exists. split.
  - intros (n & I & E). apply in_map_iff in I. destruct I as (x & <- & I). rewrite F in E. apply Nat.eqb_eq in E. congruence.
  - intros I. exists (f h). split; [apply in_map, I|]. rewrite F. apply Nat.eqb_refl.
Qed.
Lemma without_app h a b : without h (a ++ b) = without h a ++ without h b.
Proof. apply filter_app. Qed.

Lemma nodup_app_inv {A} (a b : list A) : NoDup (a ++ b) -> NoDup a /\ NoDup b /\ forall x, In x a -> In x b -> False.
Proof.
  induction a as [|x a IH]; cbn [app]; intros H; [split; [constructor|]; split; [exact H|intros x []]|]. inversion H as [|? ? X N]; subst. destruct (IH N) as (A1 & A2 & A3).
  split; [constructor; [intros I; apply X, in_or_app; auto|exact A1]|]. split; [exact A2|]. intros y [<-|Y] Z; [apply X, in_or_app; auto|eapply A3; eassumption].
Qed.

Lemma step_ok p o : NoDup (all o) -> run1 p (nodes o) = nodes (act o p) /\ NoDup (all (act o p)).
Proof.
  intros N. destruct p as [h|h|h|h]; cbn [run1 act].
  - unfold add_handler. destruct (know o h) eqn:K.
    + rewrite <- known_iff in K. rewrite add_loop_known by exact K. auto.
    + pose proof K as K'. rewrite <- known_iff in K'. unfold nodes in K' |- *. rewrite (add_loop_new h _ _ 0 0 K' eq_refl). cbn [Nat.add]. unfold insert.
      rewrite firstn_app, skipn_app, !map_length, Nat.sub_diag, firstn_all2, skipn_all2 by (rewrite map_length; lia). cbn [firstn skipn app firsts middle lasts map]. rewrite app_nil_r.
      split; [reflexivity|]. unfold all. cbn [firsts middle lasts app]. apply NoDup_Add with (a := h) (l := all o); [apply Add_app|]. split; [exact N|].
      intros I. unfold know in K. assert (X : existsb (Nat.eqb h) (all o) = true) by (apply existsb_exists; exists h; rewrite Nat.eqb_refl; auto). congruence.
  - unfold add_first. rewrite known_iff. destruct (know o h) eqn:K; [auto|]. split; [reflexivity|]. unfold all. cbn [firsts middle lasts app]. constructor; [|exact N].
    intros I. unfold know in K. assert (X : existsb (Nat.eqb h) (all o) = true) by (apply existsb_exists; exists h; rewrite Nat.eqb_refl; auto). congruence.
  - assert (G : forall l, add_last h l = if existsb (fun n => Nat.eqb (handler n) h) l then l else l ++ [Node h false]).
    { induction l as [|n l IH]; [reflexivity|]. cbn [add_last existsb]. destruct (Nat.eqb (handler n) h); [reflexivity|]. cbn [orb]. rewrite IH. destruct (existsb _ l); reflexivity. }
    rewrite G, known_iff. destruct (know o h) eqn:K; [auto|]. split.
    + unfold nodes. cbn [firsts middle lasts]. rewrite app_assoc, (map_app _ (middle o ++ lasts o)), app_assoc. reflexivity.
    + unfold all. cbn [firsts middle lasts]. rewrite !app_assoc. apply NoDup_Add with (a := h) (l := all o).
      * unfold all. pose proof (Add_app h (firsts o ++ middle o ++ lasts o) []) as X. rewrite app_nil_r, <- !app_assoc in X. rewrite <- !app_assoc. exact X.
      * split; [exact N|]. intros I. unfold know in K. assert (X : existsb (Nat.eqb h) (all o) = true) by (apply existsb_exists; exists h; rewrite Nat.eqb_refl; auto). congruence.
  - unfold all in *. destruct (nodup_app_inv _ _ N) as (N1 & N2 & D). split.
    + unfold nodes. cbn [firsts middle lasts]. rewrite remove_app, <- without_app.
      destruct (existsb _ (map (fun h0 => Node h0 true) (firsts o))) eqn:E.
      * apply exists_in in E; [|reflexivity]. rewrite (remove_map h (fun x => Node x true)) by (auto || reflexivity). f_equal. f_equal. symmetry. apply without_none. intros I. eapply D; eassumption.
      * rewrite (remove_map h (fun x => Node x false)) by (auto || reflexivity). f_equal. f_equal. symmetry. apply without_none. intros I. apply (exists_in h (fun x => Node x true)) in I; [congruence|reflexivity].
    + cbn [firsts middle lasts]. rewrite <- !without_app. apply NoDup_filter. exact N.
Qed.

Lemma run_ok ps : forall o, NoDup (all o) -> run ps (nodes o) = nodes (fold_left act ps o) /\ NoDup (all (fold_left act ps o)).
Proof.
  induction ps as [|p ps IH]; intros o N; [auto|]. cbn [fold_left]. unfold run. cbn [fold_left]. destruct (step_ok p o N) as [E N']. rewrite E. apply IH, N'.
Qed.

Lemma get_ok {O} (ask : nat -> option O) l : answered ask (map handler l) (get_object ask l).
Proof. induction l as [|n l IH]; cbn [map get_object]; [constructor|]. destruct (ask (handler n)) eqn:E; [constructor|apply not_this]; assumption. Qed.

(** ** Static handlers *)
Lemma static_get_in u l : static_get u l <> None <-> In u (map fst l).
Proof.
  induction l as [|[v o] l IH]; cbn [static_get map fst In]; [tauto|]. destruct (Nat.eqb_spec v u); [subst; split; auto; discriminate|]. rewrite IH. intuition congruence.
Qed.
Lemma static_exists u l : existsb (fun x => Nat.eqb (fst x) u) l = match static_get u l with Some _ => true | None => false end.
Proof. induction l as [|[v o] l IH]; [reflexivity|]. cbn [existsb static_get fst]. destruct (Nat.eqb v u); [reflexivity|exact IH]. Qed.
Lemma static_remove_ok u l : NoDup (map fst l) -> NoDup (map fst (static_remove u l)) /\ forall v, static_get v (static_remove u l) = if Nat.eqb v u then None else static_get v l.
Proof.
  induction l as [|[w o] l IH]; cbn [map fst static_remove]; intros N; [split; [constructor|]; intros v; destruct (Nat.eqb v u); reflexivity|]. inversion N as [|? ? X N']; subst. destruct (IH N') as [A G].
  destruct (Nat.eqb_spec w u) as [->|Q].
  - split; [exact N'|]. intros v. cbn [static_get]. destruct (Nat.eqb_spec v u) as [->|R].
    + destruct (static_get u l) eqn:E; [|reflexivity]. exfalso. apply X, static_get_in. congruence.
    + rewrite (Nat.eqb_sym u v). destruct (Nat.eqb_spec v u); [contradiction|reflexivity].
  - cbn [map fst static_get]. split.
    + constructor; [|exact A]. intros I. apply static_get_in in I. rewrite G in I. destruct (Nat.eqb w u); [congruence|]. apply X, static_get_in, I.
    + intros v. rewrite G. destruct (Nat.eqb_spec w v) as [->|]; [|reflexivity]. destruct (Nat.eqb_spec v u); [contradiction|reflexivity].
Qed.

(** ** Categories *)
Definition down (hp : list entry) : Prop := forall a e b, nth_error hp a = Some e -> e_next e = Some b -> b < a.
Lemma chain_fuel hp : down hp -> forall f g a, (match a with Some a => a < f /\ a < g | None => True end) -> chain f hp a = chain g hp a.
Proof.
  intros D. induction f as [|f IH]; intros g a H; destruct a as [a|]; cbn [chain]; try (destruct g; reflexivity); [lia|].
  destruct g as [|g]; [lia|]. cbn [chain]. destruct (nth_error hp a) as [e|] eqn:E; [|reflexivity]. f_equal. apply IH. destruct (e_next e) as [b|] eqn:B; [|exact I]. specialize (D _ _ _ E B). lia.
Qed.
Lemma chain_app hp x : down hp -> forall f a, (match a with Some a => a < length hp | None => True end) -> chain f (hp ++ x) a = chain f hp a.
Proof.
  intros D. induction f as [|f IH]; intros [a|] H; cbn [chain]; try reflexivity. rewrite nth_error_app1 by exact H. destruct (nth_error hp a) as [e|] eqn:E; [|reflexivity]. f_equal. apply IH.
  destruct (e_next e) as [b|] eqn:B; [|exact I]. specialize (D _ _ _ E B). lia.
Qed.
Record good (m : manager) : Prop := Good {
  g_down : down (heap m);
  g_heads : forall c a, In (c, a) (heads m) -> a < length (heap m) }.
Lemma head_lt m c a : good m -> head_of c m = Some a -> a < length (heap m).
Proof.
  intros [_ G]. unfold head_of. destruct (find _ _) as [[c' a']|] eqn:F; [|discriminate]. intros H. injection H as <-. apply find_some in F. destruct F as [F _]. eapply G, F.
Qed.
Lemma register_ok c u t m : good m ->
  good (register c u t m) /\
  (exists x, heap (register c u t m) = heap m ++ x) /\
  (forall c', c' <> c -> get_category c' (register c u t m) = get_category c' m) /\
  walk (register c u t m) (get_category c (register c u t m)) =
    if existsb (fun e => Nat.eqb (fst e) u) (walk m (get_category c m)) then walk m (get_category c m) else (u, t) :: walk m (get_category c m).
Proof.
  intros G. unfold register. assert (X : existsb (fun e => Nat.eqb (fst e) u) (walk m (get_category c m)) = existsb (fun e => Nat.eqb (e_uuid e) u) (entries m (head_of c m))).
  { unfold walk, get_category. induction (entries m (head_of c m)) as [|e l IH]; [reflexivity|]. cbn [map existsb fst]. rewrite IH. reflexivity. }
  rewrite X. destruct (existsb _ (entries m (head_of c m))) eqn:K.
  - split; [exact G|]. split; [exists []; rewrite app_nil_r; reflexivity|]. auto.
  - assert (HL : match head_of c m with Some a => a < length (heap m) | None => True end) by (destruct (head_of c m) eqn:H; [eapply head_lt; eassumption|exact I]).
    assert (D2 : down (heap m ++ [Entry u t (head_of c m)])).
    { intros a e b E B. destruct (Nat.lt_ge_cases a (length (heap m))) as [L|L].
      - rewrite nth_error_app1 in E by exact L. destruct G as [D _]. eapply D; eassumption.
      - rewrite nth_error_app2 in E by exact L. destruct (a - length (heap m)) as [|k] eqn:Q; [|destruct k; discriminate]. cbn in E. injection E as <-. cbn [e_next] in B. rewrite B in HL. lia. }
    set (m' := Manager _ _). assert (HC : head_of c m' = Some (length (heap m)) /\ forall c', c' <> c -> head_of c' m' = head_of c' m).
    { unfold m', head_of. cbn [heads]. destruct (find (fun x => Nat.eqb (fst x) c) (heads m)) as [[c0 a0]|] eqn:F.
      - split.
        + revert F. induction (heads m) as [|[d b] l IH]; [discriminate|]. cbn [find map fst]. destruct (Nat.eqb_spec d c) as [->|N]; intros F; [rewrite Nat.eqb_refl; reflexivity|].
          destruct (Nat.eqb_spec d c); [contradiction|]. cbn [fst]. destruct (Nat.eqb_spec d c); [contradiction|]. apply IH, F.
        + intros c' N. clear F. induction (heads m) as [|[d b] l IH]; [reflexivity|]. cbn [find map fst]. destruct (Nat.eqb_spec d c) as [->|Q]; cbn [fst].
          * destruct (Nat.eqb_spec c c'); [congruence|]. exact IH.
          * destruct (Nat.eqb d c'); [reflexivity|exact IH].
      - cbn [find fst]. rewrite Nat.eqb_refl. split; [reflexivity|]. intros c' N. destruct (Nat.eqb_spec c c'); [congruence|reflexivity]. }
    destruct HC as [HC1 HC2].
    assert (G' : good m').
    { constructor; [exact D2|]. unfold m'. cbn [heap heads]. intros d b I. rewrite app_length. cbn [length]. destruct G as [_ GH]. destruct (head_of c m).
      - apply in_map_iff in I. destruct I as ([d' b'] & E & I). cbn [fst] in E. destruct (Nat.eqb d' c); injection E as <- <-; [lia|]. apply GH in I. lia.
      - destruct I as [E|I]; [injection E as <- <-; lia|]. apply GH in I. lia. }
    split; [exact G'|]. split; [eexists; reflexivity|]. split; [exact HC2|].
    unfold walk, get_category. rewrite HC1. unfold entries at 1. unfold m' at 1 2. cbn [heap]. rewrite app_length. cbn [length]. replace (length (heap m) + 1) with (S (length (heap m))) by lia.
    cbn [chain]. rewrite nth_error_app2, Nat.sub_diag by lia. cbn [nth_error map e_uuid e_text e_next]. do 2 f_equal.
    change (chain (S (length (heap m))) (heap m ++ [Entry u t (head_of c m)]) (head_of c m) = entries m (head_of c m)).
    destruct G as [D _]. apply chain_app; assumption.
Qed.
Lemma walk_ext m m' x cat : good m -> heap m' = heap m ++ x -> good m' -> match cat with Some a => a < length (heap m) | None => True end -> walk m' cat = walk m cat.
Proof.
  intros [D _] E [D' _] L. unfold walk, entries. f_equal. rewrite E in *. rewrite chain_app by assumption. apply chain_fuel; [exact D|]. destruct cat as [a|]; [|exact I]. rewrite app_length. lia.
Qed.

Lemma static_run_ok ps : forall l f, NoDup (map fst l) -> (forall u, static_get u l = f u) -> forall u, static_get u (static_run ps l) = fold_left table_act ps f u.
Proof.
  induction ps as [|p ps IH]; intros l f N H u; [apply H|]. unfold static_run. cbn [fold_left]. destruct p as [v o|v].
  - unfold static_add. destruct o as [o|].
    + rewrite static_exists, H. destruct (f v) as [x|] eqn:E.
      * apply IH; [exact N|]. intros w. rewrite H. cbn [table_act]. rewrite E. destruct (Nat.eqb_spec w v); congruence.
      * apply IH.
        -- cbn [map fst]. constructor; [|exact N]. intros I. apply static_get_in in I. rewrite H in I. congruence.
        -- intros w. cbn [static_get table_act]. rewrite E, (Nat.eqb_sym v w). destruct (Nat.eqb w v); [reflexivity|apply H].
    + apply IH; [exact N|]. intros w. rewrite H. cbn [table_act]. destruct (Nat.eqb_spec w v); [subst; destruct (f v); reflexivity|reflexivity].
  - destruct (static_remove_ok v l N) as [A G]. apply IH; [exact A|]. intros w. rewrite G. cbn [table_act]. destruct (Nat.eqb w v); [reflexivity|apply H].
Qed.

Lemma fst_exists u (l : list (nat * bytes)) : existsb (fun e => Nat.eqb (fst e) u) l = existsb (Nat.eqb u) (map fst l).
Proof. induction l as [|e l IH]; [reflexivity|]. cbn [existsb map]. rewrite IH, Nat.eqb_sym. reflexivity. Qed.
Lemma get_lt c m : good m -> match get_category c m with Some a => a < length (heap m) | None => True end.
Proof. intros G. unfold get_category. destruct (head_of c m) eqn:H; [eapply head_lt; eassumption|exact I]. Qed.
Lemma register_all_ok rs : forall m f, good m -> (forall c, walk m (get_category c m) = f c) ->
  good (register_all rs m) /\ (exists x, heap (register_all rs m) = heap m ++ x) /\
  forall c, walk (register_all rs m) (get_category c (register_all rs m)) = fold_left listing_act rs f c.
Proof.
  induction rs as [|[[c u] t] rs IH]; intros m f G H.
  - split; [exact G|]. split; [exists []; rewrite app_nil_r; reflexivity|exact H].
  - unfold register_all. cbn [fold_left]. destruct (register_ok c u t m G) as (G' & (x & X) & O & W).
    destruct (IH (register c u t m) (listing_act f (c, u, t)) G') as (A & (y & Y) & Z).
    + intros d. cbn [listing_act]. destruct (Nat.eqb_spec d c) as [->|N].
      * rewrite W, fst_exists, H. reflexivity.
      * rewrite O by exact N. rewrite <- H. eapply walk_ext; [exact G|exact X|exact G'|apply get_lt, G].
    + split; [exact A|]. split; [|exact Z]. exists (x ++ y). rewrite app_assoc, <- X. exact Y.
Qed.
Lemma good_empty : good no_categories.
Proof. constructor; [intros [|a] e b E; discriminate|intros c a []]. Qed.
