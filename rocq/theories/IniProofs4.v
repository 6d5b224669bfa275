(** The contents of a tree saved to an .ini file and loaded again. *)
From Verif Require Import Base BaseFacts Ctype TclModel TclSpec TclProofs KeyModel KeySpec KeyProofs UrlModel UrlProofs TempModel TempSpec TreeProofs TempProofs IniModel IniSpec IniProofs IniProofs2 IniProofs3.
Local Open Scope char_scope.
Local Open Scope list_scope.

(** * The entries of a tree *)
Inductive At : tree bytes -> key -> bytes -> Prop :=
| At_here t : At t [] (tval t)
| At_down t c r v : In c (tch t) -> At c r v -> At t (tkey c :: r) v.
Lemma At_lk t r v : At t r v -> WF t -> Forall plain r /\ lk t r = Some v.
Proof.
  induction 1 as [t|t c r v Hc _ IH]; intros W; [auto|]. pose proof (WF_inv _ W) as (P & N & F). rewrite Forall_forall in F. destruct (IH (F c Hc)) as [Pr L].
  assert (Pc : plain (tkey c)) by (rewrite Forall_forall in P; exact (P c Hc)). split; [constructor; assumption|]. cbn [lk].
  assert (child (tch t) (tkey c) = Some c) as -> by (apply child_in; auto using plain_nulf). exact L.
Qed.
Lemma lk_At k : forall t v, WF t -> Forall plain k -> lk t k = Some v -> exists k0, same k0 k = true /\ At t k0 v.
Proof.
  induction k as [|s k IH]; intros t v W P L.
  - injection L as <-. exists []. split; [reflexivity|constructor].
  - cbn [lk] in L. destruct (child (tch t) s) as [c|] eqn:E; [|discriminate]. pose proof (WF_inv _ W) as (Pt & N & F). pose proof (Forall_inv P) as Ps.
    apply child_in in E; auto using plain_nulf. destruct E as [Hc El]. rewrite Forall_forall in F. destruct (IH c v (F c Hc) (Forall_inv_tail P) L) as (k0 & S0 & A).
    exists (tkey c :: k0). split; [rewrite same_cons, S0, (proj2 (teq_spec _ _) El); reflexivity|]. constructor; assumption.
Qed.
Lemma own_in k v k' v' : In (k', v') (own k v) <-> k' = k /\ v' = v /\ v <> [].
Proof. unfold own. destruct v as [|c v]; cbn; [tauto|]. split; [intros [E|[]]; injection E as <- <-; repeat split; discriminate|intros (-> & -> & _); auto]. Qed.
Lemma below_in t : forall rel k v, In (k, v) (below rel t) <-> exists r, k = rel ++ tkey t :: r /\ At t r v /\ v <> [].
Proof.
  induction t as [k0 v0 ch IH] using tree_ind2. intros rel k v. cbn [below tkey]. rewrite in_app_iff, own_in, in_flat_map. split.
  - intros [(-> & -> & N)|(c & Hc & H)].
    + exists []. split; [reflexivity|]. split; [apply (At_here (Node k0 v0 ch))|exact N].
    + rewrite Forall_forall in IH. apply IH in H; [|exact Hc]. destruct H as (r & -> & A & N). exists (tkey c :: r). split; [rewrite <- app_assoc; reflexivity|]. split; [constructor; assumption|exact N].
  - intros (r & -> & A & N). inversion A as [t E1 E2 E3|t c r' v' Hc A' E1 E2 E3]; subst.
    + left. cbn in *. auto.
    + right. exists c. split; [exact Hc|]. rewrite Forall_forall in IH. apply IH; [exact Hc|]. exists r'. split; [rewrite <- app_assoc; reflexivity|auto].
Qed.
Definition tagged (c : tree bytes) (e : entry) : entry := (tkey c :: fst e, snd e).
Definition entries (t : tree bytes) : list entry := own [] (tval t) ++ level t ++ flat_map (fun c => map (tagged c) (deep c)) (tch t).
Lemma level_in t k v : In (k, v) (level t) <-> exists c, In c (tch t) /\ k = [tkey c] /\ v = tval c /\ v <> [].
Proof.
  unfold level. rewrite in_flat_map. split.
  - intros (c & Hc & H). apply own_in in H. destruct H as (-> & -> & N). eauto.
  - intros (c & Hc & -> & -> & N). exists c. split; [exact Hc|]. apply own_in. auto.
Qed.
Lemma deep_in c k v : In (k, v) (deep c) <-> k <> [] /\ At c k v /\ v <> [].
Proof.
  unfold deep. rewrite in_flat_map. split.
  - intros (d & Hd & H). apply below_in in H. destruct H as (r & -> & A & N). split; [discriminate|]. split; [constructor; assumption|exact N].
  - intros (Nk & A & N). destruct A as [|t d r v Hd A]; [congruence|]. exists d. split; [exact Hd|]. apply below_in. exists r. auto.
Qed.
Lemma entries_in t k v : In (k, v) (entries t) <-> At t k v /\ v <> [].
Proof.
  unfold entries. rewrite !in_app_iff, own_in, level_in, in_flat_map. split.
  - intros [(-> & -> & N)|[(c & Hc & -> & -> & N)|(c & Hc & H)]].
    + split; [constructor|exact N].
    + split; [constructor; [exact Hc|constructor]|exact N].
    + apply in_map_iff in H. destruct H as ([r w] & E & H). unfold tagged in E. cbn in E. injection E as <- <-. apply deep_in in H. destruct H as (_ & A & N). split; [constructor; assumption|exact N].
  - intros [A N]. destruct A as [t|t c r v Hc A]; [left; auto|right]. destruct r as [|s r].
    + left. inversion A; subst. eauto.
    + right. exists c. split; [exact Hc|]. apply in_map_iff. exists (s :: r, v). split; [reflexivity|]. apply deep_in. split; [discriminate|auto].
Qed.

(** All the items can be read back. *)
Lemma items_ok t : WF t -> (forall k v, At t k v -> v <> [] -> good_key k /\ nul_free v /\ harmless v) -> Forall item_ok (items t).
Proof.
  intros W H. pose proof (WF_inv _ W) as (P & _ & F). rewrite Forall_forall in P, F. unfold items.
  assert (O : forall es, Forall (fun e => name_ok (fst e) /\ snd e <> [] /\ nul_free (snd e) /\ harmless (snd e)) es -> Forall item_ok (ents es)).
  { induction 1 as [|e es He _ IH]; [constructor|]. constructor; [exact He|exact IH]. }
  assert (S : forall top es, (es <> [] -> sec_ok top) -> Forall (fun e => name_ok (fst e) /\ snd e <> [] /\ nul_free (snd e) /\ harmless (snd e)) es -> Forall item_ok (sect top false es)).
  { intros top es Ht He. unfold sect. destruct es as [|e es]; cbn [some negb orb]; [constructor|]. constructor; [apply Ht; discriminate|]. apply O, He. }
  apply Forall_app. split; [|apply Forall_app; split].
  - apply O. rewrite Forall_forall. intros [k v] Hi. apply own_in in Hi. destruct Hi as (-> & -> & N). cbn [fst snd]. destruct (H [] (tval t) (At_here t) N) as (_ & Z & Hh).
    split; [split; [constructor|left; reflexivity]|auto].
  - apply S; [intros _; left; reflexivity|]. rewrite Forall_forall. intros [k v] Hi. apply level_in in Hi. destruct Hi as (c & Hc & -> & -> & N). cbn [fst snd].
    destruct (H [tkey c] (tval c) (At_down t c [] _ Hc (At_here c)) N) as (G & Z & Hh). split; [|auto]. split; [constructor; auto|right; exact G].
  - rewrite Forall_forall. intros i Hi. apply in_flat_map in Hi. destruct Hi as (c & Hc & Hi). revert i Hi. apply Forall_forall.
    assert (K : forall k v, In (k, v) (deep c) -> good_section (tkey c) /\ name_ok k /\ v <> [] /\ nul_free v /\ harmless v).
    { intros k v Hi. apply deep_in in Hi. destruct Hi as (Nk & A & N). destruct (H _ v (At_down t c k v Hc A) N) as (G & Z & Hh). destruct (At_lk _ _ _ A (F c Hc)) as [Pk _].
      destruct k as [|s k]; [congruence|]. destruct G as [G1 G2]. split; [exact G1|]. split; [|auto]. split; [exact Pk|right; exact G2]. }
    apply S.
    + intros N. destruct (deep c) as [|[k v] es]; [elim N; reflexivity|]. right. exists (tkey c). split; [reflexivity|]. split; [auto|]. apply (K k v). left. reflexivity.
    + rewrite Forall_forall. intros [k v] Hi. apply K, Hi.
Qed.

(** * What the items do *)
Definition tstep (g : gen) (h : key * option bytes) : gen := fst (tset g (fst h) (snd h)).
Definition loaded (es : list entry) : list (key * option bytes) := map (fun e => (fst e, Some (D (snd e)))) es.
Lemma kprepend_nil k : Forall plain k -> kprepend [] k = k.
Proof. intros P. apply plain_collapse, P. Qed.
Lemma kprepend_one s k : plain s -> Forall plain k -> kprepend [s] k = s :: k.
Proof. intros Ps P. unfold kprepend. pose proof Ps as [N _]. destruct s as [|c s]; [congruence|]. cbn [filter isnil negb app]. apply plain_collapse. constructor; assumption. Qed.
Lemma fold_ents es : forall sec g, fold_left istep (ents es) (sec, g) = (sec, fold_left tstep (map (fun e => (kprepend sec (fst e), Some (D (snd e)))) es) g).
Proof. induction es as [|e es IH]; intros sec g; [reflexivity|]. cbn [ents map fold_left istep fst snd]. fold (ents es). rewrite IH. reflexivity. Qed.
Lemma fold_sect top es sec g : fold_left istep (sect top false es) (sec, g) =
  (if some es then top else sec, fold_left tstep (map (fun e => (kprepend top (fst e), Some (D (snd e)))) es) g).
Proof.
  unfold sect. destruct es as [|e es]; [reflexivity|]. cbn [some negb orb app]. change (Sec top :: ents (e :: es)) with ([Sec top] ++ ents (e :: es)).
  rewrite fold_left_app. cbn [fold_left istep snd]. apply fold_ents.
Qed.
Lemma fold_items t : WF t -> snd (fold_left istep (items t) ([], start)) = fold_left tstep (loaded (entries t)) start.
Proof.
  intros W. pose proof (WF_inv _ W) as (P & _ & F). unfold items, entries, loaded. rewrite !map_app, !fold_left_app.
  assert (E0 : forall es, (forall e, In e es -> Forall plain (fst e)) -> map (fun e : entry => (kprepend [] (fst e), Some (D (snd e)))) es = map (fun e : entry => (fst e, Some (D (snd e)))) es).
  { intros es He. apply map_ext_in. intros e Hi. rewrite kprepend_nil by auto. reflexivity. }
  rewrite fold_ents, fold_sect, !E0.
  - assert (G : forall l sec g, Forall (fun c : tree bytes => plain (tkey c)) l -> Forall WF l ->
      snd (fold_left istep (flat_map (fun c => sect [tkey c] false (deep c)) l) (sec, g)) = fold_left tstep (map (fun e : entry => (fst e, Some (D (snd e)))) (flat_map (fun c => map (tagged c) (deep c)) l)) g).
    { induction l as [|c l IH]; intros sec g Pl Fl; [reflexivity|]. cbn [flat_map]. rewrite map_app, !fold_left_app, fold_sect, IH; [|exact (Forall_inv_tail Pl)|exact (Forall_inv_tail Fl)].
      f_equal. f_equal. rewrite map_map. apply map_ext_in. intros [k v] Hi. unfold tagged. cbn [fst snd]. rewrite kprepend_one; [reflexivity|exact (Forall_inv Pl)|].
      apply deep_in in Hi. destruct Hi as (_ & A & _). apply (At_lk _ _ _ A (Forall_inv Fl)). }
    apply G; assumption.
  - intros [k v] Hi. apply own_in in Hi. destruct Hi as (-> & _). constructor.
  - intros [k v] Hi. apply level_in in Hi. destruct Hi as (c & Hc & -> & _). cbn [fst]. rewrite Forall_forall in P. constructor; auto.
Qed.

(** A fold of sets is a history. *)
Lemma fold_history hs : forall g, exists ns, history g hs ns (fold_left tstep hs g).
Proof.
  induction hs as [|[k v] hs IH]; intros g; [exists []; constructor|]. cbn [fold_left]. destruct (IH (tstep g (k, v))) as [ns H]. unfold tstep in *. cbn [fst snd] in *.
  destruct (tset g k v) as [g1 n] eqn:E. cbn [fst] in *. exists (n ++ ns). econstructor; eassumption.
Qed.

(** * Sets of values only *)
Definition vals (es : list (key * bytes)) : list (key * option bytes) := map (fun e => (fst e, Some (snd e))) es.
Lemma set_plain m k v : Forall plain k -> set_key m (k, v) = set_spec m k v.
Proof. intros P. unfold set_key. destruct (plain_slashed k P) as [-> _]. reflexivity. Qed.
Lemma same_sym a b : same a b = same b a.
Proof. unfold same. apply andb_comm. Qed.
Lemma same_trans a b c : same a b = true -> same b c = true -> same a c = true.
Proof. rewrite !same_lows. congruence. Qed.
Lemma sets_vals es : Forall (fun e => Forall plain (fst e)) es -> forall m k,
  (exists k0 v, In (k0, v) es /\ same k0 k = true /\ fold_left set_key (vals es) m k = Some v) \/
  ((forall k0 v, In (k0, v) es -> same k0 k = false) /\
   (fold_left set_key (vals es) m k = m k \/ (m k = None /\ fold_left set_key (vals es) m k = Some [] /\ exists k0 v, In (k0, v) es /\ under k k0 = true))).
Proof.
  induction es as [|[k1 v1] es IH] using rev_ind; intros P m k.
  - right. split; [intros ? ? []|left; reflexivity].
  - apply Forall_app in P. destruct P as [P P1]. apply Forall_inv in P1. cbn [fst] in P1. assert (Ev : vals (es ++ [(k1, v1)]) = vals es ++ [(k1, Some v1)]) by apply map_app. rewrite Ev, fold_left_app. cbn [fold_left]. rewrite set_plain by exact P1.
    specialize (IH P m k). set (m1 := fold_left set_key (vals es) m) in *. match goal with |- context [fold_left ?f ?x m] => change (fold_left f x m) with m1 end. unfold set_spec. destruct (same k1 k) eqn:S1.
    { left. exists k1, v1. split; [apply in_or_app; right; left; reflexivity|auto]. }
    destruct IH as [(k0 & v & Hi & S0 & E)|[Hn E]].
    + left. exists k0, v. split; [apply in_or_app; auto|]. split; [exact S0|]. rewrite E. destruct (under k k1); reflexivity.
    + right. split; [intros k0 v Hi; apply in_app_or in Hi; destruct Hi as [Hi|[E1|[]]]; [apply (Hn k0 v Hi)|injection E1 as <- <-; exact S1]|].
      destruct (under k k1) eqn:U.
      * destruct E as [E|(E0 & E1 & E2)]; [|rewrite E1; right; split; [exact E0|split; [reflexivity|]]].
        -- rewrite E. destruct (m k) eqn:Em; [left; reflexivity|right]. split; [reflexivity|]. split; [reflexivity|]. exists k1, v1. split; [apply in_or_app; right; left; reflexivity|exact U].
        -- exists k1, v1. split; [apply in_or_app; right; left; reflexivity|exact U].
      * destruct E as [E|(E0 & E1 & k0 & v & Hi & U0)]; [left; exact E|right]. split; [exact E0|]. split; [exact E1|]. exists k0, v. split; [apply in_or_app; auto|exact U0].
Qed.

(** * The root *)
Lemma tset_root g k v : match root g with Some t => tkey t = [] | None => True end -> match root (fst (tset g k v)) with Some t => tkey t = [] | None => True end.
Proof.
  intros H. unfold tset. destruct (strip k) as [k' tr]. destruct v as [v|].
  - destruct tr; [exact H|]. pose proof (ins_tkey [] (root g) [] k' v) as E. destruct (ins [] (root g) [] k' v) as [[t' n] d]. cbn in *. rewrite E. destruct (root g); [exact H|reflexivity].
  - destruct (root g) as [t|] eqn:Er; [|cbn; rewrite Er; exact I]. destruct (del [] t k') as [[t' n]|] eqn:Ed; cbn [fst root]; [|rewrite Er; exact H].
    destruct k' as [|s r]; cbn [del] in Ed; [injection Ed as <- <-; exact I|]. destruct (child (tch t) s); [|discriminate]. destruct (del _ _ r) as [[? ?]|]; [|discriminate].
    injection Ed as <- _. exact H.
Qed.
Lemma history_root g hs ns g' : history g hs ns g' -> match root g with Some t => tkey t = [] | None => True end -> match root g' with Some t => tkey t = [] | None => True end.
Proof.
  induction 1 as [g|g k v g1 n hs ns g' Hs Hh IH|d t t' hs ns g' Hs Hh IH]; intros H; [exact H| |].
  - apply IH. pose proof (tset_root g k v H) as E. rewrite Hs in E. exact E.
  - apply IH. cbn [root] in *. destruct Hs; exact H.
Qed.
Lemma fine_of t : plain (tkey t) -> WF t -> (forall k v, At t k v -> nul_free v) -> fine t.
Proof.
  induction t as [k0 v0 ch IH] using tree_ind2. intros P W Z. constructor; [exact P|apply (Z [] v0), (At_here (Node k0 v0 ch))|].
  pose proof (WF_inv _ W) as (Pc & _ & F). cbn [tch] in *. rewrite Forall_forall in *. intros c Hc. apply IH; auto. intros k v A. apply (Z (tkey c :: k)). constructor; assumption.
Qed.

(** * Together *)
Lemma Forall_firstn' {A} (P : A -> Prop) n l : Forall P l -> Forall P (firstn n l).
Proof. intros H. rewrite <- (firstn_skipn n l) in H. apply Forall_app in H. apply H. Qed.
Lemma round g : WFo (root g) -> match root g with Some t => tkey t = [] | None => True end ->
  (forall k v, Forall plain k -> has g k = Some v -> nul_free v /\ (v <> [] -> good_key k /\ harmless v)) ->
  exists bs hs ns g', save (root g) = Ok bs /\ load (concat bs) = Ok g' /\ history tinit hs ns g' /\ Forall (fun h => canonical (fst h)) hs /\
    forall k, Forall plain k ->
      match has g k with
      | Some (c :: v) => has g' k = Some (D (c :: v))
      | _ => has g' k = None \/ has g' k = Some []
      end /\ (has g' k <> None -> k = [] \/ has g k <> None).
Proof.
  intros W Hk H.
  assert (S0 : start = tstep tinit ([], Some [])) by reflexivity.
  assert (L0 : forall k, Forall plain k -> has start k = match k with [] => Some [] | _ => None end) by (intros [|s k] _; reflexivity).
  unfold has in H. destruct (root g) as [t|] eqn:Er.
  - cbn [WFo lko] in W, H. assert (HA : forall k v, At t k v -> nul_free v /\ (v <> [] -> good_key k /\ harmless v)). { intros k v A. destruct (At_lk _ _ _ A W) as [P L]. apply (H k v P L). }
    exists (print_items (items t)), (([], Some []) :: loaded (entries t)). destruct (fold_history (([], Some []) :: loaded (entries t)) tinit) as [ns Hh]. exists ns.
    exists (fold_left tstep (loaded (entries t)) start). cbn [fold_left] in Hh. rewrite <- S0 in Hh.
    assert (P : Forall (fun e => Forall plain (fst e)) (entries t)). { rewrite Forall_forall. intros [k v] Hi. apply entries_in in Hi. destruct Hi as [A _]. apply (At_lk _ _ _ A W). }
    assert (C : Forall (fun h : key * option bytes => canonical (fst h)) (loaded (entries t))). { unfold loaded. rewrite Forall_map. rewrite Forall_forall in *. intros e He. left. apply P, He. }
    split; [|split; [|split; [exact Hh|split; [constructor; [left; constructor|exact C]|]]]].
    + apply save_ok; [apply (HA [] (tval t) (At_here t))|exact Hk|]. pose proof (WF_inv _ W) as (Pc & _ & F). rewrite Forall_forall in *. intros c Hc. apply fine_of; auto.
      intros k v A. apply (HA (tkey c :: k) v). constructor; assumption.
    + fold (text (items t)). rewrite load_items; [rewrite fold_items by exact W; reflexivity|]. apply items_ok; [exact W|]. intros k v A N. destruct (HA k v A) as [Z G]. destruct (G N). auto.
    + intros k Pk. destruct (fold_history (loaded (entries t)) start) as [ns1 H1]. assert (Ws : WFo (root start)) by (cbn; repeat constructor).
      destruct (history_ok _ _ _ _ H1 Ws C) as (_ & E & _). rewrite (E k Pk). clear E H1 ns1 Hh ns.
      assert (El : loaded (entries t) = vals (map (fun e => (fst e, D (snd e))) (entries t))) by (unfold loaded, vals; rewrite map_map; reflexivity). rewrite El. clear C.
      assert (Q : Forall (fun e : key * bytes => Forall plain (fst e)) (map (fun e => (fst e, D (snd e))) (entries t))) by (rewrite Forall_map; exact P).
      assert (Eg : has g k = lk t k) by (unfold has; rewrite Er; reflexivity). rewrite !Eg. destruct (sets_vals _ Q (has start) k) as [(k0 & v & Hi & Sk & ->)|[Hn E]].
      * apply in_map_iff in Hi. destruct Hi as ([k1 w] & Ew & Hi). cbn [fst snd] in Ew. injection Ew as <- <-. apply entries_in in Hi. destruct Hi as [A N].
        destruct (At_lk _ _ _ A W) as [P1 L]. rewrite (lk_low t _ _ W P1 Pk Sk) in L. rewrite L. destruct w as [|c w]; [congruence|]. split; [reflexivity|]. intros _. right. discriminate.
      * assert (Lk : forall c v, lk t k <> Some (c :: v)).
        { intros c v L. destruct (lk_At k t _ W Pk L) as (k0 & Sk & A). rewrite (Hn k0 (D (c :: v))) in Sk; [discriminate|]. apply in_map_iff. exists (k0, c :: v). split; [reflexivity|]. apply entries_in. split; [exact A|discriminate]. }
        split.
        -- destruct (lk t k) as [[|c v]|]; [|elim (Lk c v); reflexivity|]; (destruct E as [->|(_ & -> & _)]; [rewrite L0 by exact Pk; destruct k; auto|auto]).
        -- destruct E as [->|(_ & -> & k0 & v & Hi & U)].
           ++ rewrite L0 by exact Pk. destruct k; [auto|congruence].
           ++ intros _. right. apply in_map_iff in Hi. destruct Hi as ([k1 w] & Ew & Hi). cbn [fst snd] in Ew. injection Ew as <- <-. apply entries_in in Hi. destruct Hi as [A N].
              destruct (At_lk _ _ _ A W) as [P1 L]. apply under_lows in U. destruct U as [r U].
              assert (Sp : same (firstn (length k) k1) k = true).
              { apply same_lows. assert (El1 : lows (firstn (length k) k1) = firstn (length k) (lows k1)) by (unfold lows; symmetry; apply firstn_map). rewrite El1, U. unfold lows. rewrite firstn_app, map_length, Nat.sub_diag, firstn_O, app_nil_r. rewrite <- (map_length low k) at 1. apply firstn_all. }
              rewrite <- (lk_low t _ _ W (Forall_firstn' _ _ _ P1) Pk Sp). apply (lk_prefix _ _ (skipn (length k) k1)). rewrite firstn_skipn, L. discriminate.
  - exists [], [([], Some [])], [([], Some [])], start. split; [reflexivity|]. split; [reflexivity|]. split; [apply (H_set tinit [] (Some []) start [([], Some [])] [] []); [reflexivity|constructor]|].
    split; [repeat constructor|]. intros k Pk. assert (Eg : has g k = None) by (unfold has; rewrite Er; reflexivity). rewrite !Eg. rewrite L0 by exact Pk. destruct k; split; auto; congruence.
Qed.
