From Verif Require Import Base BaseFacts Ctype KeyModel KeySpec KeyProofs TempModel TempSpec TreeProofs TempProofs WatchModel RecModel RecProofs FeedProofs CacheModel.
Local Open Scope nat_scope.

Lemma callbacks_ok n : (forall q w, In (q, w) n -> Forall plain q) -> forall g g' o, WFo (root g) -> deltacallbacks g n = (g', o) ->
  g' = tsets g n /\ forall m, same_contents m (has g) -> same_contents (replay o m) (has g').
Proof.
  induction n as [|[q w] n IH]; intros H g g' o W E; cbn [deltacallbacks] in E.
  - injection E as <- <-. split; [reflexivity|]. auto.
  - destruct (tset g q w) as [g1 a] eqn:E1. destruct (deltacallbacks g1 n) as [g2 b] eqn:E2. injection E as <- <-.
    assert (Pq : Forall plain q) by (apply (H q w); left; reflexivity). destruct (tset_ok _ _ _ _ _ W (or_introl Pq) E1) as (W1 & _ & T & _).
    destruct (IH (fun q0 w0 Hi => H q0 w0 (or_intror Hi)) g1 g2 b W1 E2) as (-> & M). split; [unfold tsets; cbn [fold_left fst snd]; rewrite E1; reflexivity|].
    intros m Hm k P. rewrite replay_app. apply M; [|exact P]. intros k' P'. erewrite replay_ext; [|apply Hm, P']. apply (tells_replay g1 _ _ _ W1 T P').
Qed.
Lemma nodes_keys : forall t p, length (below_keys p t) = nodes t.
Proof.
  induction t as [k v ch IH] using tree_ind2. intros p. cbn [below_keys nodes length]. f_equal. induction IH as [|c ch Hc H IHl]; [reflexivity|]. cbn [flat_map map list_sum fold_right]. rewrite app_length, Hc. f_equal. exact IHl.
Qed.
Lemma forest_nodes p l : length (forest p l) = list_sum (map nodes l).
Proof. induction l as [|c l IH]; [reflexivity|]. cbn [forest flat_map map list_sum fold_right]. rewrite app_length, nodes_keys. f_equal. exact IH. Qed.
(** What the recursive iterator finds from the root *)
Lemma rkeys_ok g : WFo (root g) -> exists l, rkeys g = Ok l /\ (forall q w, In (q, w) l -> Forall plain q /\ q <> [] /\ has g q = w /\ w <> None) /\
  (forall k, Forall plain k -> k <> [] -> has g k <> None -> touched l k) /\ NoDup (map (fun x => lows (fst x)) l).
Proof.
  intros W. unfold rkeys. destruct (root g) as [t|] eqn:Er.
  - cbn [WFo] in W. destruct (WF_inv _ W) as (Pc & Nd & Wc). rewrite Forall_forall in Pc.
    exists (map (fun k => (k, tget g (kcat [] k))) (forest [] (tch t))).
    assert (G : forall k, In k (forest [] (tch t)) -> Forall plain k /\ k <> [] /\ tget g (kcat [] k) = has g k /\ has g k <> None).
    { intros k Hk. assert (Hk0 := Hk). apply forest_in in Hk. destruct Hk as (c & r & Hc & -> & Hi). rewrite Forall_forall in Wc. assert (P : Forall plain ([] ++ tkey c :: r)) by (apply (below_plain c []); auto).
      cbn [app] in P |- *. split; [exact P|]. split; [discriminate|].
      assert (Ek : kcat [] (tkey c :: r) = tkey c :: r) by (rewrite kcat_named; [reflexivity|left; constructor|exact P|discriminate]). rewrite Ek. split.
      - rewrite tget_has by (left; exact P). rewrite (proj1 (plain_slashed (tkey c :: r) P)). reflexivity.
      - unfold has. rewrite Er. cbn [lko]. apply forest_iff; [exact W|exact P|discriminate|]. exists (tkey c :: r). split; [exact Hk0|apply same_refl]. }
    split; [|split; [|split]].
    + unfold trec. rewrite (tnames_spec g t []) with (ks := forest [] (tch t)); auto; [rewrite Er; exact W|left; constructor|exists t; auto|]. rewrite forest_nodes. destruct t as [k v ch]. cbn [nodes tch]. lia.
    + intros q w H. apply in_map_iff in H. destruct H as (k & E & H). injection E as -> <-. destruct (G q H) as (P & N & E & X). rewrite E. auto.
    + intros k P N H. unfold has in H. rewrite Er in H. apply forest_iff in H; auto. destruct H as (k0 & Hi & S). exists k0, (tget g (kcat [] k0)). split; [apply in_map_iff; exists k0; auto|exact S].
    + rewrite map_map. cbn [fst]. apply forest_nodup; [intros c _ Wk; apply below_nodup, Wk|exact Wc|exact Nd].
  - exists []. split; [|split; [intros q w []|split; [|constructor]]].
    + assert (T : tnames g [] = None) by (unfold tnames, titer; rewrite Er; reflexivity). unfold trec, rewind. rewrite T. reflexivity.
    + intros k _ _ H. unfold has in H. rewrite Er in H. elim H. reflexivity.
Qed.

(** What the cache may lack before and after refresh() *)
Definition weak (mi mc : contents) : Prop := forall k, Forall plain k -> (mc k <> None -> mi k <> None) /\ (mi k = Some [] -> mc k = None \/ mc k = Some []).
Definition strong (mi mc : contents) : Prop := forall k, Forall plain k -> k <> [] -> mc k = mi k \/ (mi k = Some [] /\ mc k = None).
Definition cok (c : cache) : Prop := WFo (root (inner c)) /\ WFo (root (mine c)) /\ weak (has (inner c)) (has (mine c)) /\ (refreshed c = true -> strong (has (inner c)) (has (mine c))).
Lemma untouched m m' n k : tells m m' n -> Forall plain k -> ~ touched n k -> m k = m' k.
Proof. intros [_ A _] P N. destruct (option_eq_dec (list_eq_dec ascii_dec) (m k) (m' k)) as [E|E]; [exact E|]. elim N. exact (A k P E). Qed.
Lemma cset_ok c k v c' o : cok c -> canonical k -> cset c k v = (c', o) -> cok c' /\ refreshed c' = refreshed c /\
  tset (inner c) k v = (inner c', snd (tset (inner c) k v)) /\ forall m, same_contents m (has (mine c)) -> same_contents (replay o m) (has (mine c')).
Proof.
  intros (Wi & Wm & J & K) C E. unfold cset in E. destruct (tset (inner c) k v) as [i n] eqn:Ei. destruct (deltacallbacks (mine c) n) as [m o1] eqn:Em. injection E as <- <-. cbn [inner mine refreshed snd].
  destruct (tset_ok _ _ _ _ _ Wi C Ei) as (Wi' & _ & T & _). pose proof (t_true _ _ _ T) as Tt.
  destruct (callbacks_ok n (fun q w H => proj1 (Tt q w H)) _ _ _ Wm Em) as (-> & M).
  destruct (tsets_fed (mine c) (has i) n Wm (has_closed i) (has_folded i Wi')) as (Wm' & F); [intros q w H; destruct (Tt q w H) as (P & Q & _); auto|].
  split; [|auto]. split; [exact Wi'|]. split; [exact Wm'|]. cbn [inner mine refreshed]. split.
  - intros q P. destruct (F q P) as [F1 F2]. destruct (touched_dec n q) as [Hq|Hq].
    + rewrite (F1 Hq). split; [auto|]. auto.
    + pose proof (untouched _ _ _ q T P Hq) as Eq. destruct (J q P) as [J1 J2]. destruct (F2 Hq) as [->|[(E1 & -> & E3)|(-> & E2)]]; rewrite <- ?Eq; auto; split; auto; congruence.
  - intros Hr q P Nq. destruct (F q P) as [F1 F2]. destruct (touched_dec n q) as [Hq|Hq]; [left; apply F1, Hq|].
    pose proof (untouched _ _ _ q T P Hq) as Eq. specialize (K Hr q P Nq). destruct (F2 Hq) as [->|[(E1 & -> & E3)|(-> & E2)]].
    + rewrite <- Eq. exact K.
    + left. rewrite <- Eq in *. destruct K as [K|[K _]]; congruence.
    + left. symmetry. exact E2.
Qed.
Lemma crefresh_ok c : cok c -> exists c' b o, crefresh c = Ok (c', b, o) /\ b = negb (refreshed c) /\ refreshed c' = true /\ inner c' = inner c /\ cok c' /\
  forall m, same_contents m (has (mine c)) -> same_contents (replay o m) (has (mine c')).
Proof.
  intros (Wi & Wm & J & K). unfold crefresh. destruct (refreshed c) eqn:Er.
  - exists c, false, []. split; [reflexivity|]. split; [reflexivity|]. split; [exact Er|]. split; [reflexivity|]. split; [|auto]. split; [exact Wi|]. split; [exact Wm|]. split; [exact J|]. intros _. apply K. reflexivity.
  - destruct (rkeys_ok (inner c) Wi) as (l & El & Tl & Al & _). unfold loadtree. rewrite El. cbn [bind].
    set (n := filter _ l). assert (Hn : forall q w, In (q, w) n -> Forall plain q /\ has (inner c) q = w) by (intros q w H; apply filter_In in H; destruct (Tl q w (proj1 H)) as (P & _ & E & _); auto).
    destruct (deltacallbacks (mine c) n) as [m o1] eqn:Em. destruct (callbacks_ok n (fun q w H => proj1 (Hn q w H)) _ _ _ Wm Em) as (-> & M). cbn [bind].
    destruct (tsets_fed (mine c) (has (inner c)) n Wm (has_closed _) (has_folded _ Wi) Hn) as (Wm' & F).
    eexists. exists true, o1. split; [reflexivity|]. cbn [inner mine refreshed negb]. split; [reflexivity|]. split; [reflexivity|]. split; [reflexivity|]. split; [|exact M].
    split; [exact Wi|]. split; [exact Wm'|]. cbn [inner mine refreshed]. split.
    + intros q P. destruct (F q P) as [F1 F2]. destruct (touched_dec n q) as [Hq|Hq].
      * rewrite (F1 Hq). auto.
      * destruct (J q P) as [J1 J2]. destruct (F2 Hq) as [->|[(E1 & -> & E3)|(-> & E2)]]; auto; split; auto; congruence.
    + intros _ q P Nq. destruct (F q P) as [F1 F2]. destruct (touched_dec n q) as [Hq|Hq]; [left; apply F1, Hq|].
      assert (Hv : has (inner c) q = None \/ has (inner c) q = Some []).
      { destruct (has (inner c) q) as [[|x v]|] eqn:Eq; auto. elim Hq. destruct (Al q P Nq) as (q0 & w & Hi & S); [congruence|]. exists q0, w. split; [|exact S]. apply filter_In. split; [exact Hi|].
        destruct (Tl q0 w Hi) as (P0 & _ & E0 & _). cbn [snd]. rewrite <- E0, (has_folded _ Wi q0 q P0 P S), Eq. reflexivity. }
      destruct (J q P) as [J1 J2]. destruct (F2 Hq) as [->|[(E1 & -> & E3)|(-> & E2)]].
      * destruct Hv as [Hv|Hv]; [left|destruct (J2 Hv) as [X|X]; [right; auto|left; congruence]]. rewrite Hv. destruct (has (mine c) q); [|reflexivity]. elim J1; congruence.
      * left. destruct Hv; congruence.
      * left. congruence.
Qed.
Definition cevent_ok (e : cevent) : Prop := match e with CSet k _ => canonical k | CRefresh => True end.
Lemma shuffle_has t t' d : shuffle t t' -> WF t -> WF t' /\ forall k, Forall plain k -> has {| root := Some t'; dirty := d |} k = has {| root := Some t; dirty := d |} k.
Proof. intros S W. destruct (shuffle_ok _ _ S W) as (W' & _ & _ & E). split; [exact W'|exact E]. Qed.
Lemma chistory_ok c es ns c' : chistory c es ns c' -> cok c -> Forall cevent_ok es -> cok c' /\ (refreshed c = true \/ In CRefresh es -> refreshed c' = true) /\
  forall m, same_contents m (has (mine c)) -> same_contents (replay ns m) (has (mine c')).
Proof.
  induction 1 as [c|c k v c1 n es ns c' Hs H IH|c c1 b n es ns c' Hr H IH|t t' d m r es ns c' Hs H IH|i t t' d r es ns c' Hs H IH]; intros O E.
  - split; [exact O|]. split; [intros [X|[]]; exact X|auto].
  - destruct (cset_ok c k v c1 n O (Forall_inv E) Hs) as (O1 & R1 & _ & M1). destruct (IH O1 (Forall_inv_tail E)) as (O2 & R2 & M2). split; [exact O2|]. split.
    + intros [X|[X|X]]; [apply R2; left; congruence|discriminate|auto].
    + intros m Hm q P. rewrite replay_app. apply M2; [|exact P]. apply M1, Hm.
  - destruct (crefresh_ok c O) as (c2 & b2 & o2 & E2 & _ & R1 & _ & O1 & M1). rewrite Hr in E2. injection E2 as <- <- <-. destruct (IH O1 (Forall_inv_tail E)) as (O2 & R2 & M2). split; [exact O2|].
    split; [auto|]. intros m Hm q P. rewrite replay_app. apply M2; [|exact P]. apply M1, Hm.
  - destruct O as (Wi & Wm & J & K). cbn [inner mine refreshed root WFo] in *. destruct (shuffle_has t t' d Hs Wi) as (Wi' & Eh). apply IH; [|exact E].
    split; [exact Wi'|]. split; [exact Wm|]. cbn [inner mine refreshed]. split; [intros q P; rewrite Eh by exact P; apply J, P|]. intros X q P Nq. rewrite Eh by exact P. apply K; auto.
  - destruct O as (Wi & Wm & J & K). cbn [inner mine refreshed root WFo] in *. destruct (shuffle_has t t' d Hs Wm) as (Wm' & Eh).
    destruct IH as (O2 & R2 & M2); [|exact E|].
    + split; [exact Wi|]. split; [exact Wm'|]. cbn [inner mine refreshed]. split; [intros q P; rewrite Eh by exact P; apply J, P|]. intros X q P Nq. rewrite Eh by exact P. apply K; auto.
    + split; [exact O2|]. split; [exact R2|]. intros m Hm. apply M2. intros q P. cbn [mine]. rewrite Eh by exact P. apply Hm, P.
Qed.
Definition csets (es : list cevent) : list (key * option bytes) := flat_map (fun e => match e with CSet k v => [(k, v)] | CRefresh => [] end) es.
Lemma chistory_inner c es ns c' : chistory c es ns c' -> exists ns', history (inner c) (csets es) ns' (inner c').
Proof.
  induction 1 as [c|c k v c1 n es ns c' Hs H IH|c c1 b n es ns c' Hr H IH|t t' d m r es ns c' Hs H IH|i t t' d r es ns c' Hs H IH].
  - exists []. apply H_end.
  - destruct IH as (ns' & IH). unfold cset in Hs. destruct (tset (inner c) k v) as [i n1] eqn:Ei. destruct (deltacallbacks (mine c) n1). injection Hs as <- <-. exists (n1 ++ ns'). eapply H_set; [exact Ei|exact IH].
  - destruct IH as (ns' & IH). exists ns'. cbn [csets flat_map app]. unfold crefresh in Hr. destruct (refreshed c); [injection Hr as <- <- <-; exact IH|].
    destruct (loadtree (inner c) (mine c)) as [[m o]| |]; cbn [bind] in Hr; try discriminate. injection Hr as <- <- <-. exact IH.
  - destruct IH as (ns' & IH). exists ns'. eapply H_shuffle; [exact Hs|exact IH].
  - exact IH.
Qed.
Lemma history_app g hs ns g1 : history g hs ns g1 -> forall hs' ns' g2, history g1 hs' ns' g2 -> history g (hs ++ hs') (ns ++ ns') g2.
Proof.
  induction 1 as [g|g k v g1 n hs ns g' Hs H IH|d t t' hs ns g' Hs H IH]; intros hs' ns' g2 H2; [exact H2| |].
  - cbn [app]. rewrite <- app_assoc. eapply H_set; [exact Hs|]. apply IH, H2.
  - eapply H_shuffle; [exact Hs|]. apply IH, H2.
Qed.
Lemma new_cok g : WFo (root g) -> cok (cache_new g).
Proof. intros W. split; [exact W|]. split; [exact I|]. split; [|discriminate]. intros k _. cbn. split; [congruence|auto]. Qed.
