From Verif Require Import Base BaseFacts Ctype KeyModel KeySpec KeyProofs TempModel TempSpec TreeProofs TempProofs MountProofs WatchModel RecProofs FeedProofs CacheModel CacheProofs FastModel.
Local Open Scope nat_scope.

Section Put.
Context {V : Type}.
Implicit Types (t n : tree V).
Lemma put_lk k : Forall plain k -> forall t n (f : tree V -> tree V), WF t -> find t k = Some n -> tkey (f n) = tkey n -> WF (f n) ->
  WF (put t k f) /\ tkey (put t k f) = tkey t /\ forall q, Forall plain q -> lk (put t k f) q = if under k q then lk (f n) (skipn (length k) q) else lk t q.
Proof.
  induction 1 as [|s r Ps Pr IH]; intros t n f W F K Wf; cbn [find put] in *.
  - injection F as ->. split; [exact Wf|]. split; [exact K|]. intros q _. reflexivity.
  - unfold findchild in F. rewrite isempty_plain in * by exact Ps. destruct (child (tch t) s) as [c|] eqn:Ec; [|discriminate].
    destruct (child_plain t s c W Ec) as [_ Wc]. destruct (IH c n f Wc F K Wf) as (W' & K' & L). split; [|split; [reflexivity|]].
    + eapply WF_with_child; [destruct t; exact W|exact Ec|exact K'|exact W'].
    + intros [|s' r'] Q; [reflexivity|]. pose proof (Forall_inv Q) as Qs. pose proof (Forall_inv_tail Q) as Qr. cbn [lk tch under length skipn].
      rewrite (child_replace t s c) by (auto using plain_nulf). destruct (teq s s') eqn:E; [|reflexivity]. cbn [andb]. rewrite L by exact Qr. destruct (under r r'); [reflexivity|].
      rewrite (child_same t s s' W Ps Qs E), Ec. reflexivity.
Qed.
Lemma lk_under k : Forall plain k -> forall t n, WF t -> find t k = Some n -> forall q, Forall plain q -> under k q = true -> lk t q = lk n (skipn (length k) q).
Proof.
  induction 1 as [|s r Ps Pr IH]; intros t n W F [|s' r'] Q U; cbn [find lk under length skipn] in *; try (injection F as ->; reflexivity); try discriminate.
  unfold findchild in F. rewrite isempty_plain in F by exact Ps. destruct (child (tch t) s) as [c|] eqn:Ec; [|discriminate]. apply andb_prop in U. destruct U as [E U].
  rewrite (child_same t s s' W Ps (Forall_inv Q) E), Ec. destruct (child_plain t s c W Ec) as [_ Wc]. apply IH; auto. exact (Forall_inv_tail Q).
Qed.
Lemma skipn_under k q : under k q = true -> skipn (length k) q = [] <-> same k q = true.
Proof.
  revert q. induction k as [|s k IH]; intros [|s' q] U; cbn [under length skipn] in *; try discriminate.
  - split; reflexivity.
  - rewrite same_nil_cons. split; discriminate.
  - apply andb_prop in U. destruct U as [E U]. rewrite same_cons, E. apply IH, U.
Qed.
Lemma put_value t k n v : WF t -> Forall plain k -> find t k = Some n -> let t' := put t k (fun x => Node (tkey x) v (tch x)) in
  WF t' /\ forall q, Forall plain q -> lk t' q = if same k q then Some v else lk t q.
Proof.
  intros W P F. cbv zeta. assert (Wn : WF n) by (pose proof (find_lk t k (or_introl (or_introl P))) as X; rewrite F in X; apply X, W).
  destruct (put_lk k P t n (fun x => Node (tkey x) v (tch x)) W F eq_refl) as (W' & _ & L); [destruct n; inversion Wn; subst; constructor; assumption|]. split; [exact W'|].
  intros q Q. rewrite L by exact Q. destruct (under k q) eqn:U; [|unfold same; rewrite U; reflexivity]. pose proof (skipn_under k q U) as X. destruct (skipn (length k) q) as [|s r] eqn:E.
  - rewrite (proj1 X eq_refl). reflexivity.
  - destruct (same k q) eqn:S; [discriminate (proj2 X eq_refl)|]. rewrite (lk_under k P t n W F q Q U), E. reflexivity.
Qed.
Lemma put_child t p n s v : WF t -> Forall plain p -> plain s -> find t p = Some n -> child (tch n) s = None -> let t' := put t p (fun x => Node (tkey x) (tval x) (tch x ++ [Node s v []])) in
  WF t' /\ forall q, Forall plain q -> lk t' q = if same (p ++ [s]) q then Some v else lk t q.
Proof.
  intros W P Ps F Ec. cbv zeta. assert (Wn : WF n) by (pose proof (find_lk t p (or_introl (or_introl P))) as X; rewrite F in X; apply X, W). destruct (WF_inv _ Wn) as (Pc & Nd & Wc).
  destruct (put_lk p P t n (fun x => Node (tkey x) (tval x) (tch x ++ [Node s v []])) W F eq_refl) as (W' & _ & L).
  { constructor; [apply Forall_app; auto| |apply Forall_app; split; [exact Wc|]; constructor; [constructor; constructor|constructor]]. rewrite map_app. apply NoDup_app_intro; [exact Nd|constructor; [intros []|constructor]|].
    intros x H1 [<-|[]]. apply (low_ne_child (tch n) s Pc (plain_nulf s Ps) Ec). exact H1. }
  split; [exact W'|]. intros q Q. rewrite L by exact Q. destruct (under p q) eqn:U.
  - rewrite (lk_under p P t n W F q Q U). assert (Eq : same (p ++ [s]) q = same [s] (skipn (length p) q)).
    { clear -U. revert q U. induction p as [|x p IH]; intros [|y q] U; cbn [app length skipn under] in *; try discriminate; try reflexivity. apply andb_prop in U. destruct U as [E U]. rewrite same_cons, E. apply IH, U. }
    rewrite Eq. assert (Q' : Forall plain (skipn (length p) q)) by (rewrite <- (firstn_skipn (length p) q) in Q; apply Forall_app in Q; apply Q).
    destruct (skipn (length p) q) as [|s' r]; [reflexivity|]. cbn [lk tch]. rewrite child_added by (cbn [tkey]; auto; apply plain_nulf; exact (Forall_inv Q')). cbn [tkey]. rewrite same_cons.
    destruct (teq s s') eqn:E; [|reflexivity]. cbn [andb]. destruct r as [|y r]; [reflexivity|]. rewrite same_nil_cons. cbn [lk tch child]. rewrite (child_same n s s' Wn Ps (Forall_inv Q') E), Ec. reflexivity.
  - destruct (same (p ++ [s]) q) eqn:S; [|reflexivity]. exfalso. apply same_lows in S. assert (under p q = true); [|congruence]. apply under_lows. exists (lows [s]). rewrite <- S. apply lows_app.
Qed.
End Put.

Lemma find_some {V} (t : tree V) k : Forall plain k -> lk t k = match find t k with Some n => Some (tval n) | None => None end.
Proof. intros P. pose proof (find_lk t k (or_introl (or_introl P))) as F. rewrite (proj2 (plain_slashed _ P)) in F. destruct (find t k); apply F. Qed.
Lemma callbacks_fast m' n : folded m' -> (forall q w, In (q, w) n -> Forall plain q /\ m' q = w) -> forall t, WF t ->
  WF (fold_left fcallback n t) /\ forall k, Forall plain k ->
    (touched n k -> lk (fold_left fcallback n t) k = match lk t k with Some _ => Some (m' k) | None => None end) /\ (~ touched n k -> lk (fold_left fcallback n t) k = lk t k).
Proof.
  intros F H. induction n as [|[q w] n IH] using rev_ind; intros t W.
  - split; [exact W|]. intros k P. split; [intros (q & w & [] & _)|reflexivity].
  - destruct (IH (fun q0 w0 Hi => H q0 w0 (proj2 (in_app_iff _ _ _) (or_introl Hi))) t W) as (W1 & L). rewrite fold_left_app. cbn [fold_left]. set (t1 := fold_left fcallback n t) in *.
    destruct (H q w) as [Pq Eq]; [apply in_app_iff; right; left; reflexivity|].
    assert (X : WF (fcallback t1 (q, w)) /\ forall k, Forall plain k -> lk (fcallback t1 (q, w)) k = if same q k then match lk t1 k with Some _ => Some w | None => None end else lk t1 k).
    { unfold fcallback. cbn [fst snd]. pose proof (find_some t1 q Pq) as Fq. destruct (find t1 q) as [x|] eqn:Ef.
      - destruct (put_value t1 q x w W1 Pq Ef) as (W2 & L2). split; [exact W2|]. intros k P. rewrite L2 by exact P. destruct (same q k) eqn:S; [|reflexivity]. rewrite <- (lk_low t1 q k W1 Pq P S), Fq. reflexivity.
      - split; [exact W1|]. intros k P. destruct (same q k) eqn:S; [|reflexivity]. rewrite <- (lk_low t1 q k W1 Pq P S), Fq. reflexivity. }
    destruct X as (W2 & L2). split; [exact W2|]. intros k P. rewrite L2 by exact P. destruct (L k P) as [L3 L4].
    assert (Tq : touched (n ++ [(q, w)]) k <-> touched n k \/ same q k = true).
    { split.
      - intros (q0 & w0 & Hi & S). apply in_app_iff in Hi. destruct Hi as [Hi|[Hi|[]]]; [left; exists q0, w0; auto|]. injection Hi as -> ->. auto.
      - intros [(q0 & w0 & Hi & S)|S]; [exists q0, w0; split; [apply in_app_iff; auto|exact S]|]. exists q, w. split; [apply in_app_iff; right; left; reflexivity|exact S]. }
    rewrite !Tq. destruct (same q k) eqn:S.
    + split; [intros _|intros X; elim X; auto]. rewrite <- (F q k Pq P S), Eq. destruct (touched_dec n k) as [T|T]; [rewrite (L3 T)|rewrite (L4 T)]; destruct (lk t k); reflexivity.
    + split; intros X; [apply L3; destruct X; [assumption|discriminate]|apply L4; auto].
Qed.

Definition fok (s : fast) : Prop := WF (ftree s) /\ WFo (root (finner s)) /\ forall k o, Forall plain k -> lk (ftree s) k = Some o -> o = has (finner s) k.
Definition keeps (s s' : fast) : Prop := forall k, Forall plain k -> lk (ftree s) k <> None -> lk (ftree s') k <> None.
Lemma new_fok g : WFo (root g) -> fok (fast_new g).
Proof.
  intros W. split; [constructor; constructor|]. split; [exact W|]. intros [|s r] o P H; [|discriminate H]. cbn in H. injection H as <-. unfold fast_new. cbn [finner]. rewrite tget_has by (left; constructor). reflexivity.
Qed.
Lemma fset_ok s k v s' n : fok s -> canonical k -> fset s k v = (s', n) -> fok s' /\ keeps s s' /\ tset (finner s) k v = (finner s', n).
Proof.
  intros (W & Wi & C) Ck E. unfold fset in E. destruct (tset (finner s) k v) as [g n1] eqn:Et. injection E as <- <-. destruct (tset_ok _ _ _ _ _ Wi Ck Et) as (Wi' & _ & T & _).
  destruct (callbacks_fast (has g) n1 (has_folded g Wi') (fun q w Hi => conj (proj1 (t_true _ _ _ T q w Hi)) (proj1 (proj2 (t_true _ _ _ T q w Hi)))) (ftree s) W) as (W' & L).
  split; [|split; [|reflexivity]].
  - split; [exact W'|]. split; [exact Wi'|]. cbn [ftree finner]. intros q o P H. destruct (L q P) as [L1 L2]. destruct (touched_dec n1 q) as [X|X].
    + rewrite (L1 X) in H. destruct (lk (ftree s) q); congruence.
    + rewrite (L2 X) in H. rewrite <- (untouched _ _ _ q T P X). apply C; assumption.
  - intros q P H. cbn [ftree]. destruct (L q P) as [L1 L2]. destruct (touched_dec n1 q) as [X|X]; [rewrite (L1 X); destruct (lk (ftree s) q); congruence|rewrite (L2 X); exact H].
Qed.
Lemma fget_ok : forall fuel s k, fok s -> canonical k -> length k < fuel -> exists s' a, fget fuel s k = Ok (s', tget (finner s) k, a) /\ fok s' /\ keeps s s' /\ finner s' = finner s /\
  (slashed k = false -> lk (ftree s') k <> None) /\ (forall q, Forall plain q -> lk (ftree s') q <> None -> lk (ftree s) q <> None \/ length q <= length k).
Proof.
  induction fuel as [|fuel IH]; intros s k O C L; [lia|]. pose proof O as (W & Wi & Cn). cbn [fget]. destruct C as [P|(k' & Nk & P & ->)].
  2:{ destruct (hasts_app k' Nk P) as [_ ->]. destruct (trailing_slashed k' P) as [Sl _]. exists s, []. rewrite tget_has, Sl by (right; exists k'; auto). split; [reflexivity|]. split; [exact O|]. split; [intros q _ H; exact H|]. split; [reflexivity|]. split; [discriminate|auto]. }
  rewrite hasts_plain by exact P. rewrite tget_has by (left; exact P). rewrite (proj1 (plain_slashed _ P)). pose proof (find_some (ftree s) k P) as Fk. destruct (find (ftree s) k) as [x|] eqn:Ef.
  - exists s, []. rewrite (Cn k (tval x) P Fk). split; [reflexivity|]. split; [exact O|]. split; [intros q _ H; exact H|]. split; [reflexivity|]. split; [congruence|auto].
  - destruct (exists_last (l := k)) as (p & x & Ek); [intros ->; discriminate Fk|]. rewrite Ek in *. apply Forall_app in P. destruct P as [Pp Px]. pose proof (Forall_inv Px) as Pxx. rewrite removelast_snoc1 by assumption.
    assert (Pk : Forall plain (p ++ [x])) by (apply Forall_app; auto). rewrite app_length in L. cbn in L.
    destruct (IH s p O (or_introl Pp)) as (s1 & a & E1 & O1 & K1 & I1 & F1 & G1); [lia|]. rewrite E1. cbn [bind]. specialize (F1 (proj1 (plain_slashed _ Pp))). pose proof O1 as (W1 & Wi1 & C1). rewrite I1 in *.
    pose proof (find_some (ftree s1) p Pp) as Fp. destruct (find (ftree s1) p) as [y|] eqn:Ey; [|congruence]. pose proof (C1 p _ Pp Fp) as Vy.
    assert (Ev : match tval y with None => None | Some _ => tget (finner s) (p ++ [x]) end = has (finner s) (p ++ [x])).
    { rewrite tget_has by (left; exact Pk). rewrite (proj1 (plain_slashed _ Pk)). rewrite Vy. destruct (has (finner s) p) eqn:Ep; [reflexivity|]. destruct (has (finner s) (p ++ [x])) eqn:Ex; [|reflexivity].
      exfalso. apply (has_closed (finner s) p [x] Pk); [congruence|exact Ep]. }
    rewrite Ev. clear Ev.
    assert (El : hd [] (last_seg (p ++ [x])) = x).
    { unfold last_seg. rewrite app_length. cbn [length]. replace (length p + 1 - 1) with (length p) by lia. rewrite skipn_app, Nat.sub_diag, skipn_all. cbn [app skipn]. rewrite plain_collapse by exact Px. reflexivity. }
    rewrite El. clear El.
    destruct (lk (ftree s1) (p ++ [x])) as [o|] eqn:Eo.
    + (* the parent's get does not create it *)
      exfalso. destruct (G1 (p ++ [x]) Pk) as [X|X]; [congruence|congruence|]. rewrite app_length in X. cbn in X. lia.
    + assert (Ec : child (tch y) x = None).
      { pose proof (find_lk (ftree s1) p (or_introl (or_introl Pp))) as Y. rewrite Ey in Y. destruct Y as (_ & _ & Y). rewrite (proj2 (plain_slashed _ Pp)) in Y. rewrite (Y x []) in Eo. cbn [lk] in Eo. destruct (child (tch y) x); [discriminate|reflexivity]. }
      destruct (put_child (ftree s1) p y x (has (finner s) (p ++ [x])) W1 Pp Pxx Ey Ec) as (W2 & L2).
      eexists. eexists. split; [reflexivity|]. split; [|split; [|split; [reflexivity|split]]].
      * split; [exact W2|]. split; [exact Wi1|]. cbn [ftree finner]. intros q o Q. rewrite L2 by exact Q. destruct (same (p ++ [x]) q) eqn:S; [|apply C1, Q].
        intros H. injection H as <-. apply has_folded; assumption.
      * intros q Q H. cbn [ftree]. rewrite L2 by exact Q. destruct (same (p ++ [x]) q); [discriminate|]. apply K1; assumption.
      * intros _. cbn [ftree]. rewrite L2 by exact Pk. rewrite same_refl. discriminate.
      * intros q Q. cbn [ftree]. rewrite L2 by exact Q. rewrite app_length. cbn [length]. destruct (same (p ++ [x]) q) eqn:S.
        -- intros _. right. apply same_lows in S. apply (f_equal (@length _)) in S. unfold lows in S. rewrite !map_length, app_length in S. cbn in S. lia.
        -- intros H. destruct (G1 q Q H); [auto|right; lia].
Qed.
Lemma keeps_trans a b c : keeps a b -> keeps b c -> keeps a c.
Proof. intros H1 H2 k P H. apply H2; auto. Qed.
Definition fevent_ok (e : fevent) : Prop := match e with FSet k _ => canonical k | FGet k => canonical k end.
Definition fsets (es : list fevent) : list (key * option bytes) := flat_map (fun e => match e with FSet k v => [(k, v)] | FGet _ => [] end) es.
Lemma fget_more : forall fuel s k r, fget fuel s k = Ok r -> fget (S fuel) s k = Ok r.
Proof.
  induction fuel as [|fuel IH]; intros s k r H; [discriminate|]. cbn [fget] in H. change (fget (S (S fuel)) s k) with (if hastrailingslash k then Ok (s, None, []) else match find (ftree s) k with
    | Some t => Ok (s, tval t, []) | None => let parent := removelast k 1 in let! (s, _, asked) := fget (S fuel) s parent in
      match find (ftree s) parent with None => Fault | Some t =>
        let value := match tval t with None => None | Some _ => tget (finner s) k end in let asked := match tval t with None => asked | Some _ => asked ++ [k] end in
        Ok ({| finner := finner s; ftree := put (ftree s) parent (fun x => Node (tkey x) (tval x) (tch x ++ [Node (hd [] (last_seg k)) value []])) |}, value, asked) end end).
  destruct (hastrailingslash k); [exact H|]. destruct (find (ftree s) k); [exact H|]. cbv zeta in *. destruct (fget fuel s (removelast k 1)) as [x| |] eqn:E; cbn [bind] in H; try discriminate.
  rewrite (IH _ _ _ E). cbn [bind]. exact H.
Qed.
Lemma fget_le fuel fuel' s k r : fuel <= fuel' -> fget fuel s k = Ok r -> fget fuel' s k = Ok r.
Proof. induction 1 as [|f _ IH]; [auto|]. intros H. apply fget_more, IH, H. Qed.
Lemma fget_any fuel s k s' v a : fok s -> canonical k -> fget fuel s k = Ok (s', v, a) -> fok s' /\ keeps s s' /\ finner s' = finner s /\ v = tget (finner s) k /\ (slashed k = false -> lk (ftree s') k <> None).
Proof.
  intros O C H. destruct (fget_ok (fuel + S (length k)) s k O C) as (s1 & a1 & E & O1 & K1 & I1 & F1 & _); [lia|].
  rewrite (fget_le fuel (fuel + S (length k)) s k (s', v, a)) in E by (exact H || lia). injection E as <- <- <-. auto.
Qed.
Lemma fhistory_ok s es ns s' : fhistory s es ns s' -> fok s -> Forall fevent_ok es -> fok s' /\ keeps s s' /\ history (finner s) (fsets es) ns (finner s').
Proof.
  induction 1 as [s|s k v s1 n es ns s' Hs H IH|s fuel k s1 v a es ns s' Hg H IH|t t' d f es ns s' Hs H IH|g t t' es ns s' Hs H IH]; intros O E.
  - split; [exact O|]. split; [intros k _ H; exact H|apply H_end].
  - destruct (fset_ok s k v s1 n O (Forall_inv E) Hs) as (O1 & K1 & T1). destruct (IH O1 (Forall_inv_tail E)) as (O2 & K2 & H2). split; [exact O2|]. split; [eapply keeps_trans; eassumption|]. eapply H_set; [exact T1|exact H2].
  - destruct (fget_any fuel s k s1 v a O (Forall_inv E) Hg) as (O1 & K1 & I1 & _). destruct (IH O1 (Forall_inv_tail E)) as (O2 & K2 & H2). split; [exact O2|]. split; [eapply keeps_trans; eassumption|]. rewrite I1 in H2. exact H2.
  - destruct O as (W & Wi & C). cbn [finner ftree root WFo] in *. destruct (shuffle_has t t' d Hs Wi) as (Wi' & Eh). destruct IH as (O2 & K2 & H2); [|exact E|].
    + split; [exact W|]. split; [exact Wi'|]. cbn [finner ftree]. intros k o P X. rewrite Eh by exact P. apply C; assumption.
    + split; [exact O2|]. split; [exact K2|]. eapply H_shuffle; [exact Hs|exact H2].
  - destruct O as (W & Wi & C). cbn [finner ftree] in *. destruct (shuffle_ok _ _ Hs W) as (W' & _ & _ & El). destruct IH as (O2 & K2 & H2); [|exact E|].
    + split; [exact W'|]. split; [exact Wi|]. cbn [finner ftree]. intros k o P X. rewrite El in X by exact P. apply C; assumption.
    + split; [exact O2|]. split; [|exact H2]. intros k P X. apply K2; [exact P|]. cbn [ftree] in *. rewrite El by exact P. exact X.
Qed.
