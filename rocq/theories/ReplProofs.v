From Verif Require Import Base BaseFacts Ctype KeyModel KeySpec KeyProofs TempModel TempSpec TreeProofs TempProofs LayerSpec WatchModel RecModel RecProofs FeedProofs CacheModel CacheProofs ReplModel.
Local Open Scope nat_scope.

Definition agree (m m' : contents) : Prop := forall k, Forall plain k -> k <> [] -> m k = m' k.
Lemma agree_sym m m' : agree m m' -> agree m' m.
Proof. intros H k P N. symmetry. auto. Qed.
Lemma agree_trans a b c : agree a b -> agree b c -> agree a c.
Proof. intros H1 H2 k P N. rewrite H1, H2 by assumption. reflexivity. Qed.
Definition ov (m o : contents) : contents := fun q => match m q with Some v => Some v | None => o q end.
Lemma ov_closed m o : closed m -> closed o -> closed (ov m o).
Proof. intros Hm Ho a b P. unfold ov. destruct (m (a ++ b)) eqn:E. - intros _. assert (X : m a <> None) by (apply (Hm a b P); congruence). destruct (m a); congruence.
  - intros H. destruct (m a); [discriminate|]. apply (Ho a b P H). Qed.
Lemma ov_folded m o : folded m -> folded o -> folded (ov m o).
Proof. intros Hm Ho k k' P P' S. unfold ov. rewrite (Hm k k'), (Ho k k') by assumption. reflexivity. Qed.

Definition rwf (r : rep) : Prop := WFo (root (rgen r)).
Notation con r := (has (rgen r)).
Lemma feeds_shape n r : feeds n r = {| rgen := if rok r then tsets (rgen r) n else rgen r; rok := rok r; was_ok := match n with [] => was_ok r | _ => rok r end |}.
Proof.
  unfold feeds. revert r. induction n as [|x n IH]; intros r.
  - destruct r as [g [] w]; reflexivity.
  - cbn [fold_left]. rewrite IH. unfold feed1. destruct r as [g [] w]; cbn; [|destruct n; reflexivity]. destruct n; reflexivity.
Qed.
(** A generator told what another one notifies *)
Lemma feeds_con n r m' : rwf r -> closed m' -> folded m' -> (forall q w, In (q, w) n -> Forall plain q /\ m' q = w) -> rok r = true ->
  rwf (feeds n r) /\ fed (con r) m' n (con (feeds n r)).
Proof. intros W C F H K. rewrite feeds_shape, K. unfold rwf. cbn [rgen]. apply tsets_fed; assumption. Qed.
Lemma feeds_off n r : rok r = false -> rgen (feeds n r) = rgen r.
Proof. intros K. rewrite feeds_shape, K. reflexivity. Qed.
Lemma fed_agree m0 m m' n x x' : tells m0 m n -> agree x m0 -> agree m m' -> fed x m' n x' -> (forall q, Forall plain q -> touched n q -> m q = m' q) -> agree x' m'.
Proof.
  intros T A E F Ht k P N. destruct (F k P) as [F1 F2]. destruct (touched_dec n k) as [X|X]; [apply F1, X|]. pose proof (untouched _ _ _ k T P X) as U.
  pose proof (A k P N) as Ak. pose proof (E k P N) as Ek. destruct (F2 X) as [->|[(E1 & -> & E3)|(-> & E2)]]; congruence.
Qed.

(** ** Setting a key in one generator *)
Definition calm (l : list rep) : Prop := Forall (fun r => came_back r = false) l.
Definition synced (l : list rep) : Prop := forall r r', In r l -> In r' l -> was_ok r = true -> was_ok r' = true -> agree (con r) (con r').
Definition okflags (l : list rep) : list bool := map rok l.
Lemma calm_was l r : calm l -> In r l -> rok r = true -> was_ok r = true.
Proof. intros C H K. unfold calm in C. rewrite Forall_forall in C. specialize (C r H). unfold came_back in C. rewrite K in C. destruct (was_ok r); [reflexivity|discriminate]. Qed.
Lemma feeds_ok_flag n r : rok (feeds n r) = rok r.
Proof. rewrite feeds_shape. reflexivity. Qed.
Lemma feeds_calm n r : came_back r = false -> came_back (feeds n r) = false.
Proof. rewrite feeds_shape. unfold came_back. cbn. destruct n; [auto|]. destruct (rok r); reflexivity. Qed.
Lemma set_in_ok a r b k v l' n : Forall rwf (a ++ r :: b) -> calm (a ++ r :: b) -> synced (a ++ r :: b) -> rok r = true -> canonical k -> set_in a r b k v = (l', n) ->
  Forall rwf l' /\ calm l' /\ synced l' /\ okflags l' = okflags (a ++ r :: b) /\ tells (con r) (has (fst (tset (rgen r) k v))) n /\
  (forall q, Forall plain q -> has (fst (tset (rgen r) k v)) q = set_key (con r) (k, v) q) /\
  forall x, In x l' -> rok x = true -> agree (con x) (has (fst (tset (rgen r) k v))).
Proof.
  intros W C S K Ck E. unfold set_in in E. destruct (tset (rgen r) k v) as [g n1] eqn:Et. injection E as <- <-. cbn [fst].
  assert (Wr : rwf r) by (rewrite Forall_app in W; exact (Forall_inv (proj2 W))). destruct (tset_ok _ _ _ _ _ Wr Ck Et) as (Wg & Hc & T & _).
  assert (Hin : In r (a ++ r :: b)) by (apply in_app_iff; right; left; reflexivity).
  assert (Tt : forall q w, In (q, w) n1 -> Forall plain q /\ has g q = w) by (intros q w H; destruct (t_true _ _ _ T q w H) as (P & E & _); auto).
  set (r' := source n1 (with_gen r g)). assert (Er' : rgen r' = g /\ rok r' = true /\ came_back r' = false).
  { pose proof (calm_was _ r C Hin K) as Wk. unfold r', source, came_back. destruct n1; cbn; rewrite ?K, ?Wk; auto. }
  destruct Er' as (Eg & Ek & Ec).
  assert (O : forall x, In x (a ++ r :: b) -> rwf x /\ (rok x = true -> rwf (feeds n1 x) /\ agree (con (feeds n1 x)) (has g))).
  { intros x Hx. assert (Wx : rwf x) by (rewrite Forall_forall in W; auto). split; [exact Wx|]. intros Kx. destruct (feeds_con n1 x (has g) Wx (has_closed g) (has_folded g Wg) Tt Kx) as (Wx' & F). split; [exact Wx'|].
    eapply fed_agree; [exact T|apply (S x r Hx Hin); eapply calm_was; eassumption|intros q _ _; reflexivity|exact F|intros; reflexivity]. }
  assert (In' : forall x, In x (map (feeds n1) a ++ r' :: map (feeds n1) b) -> x = r' \/ exists y, In y (a ++ r :: b) /\ x = feeds n1 y).
  { intros x Hx. apply in_app_iff in Hx. destruct Hx as [Hx|[Hx|Hx]]; [|auto|]; apply in_map_iff in Hx; destruct Hx as (y & <- & Hy); right; exists y; (split; [apply in_app_iff; cbn; auto|reflexivity]). }
  assert (Ag : forall x, In x (map (feeds n1) a ++ r' :: map (feeds n1) b) -> rok x = true -> agree (con x) (has g)).
  { intros x Hx Kx. destruct (In' x Hx) as [->|(y & Hy & ->)]; [rewrite Eg; intros q _ _; reflexivity|]. rewrite feeds_ok_flag in Kx. apply (O y Hy), Kx. }
  split; [|split; [|split; [|split; [|split; [exact T|split; [exact Hc|exact Ag]]]]]].
  - apply Forall_forall. intros x Hx. destruct (In' x Hx) as [->|(y & Hy & ->)]; [unfold rwf; rewrite Eg; exact Wg|]. destruct (O y Hy) as [Wy Oy]. destruct (rok y) eqn:Ky; [apply Oy; reflexivity|unfold rwf; rewrite feeds_off by exact Ky; exact Wy].
  - apply Forall_forall. intros x Hx. destruct (In' x Hx) as [->|(y & Hy & ->)]; [exact Ec|]. apply feeds_calm. unfold calm in C. rewrite Forall_forall in C. auto.
  - assert (G : forall x, In x (map (feeds n1) a ++ r' :: map (feeds n1) b) -> was_ok x = true -> agree (con x) (has g)).
    { intros x Hx Wx. destruct (rok x) eqn:Kx; [apply Ag; assumption|]. destruct (In' x Hx) as [->|(y & Hy & ->)]; [congruence|]. rewrite feeds_ok_flag in Kx. rewrite feeds_off by exact Kx. rewrite feeds_shape in Wx. cbn in Wx.
      destruct n1; [|congruence]. eapply agree_trans; [apply (S y r Hy Hin Wx); eapply calm_was; eassumption|]. intros q P _. apply (untouched _ _ _ q T P). intros (q0 & w & [] & _). }
    intros x y Hx Hy Wx Wy. eapply agree_trans; [apply G; assumption|apply agree_sym, G; assumption].
  - unfold okflags. rewrite !map_app. cbn [map]. rewrite !map_map. f_equal; [apply map_ext, feeds_ok_flag|]. rewrite Ek, K. f_equal. apply map_ext, feeds_ok_flag.
Qed.

(** ** Replicating *)
Definition offers (x : rep) : contents := if rok x then con x else nothing.
(** The others, when the first generator holds [m]; [o] is what each brought. *)
Definition otherok (m : contents) (x : rep) (o : contents) : Prop := rwf x /\ was_ok x = rok x /\ closed o /\ folded o /\ (rok x = false -> forall q, o q = None) /\ (rok x = true -> agree (con x) (ov m o)).
Lemma others_set m m' n b os : folded m' -> closed m' -> tells m m' n -> (forall q, Forall plain q -> m q <> None -> m' q <> None) -> Forall2 (otherok m) b os -> Forall2 (otherok m') (map (feeds n) b) os.
Proof.
  intros F C T Mono H. induction H as [|x o b os (W & Ws & Co & Fo & No & A) H IH]; [constructor|]. cbn [map]. constructor; [|exact IH].
  assert (Tt : forall q w, In (q, w) n -> Forall plain q /\ ov m' o q = w).
  { intros q w Hi. destruct (t_true _ _ _ T q w Hi) as (P & E & Ne). split; [exact P|]. unfold ov. rewrite E. destruct w; [reflexivity|]. exfalso. apply (Mono q P); auto. }
  split; [|split; [|split; [exact Co|split; [exact Fo|split; [rewrite feeds_ok_flag; exact No|]]]]].
  - destruct (rok x) eqn:K; [|unfold rwf; rewrite feeds_off by exact K; exact W]. apply (feeds_con n x (ov m' o)); auto using ov_closed, ov_folded.
  - rewrite feeds_shape. cbn. destruct n; [exact Ws|reflexivity].
  - rewrite feeds_ok_flag. intros K. destruct (feeds_con n x (ov m' o) W (ov_closed _ _ C Co) (ov_folded _ _ F Fo) Tt K) as (_ & Fd). intros q P N. destruct (Fd q P) as [F1 F2].
    destruct (touched_dec n q) as [X|X]; [apply F1, X|]. pose proof (untouched _ _ _ q T P X) as U. pose proof (A K q P N) as Aq. unfold ov in *. rewrite U in Aq.
    destruct (F2 X) as [->|[(E1 & -> & E3)|(-> & E2)]]; congruence.
Qed.
Lemma rkeys_order g l a q s b : WFo (root g) -> rkeys g = Ok l -> map fst l = a ++ (q ++ [s]) :: b -> q <> [] -> In q a.
Proof.
  intros W E El N. destruct (root g) as [t|] eqn:Er.
  - unfold rkeys in E. rewrite Er in E. unfold trec in E. cbn [WFo] in W. rewrite (tnames_spec g t []) with (ks := forest [] (tch t)) in E; auto; [|rewrite Er; exact W|left; constructor|exists t; auto|rewrite forest_nodes; destruct t; cbn [nodes tch]; lia].
    cbn [bind] in E. injection E as <-. rewrite map_map in El. cbn [fst] in El. rewrite map_id in El. eapply forest_order; [exact El|]. destruct q; [congruence|cbn; lia].
  - unfold rkeys in E. rewrite Er in E. assert (T : tnames g [] = None) by (unfold tnames, titer; rewrite Er; reflexivity). unfold trec, rewind in E. rewrite T in E. cbn in E. injection E as <-. destruct a; discriminate.
Qed.
Definition listed (ks : list key) (q : key) : bool := existsb (fun k => same k q) ks.
Lemma listed_app a b q : listed (a ++ b) q = listed a q || listed b q.
Proof. apply existsb_app. Qed.
(** Taking over the keys of one generator *)
Lemma repl_keys_ok i os o : nth_error os i = Some o -> forall todo done ks r b m0,
  ks = done ++ todo -> (forall a q s c, ks = a ++ (q ++ [s]) :: c -> q <> [] -> In q a) -> (forall k, In k ks -> Forall plain k /\ k <> [] /\ ov m0 o k <> None) ->
  rwf r -> (forall x, nth_error b i = Some x -> rok x = true) -> Forall2 (otherok (con r)) b os ->
  (forall q, Forall plain q -> q <> [] -> con r q = match m0 q with Some v => Some v | None => if listed done q then o q else None end) ->
  exists r' b' n, repl_keys i todo r b = Ok (r', b', n) /\ rwf r' /\ rok r' = rok r /\ was_ok r' = was_ok r /\ Forall2 (otherok (con r')) b' os /\ okflags b' = okflags b /\
    (forall q, Forall plain q -> q <> [] -> con r' q = match m0 q with Some v => Some v | None => if listed ks q then o q else None end) /\
    (forall q w, In (q, w) n -> Forall plain q /\ w <> None /\ (q <> [] -> con r' q = w)) /\
    (forall q, Forall plain q -> q <> [] -> con r q = None -> con r' q <> None -> touched n q).
Proof.
  intros Ho. induction todo as [|k todo IH]; intros done ks r b m0 Eks Ord Hks W Kx F I; cbn [repl_keys].
  - rewrite app_nil_r in Eks. subst done. exists r, b, []. split; [reflexivity|]. split; [exact W|]. split; [reflexivity|]. split; [reflexivity|]. split; [exact F|]. split; [reflexivity|]. split; [exact I|]. split; [intros q w []|congruence].
  - assert (Hj : exists j, nth_error b i = Some j /\ otherok (con r) j o).
    { clear -Ho F. revert os o b Ho F. induction i as [|i IH]; intros os o b Ho F; destruct F; cbn in *; try discriminate; [injection Ho as <-; eauto|]. eapply IH; eassumption. }
    destruct Hj as (j & Ej & (Wj & Wsj & Coj & Foj & _ & Aj)). specialize (Aj (Kx j Ej)). rewrite Ej. cbn [of_opt bind].
    destruct (Hks k) as (Pk & Nk & Hk); [rewrite Eks; apply in_app_iff; right; left; reflexivity|].
    assert (Tg : forall g, tget g k = has g k) by (intros g; rewrite tget_has by (left; exact Pk); rewrite (proj1 (plain_slashed _ Pk)); reflexivity). rewrite !Tg.
    assert (El : forall q, Forall plain q -> q <> [] -> listed (done ++ [k]) q = listed done q || same k q) by (intros q _ _; rewrite listed_app; cbn; rewrite orb_false_r; reflexivity).
    destruct (con r k) as [v0|] eqn:Er.
    + destruct (IH (done ++ [k]) ks r b m0) as (r' & b' & n & E & R); auto; [rewrite <- app_assoc; exact Eks| |exists r', b', n; split; [exact E|exact R]].
      intros q P N. rewrite I by assumption. rewrite El by assumption. destruct (m0 q) eqn:Em; [reflexivity|]. destruct (listed done q) eqn:Ld; [reflexivity|]. cbn [orb]. destruct (same k q) eqn:S; [|reflexivity]. exfalso.
      assert (X : con r q = Some v0) by (rewrite <- (has_folded _ W k q Pk P S); exact Er). rewrite I in X by assumption. rewrite Em, Ld in X. discriminate.
    + assert (Ek : con j k = o k) by (rewrite (Aj k Pk Nk); unfold ov; rewrite Er; reflexivity). rewrite Ek.
      assert (Em0 : m0 k = None) by (rewrite (I k Pk Nk) in Er; destruct (m0 k); congruence).
      unfold ov in Hk. rewrite Em0 in Hk. destruct (o k) as [v|] eqn:Eo; [|congruence]. destruct (tset (rgen r) k (Some v)) as [g n] eqn:Et.
      destruct (tset_ok _ _ _ _ _ W (or_introl Pk) Et) as (Wg & Hc & T & _).
      assert (Hg : forall q, Forall plain q -> q <> [] -> has g q = if same k q then Some v else con r q).
      { intros q P N. rewrite Hc by exact P. cbn [set_key]. rewrite (proj1 (plain_slashed _ Pk)). unfold set_spec. destruct (same k q) eqn:S; [reflexivity|]. destruct (under q k) eqn:U; [|reflexivity].
        (* a key above: it was taken over before *)
        assert (X : con r q <> None); [|destruct (con r q); congruence].
        destruct (exists_last Nk) as (p & x & Ep). assert (Up : under q p = true).
        { apply under_lows in U. destruct U as (u & U). assert (Lu : u <> []) by (intros ->; rewrite app_nil_r in U; assert (same k q = true) by (apply same_lows; congruence); congruence).
          destruct (exists_last Lu) as (u1 & y & ->). rewrite Ep, lows_app, app_assoc in U. apply app_inj_tail in U. destruct U as [U _]. apply under_lows. exists u1. exact U. }
        assert (Np : p <> []) by (intros ->; destruct q; [congruence|discriminate]).
        assert (Pp : Forall plain p) by (rewrite Ep in Pk; apply Forall_app in Pk; apply Pk).
        apply (closed_under (con r) q p (has_closed _) (has_folded _ W) P Pp Up).
        assert (Hp : In p done) by (apply (Ord done p x todo); [rewrite Eks, Ep; reflexivity|exact Np]).
        rewrite I by assumption. destruct (Hks p) as (_ & _ & Hov); [rewrite Eks; apply in_app_iff; left; exact Hp|]. unfold ov in Hov. destruct (m0 p); [discriminate|].
        assert (Lp : listed done p = true) by (apply existsb_exists; exists p; split; [exact Hp|apply same_refl]). rewrite Lp. exact Hov. }
      assert (Mono : forall q, Forall plain q -> con r q <> None -> has g q <> None).
      { intros q P X. rewrite Hc by exact P. cbn [set_key]. rewrite (proj1 (plain_slashed _ Pk)). unfold set_spec. destruct (same k q); [discriminate|]. destruct (under q k); [|exact X]. destruct (con r q); discriminate. }
      destruct (IH (done ++ [k]) ks (with_gen r g) (map (feeds n) b) m0) as (r' & b' & n' & E & W' & K' & Ws' & F' & Of & I' & T' & A'); auto.
      * rewrite <- app_assoc. exact Eks.
      * intros x Hx. rewrite nth_error_map, Ej in Hx. cbn in Hx. injection Hx as <-. rewrite feeds_ok_flag. apply Kx, Ej.
      * cbn [rgen with_gen]. apply (others_set (con r)); auto using has_closed, has_folded.
      * cbn [rgen with_gen]. intros q P N. rewrite Hg by assumption. rewrite El by assumption. destruct (same k q) eqn:S.
        -- rewrite orb_true_r. destruct (m0 q) eqn:Em; [exfalso|].
           { assert (X : con r q = None) by (rewrite <- (has_folded _ W k q Pk P S); exact Er). rewrite I, Em in X by assumption. discriminate. }
           rewrite <- Eo. apply Foj; auto.
        -- rewrite orb_false_r. apply I; assumption.
      * rewrite E. cbn [bind]. exists r', b', (n ++ n'). split; [reflexivity|]. split; [exact W'|]. split; [exact K'|]. split; [exact Ws'|]. split; [exact F'|].
        split; [rewrite Of; unfold okflags; rewrite map_map; apply map_ext, feeds_ok_flag|]. split; [exact I'|]. cbn [rgen with_gen] in A'.
        assert (Keep : forall q, Forall plain q -> q <> [] -> has g q <> None -> con r' q = has g q).
        { intros q P N X. rewrite I' by assumption. rewrite Hg in * by assumption. destruct (same k q) eqn:S.
          - assert (Mq : m0 q = None). { destruct (m0 q) eqn:Em; [exfalso|reflexivity]. assert (Y : con r q = None) by (rewrite <- (has_folded _ W k q Pk P S); exact Er). rewrite I, Em in Y by assumption. discriminate. }
            rewrite Mq. assert (Lk : listed ks q = true) by (apply existsb_exists; exists k; split; [rewrite Eks; apply in_app_iff; right; left; reflexivity|exact S]). rewrite Lk, <- Eo. symmetry. apply Foj; auto.
          - rewrite I in * by assumption. destruct (m0 q); [reflexivity|]. destruct (listed done q) eqn:Ld; [|congruence]. rewrite Eks, listed_app, Ld. reflexivity. }
        split.
        -- intros q w Hi. apply in_app_iff in Hi. destruct Hi as [Hi|Hi]; [|apply T', Hi]. destruct (t_true _ _ _ T q w Hi) as (P & Ew & Ne).
           assert (Nw : has g q <> None).
           { rewrite Hc by exact P. cbn [set_key]. rewrite (proj1 (plain_slashed _ Pk)). unfold set_spec. destruct (same k q) eqn:S; [discriminate|]. destruct (under q k) eqn:U; [destruct (con r q); discriminate|]. intros X. apply Ne. rewrite <- Ew.
             rewrite Hc by exact P. cbn [set_key]. rewrite (proj1 (plain_slashed _ Pk)). unfold set_spec. rewrite S, U. reflexivity. }
           split; [exact P|]. split; [congruence|]. intros N. rewrite <- Ew. apply Keep; assumption.
        -- intros q P N X Y. destruct (option_eq_dec (list_eq_dec ascii_dec) (con r q) (has g q)) as [Eq|Ne].
           ++ destruct (A' q P N) as (q0 & w & Hi & S); [congruence|exact Y|]. exists q0, w. split; [apply in_app_iff; auto|exact S].
           ++ destruct (t_all _ _ _ T q P Ne) as (q0 & w & Hi & S). exists q0, w. split; [apply in_app_iff; auto|exact S].
Qed.
Lemma f2_nth {A B} (R : A -> B -> Prop) l l' i x : Forall2 R l l' -> nth_error l i = Some x -> exists y, nth_error l' i = Some y /\ R x y.
Proof. intros F. revert i. induction F as [|a b l l' Hab F IH]; intros [|i] H; cbn in *; try discriminate; [injection H as <-; eauto|]. apply IH, H. Qed.
Lemma f2_nth' {A B} (R : A -> B -> Prop) l l' i y : Forall2 R l l' -> nth_error l' i = Some y -> exists x, nth_error l i = Some x /\ R x y.
Proof. intros F. revert i. induction F as [|a b l l' Hab F IH]; intros [|i] H; cbn in *; try discriminate; [injection H as <-; eauto|]. apply IH, H. Qed.
Lemma f2_len {A B} (R : A -> B -> Prop) l l' : Forall2 R l l' -> length l = length l'.
Proof. induction 1; cbn; congruence. Qed.
Lemma skipn_nth {A} (l : list A) i x : nth_error l i = Some x -> skipn i l = x :: skipn (S i) l.
Proof. revert i. induction l as [|y l IH]; intros [|i] H; cbn in *; try discriminate; [injection H as ->; reflexivity|]. apply IH, H. Qed.
Definition within (o m : contents) : Prop := forall q, Forall plain q -> q <> [] -> o q <> None -> m q <> None.
Lemma repl_rest_ok todo : forall i r b os, i + todo = length b -> rwf r -> Forall2 (otherok (con r)) b os -> (forall p o, p < i -> nth_error os p = Some o -> within o (con r)) ->
  exists r' b' n, repl_rest todo i r b = Ok (r', b', n) /\ rwf r' /\ rok r' = rok r /\ was_ok r' = was_ok r /\ Forall2 (otherok (con r')) b' os /\ okflags b' = okflags b /\
    Forall (fun o => within o (con r')) os /\ agree (con r') (ov (con r) (stacked (skipn i os))) /\
    (forall q w, In (q, w) n -> Forall plain q /\ w <> None /\ (q <> [] -> con r' q = w)) /\
    (forall q, Forall plain q -> q <> [] -> con r q = None -> con r' q <> None -> touched n q).
Proof.
  induction todo as [|todo IH]; intros i r b os L W F D; cbn [repl_rest].
  - pose proof (f2_len _ _ _ F) as Lf. exists r, b, []. split; [reflexivity|]. split; [exact W|]. split; [reflexivity|]. split; [reflexivity|]. split; [exact F|]. split; [reflexivity|]. split.
    + apply Forall_forall. intros o Ho. apply In_nth_error in Ho. destruct Ho as (p & Ho). apply (D p o); [|exact Ho]. assert (p < length os) by (apply nth_error_Some; congruence). lia.
    + split; [|split; [intros q w []|congruence]]. intros q P N. rewrite skipn_all2 by lia. unfold ov. cbn [stacked]. destruct (con r q); reflexivity.
  - destruct (nth_error b i) as [j|] eqn:Ej; [|apply nth_error_None in Ej; lia]. cbn [of_opt bind]. destruct (f2_nth _ _ _ _ _ F Ej) as (o & Eo & (Wj & Wsj & Coj & Foj & Noj & Aj)).
    assert (S1 : exists r1 b1 n1, (if rok j then let! ks := rkeys (rgen j) in repl_keys i (map fst ks) r b else Ok (r, b, [])) = Ok (r1, b1, n1) /\ rwf r1 /\ rok r1 = rok r /\ was_ok r1 = was_ok r /\
      Forall2 (otherok (con r1)) b1 os /\ okflags b1 = okflags b /\ agree (con r1) (ov (con r) o) /\ (forall q w, In (q, w) n1 -> Forall plain q /\ w <> None /\ (q <> [] -> con r1 q = w)) /\
      (forall q, Forall plain q -> q <> [] -> con r q = None -> con r1 q <> None -> touched n1 q)).
    { destruct (rok j) eqn:Kj.
      - destruct (rkeys_ok (rgen j) Wj) as (l & El & Tl & Al & _). rewrite El. cbn [bind]. specialize (Aj eq_refl).
        destruct (repl_keys_ok i os o Eo (map fst l) [] (map fst l) r b (con r)) as (r1 & b1 & n1 & E & W1 & K1 & Ws1 & F1 & Of & I1 & T1 & A1); auto.
        + intros a q s c. apply (rkeys_order (rgen j)); assumption.
        + intros k Hk. apply in_map_iff in Hk. destruct Hk as ((k0 & w) & <- & Hi). cbn [fst]. destruct (Tl k0 w Hi) as (P & N & Ew & Nw). split; [exact P|]. split; [exact N|]. rewrite <- (Aj k0 P N). congruence.
        + intros x Hx. rewrite Ej in Hx. injection Hx as <-. exact Kj.
        + intros q P N. cbn [listed existsb]. destruct (con r q); reflexivity.
        + exists r1, b1, n1. split; [exact E|]. split; [exact W1|]. split; [exact K1|]. split; [exact Ws1|]. split; [exact F1|]. split; [exact Of|]. split; [|split; assumption].
          intros q P N. rewrite I1 by assumption. unfold ov. destruct (con r q) eqn:Er; [reflexivity|]. destruct (listed (map fst l) q) eqn:Lq; [reflexivity|]. destruct (o q) eqn:Eoq; [|reflexivity]. exfalso.
          destruct (Al q P N) as (q0 & w & Hi & S); [rewrite (Aj q P N); unfold ov; rewrite Er, Eoq; discriminate|].
          assert (listed (map fst l) q = true); [|congruence]. apply existsb_exists. exists q0. split; [apply (in_map fst) in Hi; exact Hi|exact S].
      - exists r, b, []. split; [reflexivity|]. split; [exact W|]. split; [reflexivity|]. split; [reflexivity|]. split; [exact F|]. split; [reflexivity|]. split; [|split; [intros q w []|congruence]].
        intros q P N. unfold ov. rewrite (Noj eq_refl). destruct (con r q); reflexivity. }
    destruct S1 as (r1 & b1 & n1 & -> & W1 & K1 & Ws1 & F1 & Of1 & I1 & T1 & A1). cbn [bind].
    assert (Lb : length b1 = length b) by (rewrite <- (map_length rok b1), <- (map_length rok b); unfold okflags in Of1; rewrite Of1; reflexivity).
    destruct (IH (S i) r1 b1 os) as (r2 & b2 & n2 & E2 & W2 & K2 & Ws2 & F2 & Of2 & D2 & I2 & T2 & A2); auto; [lia| |].
    { intros p o0 Lp Hp q P N X. rewrite I1 by assumption. unfold ov. destruct (con r q) eqn:Er; [discriminate|]. assert (Hcase : p < i \/ p = i) by lia. destruct Hcase as [Hl| ->].
      - elim (D p o0 Hl Hp q P N X). exact Er.
      - rewrite Eo in Hp. injection Hp as <-. exact X. }
    rewrite E2. cbn [bind]. exists r2, b2, (n1 ++ n2). split; [reflexivity|]. split; [exact W2|]. split; [congruence|]. split; [congruence|]. split; [exact F2|]. split; [congruence|]. split; [exact D2|]. split; [|split].
    + intros q P N. rewrite I2 by assumption. unfold ov. rewrite I1 by assumption. rewrite (skipn_nth os i o Eo). cbn [stacked]. unfold ov. destruct (con r q); [reflexivity|]. destruct (o q); reflexivity.
    + intros q w Hi. apply in_app_iff in Hi. destruct Hi as [Hi|Hi]; [|apply T2, Hi]. destruct (T1 q w Hi) as (P & Nw & Ew). split; [exact P|]. split; [exact Nw|]. intros N. rewrite <- (Ew N). rewrite I2 by assumption. unfold ov.
      destruct (con r1 q) eqn:E1; [reflexivity|]. elim Nw. specialize (Ew N). congruence.
    + intros q P N X Y. destruct (con r1 q) eqn:E1.
      * destruct (A1 q P N X) as (q0 & w & Hi & S); [congruence|]. exists q0, w. split; [apply in_app_iff; auto|exact S].
      * destruct (A2 q P N E1 Y) as (q0 & w & Hi & S). exists q0, w. split; [apply in_app_iff; auto|exact S].
Qed.
Lemma first_ok_spec l : match first_ok l with
  | (a, None) => a = map seen l /\ Forall (fun x => rok x = false) l
  | (a, Some (r, b)) => exists a0 r0, l = a0 ++ r0 :: b /\ a = map seen a0 /\ r = seen r0 /\ rok r0 = true /\ Forall (fun x => rok x = false) a0
  end.
Proof.
  induction l as [|x l IH]; cbn [first_ok]; [auto|]. destruct (rok x) eqn:K; [exists [], x; auto|]. destruct (first_ok l) as [a [[r b]|]].
  - destruct IH as (a0 & r0 & -> & -> & -> & Kr & F). exists (x :: a0), r0. repeat (split; [reflexivity|]). split; [exact Kr|]. constructor; assumption.
  - destruct IH as [-> F]. split; [reflexivity|]. constructor; assumption.
Qed.
Lemma stacked_app a b q : stacked (a ++ b) q = match stacked a q with Some v => Some v | None => stacked b q end.
Proof. induction a as [|m a IH]; [reflexivity|]. cbn [app stacked]. rewrite IH. destruct (m q); reflexivity. Qed.
Lemma stacked_off l q : Forall (fun x => rok x = false) l -> stacked (map offers l) q = None.
Proof. induction 1 as [|x l K F IH]; [reflexivity|]. cbn [map stacked]. unfold offers at 1. rewrite K. exact IH. Qed.
Lemma repl_first_ok r b : rwf r -> Forall rwf b -> exists b' n, repl_first r (map seen b) = Ok (b', n) /\ Forall2 (otherok (con r)) b' (map offers b) /\ okflags b' = okflags b /\
  (forall q w, In (q, w) n -> Forall plain q /\ q <> [] /\ con r q = w /\ w <> None) /\ (forall k, Forall plain k -> k <> [] -> con r k <> None -> touched n k).
Proof.
  intros W Wb. unfold repl_first. destruct (rkeys_ok (rgen r) W) as (n & En & Tn & An & _). rewrite En. cbn [bind]. exists (map (feeds n) (map seen b)), n. split; [reflexivity|].
  split; [|split; [unfold okflags; rewrite !map_map; apply map_ext; intros x; rewrite feeds_ok_flag; reflexivity|split; assumption]].
  induction Wb as [|x b Wx Wb IH]; [constructor|]. cbn [map]. constructor; [|exact IH]. unfold otherok. rewrite feeds_ok_flag. cbn [seen rok].
  assert (Co : closed (offers x) /\ folded (offers x)).
  { unfold offers. destruct (rok x); [split; [apply has_closed|apply has_folded, Wx]|]. split; [intros a c _ X; elim X; reflexivity|intros k k' _ _ _; reflexivity]. }
  assert (G : rok x = true -> rwf (feeds n (seen x)) /\ agree (con (feeds n (seen x))) (ov (con r) (offers x))).
  { intros K. destruct (feeds_con n (seen x) (ov (con r) (offers x)) Wx) as (W' & F); [apply ov_closed; [apply has_closed|apply Co]|apply ov_folded; [apply has_folded, W|apply Co]| |exact K|].
    - intros q w Hi. destruct (Tn q w Hi) as (P & _ & E & Nw). split; [exact P|]. unfold ov. rewrite E. destruct w; [reflexivity|congruence].
    - split; [exact W'|]. intros q P N. destruct (F q P) as [F1 F2]. destruct (touched_dec n q) as [X|X]; [apply F1, X|]. assert (Er : con r q = None) by (destruct (con r q) eqn:E; [elim X; apply An; congruence|reflexivity]).
      assert (Eq : con (seen x) q = ov (con r) (offers x) q) by (unfold ov, offers; rewrite Er, K; reflexivity). destruct (F2 X) as [->|[(E1 & -> & E3)|(-> & E2)]]; congruence. }
  split; [|split; [|split; [apply Co|split; [apply Co|split; [|apply G]]]]].
  - destruct (rok x) eqn:K; [apply G; reflexivity|]. unfold rwf. rewrite feeds_off by exact K. exact Wx.
  - rewrite feeds_shape. cbn. destruct n; reflexivity.
  - intros K q. unfold offers. rewrite K. reflexivity.
Qed.
Lemma replicate_ok l : Forall rwf l -> exists l' n, replicate l = Ok (l', n) /\ Forall rwf l' /\ okflags l' = okflags l /\ Forall (fun x => was_ok x = rok x) l' /\
  (forall x, In x l' -> rok x = true -> agree (con x) (stacked (map offers l))) /\
  (forall q w, In (q, w) n -> Forall plain q /\ w <> None /\ (q <> [] -> stacked (map offers l) q = w)) /\
  (forall q, Forall plain q -> q <> [] -> stacked (map offers l) q <> None -> touched n q).
Proof.
  intros W. unfold replicate. pose proof (first_ok_spec l) as Fs. destruct (first_ok l) as [a [[r b]|]].
  - destruct Fs as (a0 & r0 & -> & -> & -> & K & Fa). apply Forall_app in W. destruct W as [Wa W]. pose proof (Forall_inv W) as Wr. pose proof (Forall_inv_tail W) as Wb. clear W.
    destruct (repl_first_ok (seen r0) b Wr Wb) as (b1 & n1 & -> & F1 & Of1 & T1 & A1). cbn [bind].
    destruct (repl_rest_ok (length b1) 0 (seen r0) b1 (map offers b) eq_refl Wr F1) as (r2 & b2 & n2 & -> & W2 & K2 & Ws2 & F2 & Of2 & D2 & I2 & T2 & A2); [intros p o X; lia|]. cbn [bind].
    assert (St : agree (con r2) (stacked (map offers (a0 ++ r0 :: b)))).
    { intros q P N. rewrite I2 by assumption. rewrite map_app, stacked_app, stacked_off by exact Fa. cbn [map stacked skipn]. unfold ov, offers at 2. rewrite K. cbn [seen rgen]. destruct (con r0 q); reflexivity. }
    exists (map seen a0 ++ r2 :: b2), (n1 ++ n2). split; [reflexivity|].
    assert (Fb : Forall (fun x => rwf x /\ was_ok x = rok x /\ (rok x = true -> agree (con x) (con r2))) b2).
    { clear -F2 D2. induction F2 as [|x o b2 os (Wx & Ws & _ & _ & _ & A) F IH]; [constructor|]. constructor; [|exact (IH (Forall_inv_tail D2))]. split; [exact Wx|]. split; [exact Ws|]. intros Kx q P N.
      rewrite (A Kx q P N). unfold ov. destruct (con r2 q) eqn:E; [reflexivity|]. destruct (o q) eqn:Eo; [|reflexivity]. elim (Forall_inv D2 q P N); congruence. }
    split; [|split; [|split; [|split; [|split]]]].
    + apply Forall_app. split; [rewrite Forall_map; exact Wa|]. constructor; [exact W2|]. eapply Forall_impl; [|exact Fb]. cbn. tauto.
    + unfold okflags in *. rewrite !map_app. cbn [map]. rewrite map_map. f_equal. rewrite K2, Of2, Of1. reflexivity.
    + apply Forall_app. split; [rewrite Forall_map; apply Forall_forall; reflexivity|]. constructor; [rewrite Ws2, K2; reflexivity|]. eapply Forall_impl; [|exact Fb]. cbn. tauto.
    + intros x Hx Kx. apply in_app_iff in Hx. destruct Hx as [Hx|[<-|Hx]].
      * apply in_map_iff in Hx. destruct Hx as (y & <- & Hy). rewrite Forall_forall in Fa. cbn in Kx. rewrite (Fa y Hy) in Kx. discriminate.
      * exact St.
      * rewrite Forall_forall in Fb. destruct (Fb x Hx) as (_ & _ & A). eapply agree_trans; [apply A, Kx|exact St].
    + intros q w Hi. apply in_app_iff in Hi. destruct Hi as [Hi|Hi].
      * destruct (T1 q w Hi) as (P & N & E & Nw). split; [exact P|]. split; [exact Nw|]. intros _. rewrite <- (St q P N), (I2 q P N). unfold ov. rewrite E. destruct w; [reflexivity|congruence].
      * destruct (T2 q w Hi) as (P & Nw & E). split; [exact P|]. split; [exact Nw|]. intros N. rewrite <- (St q P N). apply E, N.
    + intros q P N X. rewrite <- (St q P N) in X. destruct (con (seen r0) q) eqn:E.
      * destruct (A1 q P N) as (q0 & w & Hi & S); [congruence|]. exists q0, w. split; [apply in_app_iff; auto|exact S].
      * destruct (A2 q P N E X) as (q0 & w & Hi & S). exists q0, w. split; [apply in_app_iff; auto|exact S].
  - destruct Fs as [-> F]. exists (map seen l), []. split; [reflexivity|]. split; [rewrite Forall_map; exact W|]. split; [unfold okflags; rewrite map_map; reflexivity|]. split; [rewrite Forall_map; apply Forall_forall; reflexivity|].
    split; [|split; [intros q w []|]].
    + intros x Hx Kx. apply in_map_iff in Hx. destruct Hx as (y & <- & Hy). rewrite Forall_forall in F. cbn in Kx. rewrite (F y Hy) in Kx. discriminate.
    + intros q _ _ X. rewrite stacked_off in X by exact F. congruence.
Qed.

(** ** Generators out of order are left alone *)
Definition keeps (l l' : list rep) : Prop := Forall2 (fun x x' => rok x' = rok x /\ (rok x = false -> rgen x' = rgen x)) l l'.
Lemma keeps_refl l : keeps l l.
Proof. induction l; constructor; auto. Qed.
Lemma keeps_trans a b c : keeps a b -> keeps b c -> keeps a c.
Proof. intros H. revert c. induction H as [|x y a b (K & G) H IH]; intros c H2; inversion H2 as [|y' z b' c' (K2 & G2) H3]; subst; constructor; [|apply IH; assumption]. split; [congruence|]. intros X. rewrite G2 by congruence. apply G, X. Qed.
Lemma keeps_map f l : (forall x, rok (f x) = rok x /\ (rok x = false -> rgen (f x) = rgen x)) -> keeps l (map f l).
Proof. intros H. induction l; constructor; auto. Qed.
Lemma keeps_seen l : keeps l (map seen l).
Proof. apply keeps_map. auto. Qed.
Lemma keeps_feeds n l : keeps l (map (feeds n) l).
Proof. apply keeps_map. intros x. split; [apply feeds_ok_flag|apply feeds_off]. Qed.
Lemma keeps_app a a' b b' : keeps a a' -> keeps b b' -> keeps (a ++ b) (a' ++ b').
Proof. apply Forall2_app. Qed.
Lemma repl_keys_keeps i : forall ks r b r' b' n, repl_keys i ks r b = Ok (r', b', n) -> rok r' = rok r /\ keeps b b'.
Proof.
  induction ks as [|k ks IH]; intros r b r' b' n E; cbn [repl_keys] in E; [injection E as <- <- <-; auto using keeps_refl|]. destruct (nth_error b i) as [j|]; [|discriminate]. cbn [of_opt bind] in E.
  destruct (tget (rgen r) k); [eapply IH, E|]. destruct (tset (rgen r) k (tget (rgen j) k)) as [g m]. destruct (repl_keys i ks (with_gen r g) (map (feeds m) b)) as [[[r1 b1] n1]| |] eqn:E1; try discriminate. cbn [bind] in E. injection E as <- <- <-.
  destruct (IH _ _ _ _ _ E1) as (K & H). split; [exact K|]. eapply keeps_trans; [apply keeps_feeds|exact H].
Qed.
Lemma repl_rest_keeps : forall todo i r b r' b' n, repl_rest todo i r b = Ok (r', b', n) -> rok r' = rok r /\ keeps b b'.
Proof.
  induction todo as [|todo IH]; intros i r b r' b' n E; cbn [repl_rest] in E; [injection E as <- <- <-; auto using keeps_refl|]. destruct (nth_error b i) as [j|]; [|discriminate]. cbn [of_opt bind] in E.
  assert (S1 : exists r1 b1 n1, (if rok j then let! ks := rkeys (rgen j) in repl_keys i (map fst ks) r b else Ok (r, b, [])) = Ok (r1, b1, n1) /\ rok r1 = rok r /\ keeps b b1).
  { destruct (rok j); [|exists r, b, []; auto using keeps_refl]. destruct (rkeys (rgen j)) as [ks| |]; try discriminate. cbn [bind] in *. destruct (repl_keys i (map fst ks) r b) as [[[r1 b1] n1]| |] eqn:E1; try discriminate. exists r1, b1, n1. split; [reflexivity|]. eapply repl_keys_keeps, E1. }
  destruct S1 as (r1 & b1 & n1 & E1 & K1 & H1). rewrite E1 in E. cbn [bind] in E. destruct (repl_rest todo (S i) r1 b1) as [[[r2 b2] n2]| |] eqn:E2; try discriminate. cbn [bind] in E. injection E as <- <- <-. destruct (IH _ _ _ _ _ _ E2) as (K & H). split; [congruence|]. eapply keeps_trans; eassumption.
Qed.
Lemma replicate_keeps l l' n : replicate l = Ok (l', n) -> keeps l l'.
Proof.
  unfold replicate. intros E. pose proof (first_ok_spec l) as Fs. destruct (first_ok l) as [a [[r b]|]].
  - destruct Fs as (a0 & r0 & -> & -> & -> & K & Fa). unfold repl_first in E. destruct (rkeys (rgen (seen r0))) as [ks| |]; try discriminate. cbn [bind] in E.
    destruct (repl_rest _ _ _ _) as [[[r2 b2] n2]| |] eqn:E2 in E; try discriminate. cbn [bind] in E. injection E as <- <-. destruct (repl_rest_keeps _ _ _ _ _ _ _ E2) as (K2 & H2). apply keeps_app; [apply keeps_seen|].
    constructor; [split; [exact K2|congruence]|]. eapply keeps_trans; [apply keeps_seen|]. eapply keeps_trans; [apply keeps_feeds|exact H2].
  - destruct Fs as [-> _]. injection E as <- <-. apply keeps_seen.
Qed.
Lemma keeps_flags l l' : keeps l l' -> okflags l' = okflags l.
Proof. induction 1 as [|x y a b (K & _) H IH]; [reflexivity|]. unfold okflags in *. cbn [map]. congruence. Qed.

(** ** The calls *)
Definition sound (l : list rep) : Prop := Forall rwf l /\ synced l.
(** What replicating leaves: [m] is what it holds then. *)
Definition settled (m : contents) (l : list rep) : Prop := Forall rwf l /\ calm l /\ synced l /\ forall x, In x l -> rok x = true -> agree (con x) m.
Definition covers (m : contents) (n : list notif) : Prop := (forall q w, In (q, w) n -> Forall plain q /\ w <> None /\ (q <> [] -> m q = w)) /\ (forall q, Forall plain q -> q <> [] -> m q <> None -> touched n q).
Lemma settled_was m l : Forall rwf l -> Forall (fun x => was_ok x = rok x) l -> (forall x, In x l -> rok x = true -> agree (con x) m) -> settled m l.
Proof.
  intros W F A. rewrite Forall_forall in F. split; [exact W|]. split; [apply Forall_forall; intros x Hx; unfold came_back; rewrite (F x Hx); destruct (rok x); reflexivity|]. split; [|exact A].
  intros x y Hx Hy Wx Wy. rewrite F in Wx, Wy by assumption. eapply agree_trans; [apply A; assumption|apply agree_sym, A; assumption].
Qed.
Lemma replicate_settled l : Forall rwf l -> exists l' n, replicate l = Ok (l', n) /\ settled (stacked (map offers l)) l' /\ keeps l l' /\ covers (stacked (map offers l)) n.
Proof.
  intros W. destruct (replicate_ok l W) as (l' & n & E & W' & Of & Ws & A & T & Al). exists l', n. split; [exact E|]. split; [apply settled_was; assumption|]. split; [eapply replicate_keeps, E|]. split; assumption.
Qed.
Lemma stacked_agree m l : (forall x, In x l -> rok x = true -> agree (con x) m) -> (exists x, In x l /\ rok x = true) -> agree (stacked (map offers l)) m.
Proof.
  intros A (x & Hx & K) q P N. induction l as [|y l IH]; [contradiction|]. cbn [map stacked]. unfold offers at 1. destruct (rok y) eqn:Ky.
  - pose proof (A y (or_introl eq_refl) Ky q P N) as E. rewrite E. destruct (m q) eqn:Em; [reflexivity|]. clear IH Hx. destruct (stacked (map offers l) q) eqn:S; [|reflexivity]. exfalso.
    assert (G : stacked (map offers l) q = None); [|congruence]. clear S E. induction l as [|z l IH]; [reflexivity|]. cbn [map stacked]. unfold offers at 1. destruct (rok z) eqn:Kz.
    + rewrite (A z (or_intror (or_introl eq_refl)) Kz q P N), Em. apply IH. intros w [<-|Hw]; apply A; cbn; auto.
    + cbn. apply IH. intros w [<-|Hw]; apply A; cbn; auto.
  - cbn. destruct Hx as [<-|Hx]; [congruence|]. apply IH; [|exact Hx]. intros z Hz. apply A. right. exact Hz.
Qed.
Lemma catch_up_ok l : sound l -> exists l' n, catch_up l = Ok (l', n) /\ settled (stacked (map offers l)) l' /\ keeps l l' /\ (n = [] /\ l' = l \/ covers (stacked (map offers l)) n).
Proof.
  intros (W & Sy). unfold catch_up. destruct (existsb came_back l) eqn:Eb.
  - set (f := fun r => if came_back r then seen r else r). assert (W1 : Forall rwf (map f l)) by (rewrite Forall_map; eapply Forall_impl; [|exact W]; intros x Wx; unfold f; destruct (came_back x); exact Wx).
    assert (Eo : map offers (map f l) = map offers l) by (rewrite map_map; apply map_ext; intros x; unfold f; destruct (came_back x); reflexivity).
    destruct (replicate_settled _ W1) as (l' & n & E & S & K & C). rewrite Eo in *. exists l', n. split; [exact E|]. split; [exact S|]. split; [|right; exact C].
    eapply keeps_trans; [|exact K]. apply keeps_map. intros x. unfold f. destruct (came_back x); auto.
  - assert (C : calm l). { apply Forall_forall. intros x Hx. destruct (came_back x) eqn:Ex; [|reflexivity]. assert (existsb came_back l = true) by (apply existsb_exists; eauto). congruence. }
    exists l, []. split; [reflexivity|]. split; [|split; [apply keeps_refl|left; auto]]. split; [exact W|]. split; [exact C|]. split; [exact Sy|]. intros x Hx K. apply agree_sym. apply stacked_agree; [|eauto].
    intros y Hy Ky. apply Sy; try assumption; eapply calm_was; eassumption.
Qed.
(** Asking the generators whether they are in order, when none came back *)
Lemma seen_some l l' : calm l -> synced l -> Forall2 (fun x x' => x' = x \/ x' = seen x) l l' -> calm l' /\ synced l'.
Proof.
  intros C Sy F. assert (G : forall x', In x' l' -> exists x, In x l /\ (x' = x \/ x' = seen x)) by (induction F as [|x x' l l' H F IH]; [intros ? []|]; intros y [<-|Hy]; [exists x; cbn; auto|]; destruct (IH (Forall_inv_tail C)) with (x' := y) as (z & Hz & E); [intros a b Ha Hb; apply Sy; right; assumption|exact Hy|]; exists z; cbn; auto).
  split.
  - apply Forall_forall. intros x' Hx. destruct (G x' Hx) as (x & Hi & [->| ->]); [unfold calm in C; rewrite Forall_forall in C; auto|]. unfold came_back, seen. cbn. destruct (rok x); reflexivity.
  - assert (G2 : forall x', In x' l' -> was_ok x' = true -> exists x, In x l /\ was_ok x = true /\ rgen x' = rgen x).
    { intros x' Hx Wx. destruct (G x' Hx) as (x & Hi & [->| ->]); exists x; (split; [exact Hi|]; split; [|reflexivity]); [exact Wx|]. cbn in Wx. eapply calm_was; eassumption. }
    intros x y Hx Hy Wx Wy. destruct (G2 x Hx Wx) as (x0 & Hx0 & Wx0 & ->). destruct (G2 y Hy Wy) as (y0 & Hy0 & Wy0 & ->). apply Sy; assumption.
Qed.
Lemma first_ok_seen l a r b : first_ok l = (a, Some (r, b)) -> Forall2 (fun x x' => x' = x \/ x' = seen x) l (a ++ r :: b).
Proof.
  intros E. pose proof (first_ok_spec l) as Fs. rewrite E in Fs. destruct Fs as (a0 & r0 & -> & -> & -> & _). clear E. apply Forall2_app; [induction a0; constructor; auto|]. constructor; [auto|]. induction b; constructor; auto.
Qed.
Lemma first_ok_none l a : first_ok l = (a, None) -> a = map seen l /\ Forall (fun x => rok x = false) l.
Proof. intros E. pose proof (first_ok_spec l) as Fs. rewrite E in Fs. exact Fs. Qed.
Lemma seen_keeps l l' : Forall2 (fun x x' => x' = x \/ x' = seen x) l l' -> keeps l l'.
Proof. induction 1 as [|x x' l l' H F IH]; [constructor|]. constructor; [destruct H as [->| ->]; auto|exact IH]. Qed.
Lemma map_seen2 l : Forall2 (fun x x' => x' = x \/ x' = seen x) l (map seen l).
Proof. induction l; constructor; auto. Qed.
Lemma settled_seen m l l' : settled m l -> Forall2 (fun x x' => x' = x \/ x' = seen x) l l' -> settled m l'.
Proof.
  intros (W & C & Sy & A) F. destruct (seen_some _ _ C Sy F) as (C' & S').
  assert (G : forall x', In x' l' -> exists x, In x l /\ rgen x' = rgen x /\ rok x' = rok x) by (clear -F; induction F as [|x x' l l' H F IH]; [intros ? []|]; intros y [<-|Hy]; [exists x; destruct H as [->| ->]; cbn; auto|destruct (IH y Hy) as (z & Hz & E); exists z; cbn; auto]).
  split; [|split; [exact C'|split; [exact S'|]]].
  - apply Forall_forall. intros x Hx. destruct (G x Hx) as (y & Hy & E & _). unfold rwf. rewrite E. rewrite Forall_forall in W. apply W, Hy.
  - intros x Hx K. destruct (G x Hx) as (y & Hy & E & K'). rewrite E. apply A; [exact Hy|congruence].
Qed.
(** ** Following the notifications *)
Lemma replay_all n M q v : (forall q0 w, In (q0, w) n -> same q0 q = true -> w = v) -> (touched n q -> replay n M q = v) /\ (~ touched n q -> replay n M q = M q).
Proof.
  intros H. assert (G : forall l M0, (forall x, In x l -> In x n) -> (touched l q -> replay l M0 q = v) /\ (M0 q = v -> replay l M0 q = v) /\ (~ touched l q -> replay l M0 q = M0 q)).
  { induction l as [|[q1 w1] l IH]; intros M0 Hl.
    - split; [intros (q0 & w & [] & _)|]. split; auto.
    - destruct (IH (note M0 (q1, w1))) as (I1 & I2 & I3); [intros x Hx; apply Hl; right; exact Hx|]. assert (E1 : same q1 q = true -> w1 = v) by (apply H, Hl; left; reflexivity).
      cbn [replay fold_left]. change (fold_left note l (note M0 (q1, w1)) q) with (replay l (note M0 (q1, w1)) q).
      assert (N : note M0 (q1, w1) q = if same q1 q then w1 else M0 q) by reflexivity. split; [|split].
      + intros (q0 & w & [X|Hi] & S); [|apply I1; exists q0, w; auto]. injection X as -> ->. apply I2. rewrite N, S. apply E1, S.
      + intros E. apply I2. rewrite N. destruct (same q1 q); auto.
      + intros X. rewrite I3 by (intros (q0 & w & Hi & S); apply X; exists q0, w; split; [right; exact Hi|exact S]). rewrite N. destruct (same q1 q) eqn:S; [|reflexivity]. elim X. exists q1, w1. split; [left; reflexivity|exact S]. }
  destruct (G n M (fun x h => h)) as (G1 & _ & G3). auto.
Qed.
Lemma stacked_folded l : Forall rwf l -> folded (stacked (map offers l)).
Proof.
  intros W k k' P P' S. induction W as [|x l Wx W IH]; [reflexivity|]. cbn [map stacked]. rewrite IH. assert (E : offers x k = offers x k') by (unfold offers; destruct (rok x); [apply has_folded; assumption|reflexivity]). rewrite E. reflexivity.
Qed.
Lemma stacked_none l x q : In x l -> rok x = true -> stacked (map offers l) q = None -> con x q = None.
Proof.
  intros Hx K. induction l as [|y l IH]; [contradiction|]. cbn [map stacked]. destruct Hx as [->|Hx]; [unfold offers at 1; rewrite K; destruct (con x q); [discriminate|reflexivity]|]. destruct (offers y q); [discriminate|]. apply IH, Hx.
Qed.
(** Someone who knew what a generator held that was in order knows [m] after [n]. *)
Definition follows (l : list rep) (n : list notif) (m : contents) : Prop := forall M x, In x l -> rok x = true -> was_ok x = true -> agree M (con x) -> agree (replay n M) m.
Lemma same_nonroot k q : same k q = true -> q <> [] -> k <> [].
Proof. intros S N ->. destruct q; [congruence|]. discriminate. Qed.
Lemma covers_follows l n : Forall rwf l -> covers (stacked (map offers l)) n -> follows l n (stacked (map offers l)).
Proof.
  intros W (T & A) M x Hx K _ E q P N. destruct (replay_all n M q (stacked (map offers l) q)) as (R1 & R2).
  { intros q0 w Hi S. destruct (T q0 w Hi) as (P0 & _ & E0). rewrite <- E0 by (eapply same_nonroot; eassumption). apply stacked_folded; assumption. }
  destruct (touched_dec n q) as [X|X]; [apply R1, X|]. rewrite R2 by exact X. destruct (stacked (map offers l) q) eqn:Es; [elim X; apply A; congruence|]. rewrite (E q P N). eapply stacked_none; eassumption.
Qed.
Lemma follows_agree l n m m' : agree m m' -> follows l n m -> follows l n m'.
Proof. intros A F M x Hx K Wk E. eapply agree_trans; [eapply F; eassumption|exact A]. Qed.
Lemma set_key_agree m m' kv : agree m m' -> agree (set_key m kv) (set_key m' kv).
Proof. intros A q P N. destruct kv as [k v]. cbn [set_key]. pose proof (A q P N) as E. destruct (slashed k), v; unfold set_spec; rewrite ?E; try reflexivity; exact E. Qed.
Lemma settled_agree m m' l : agree m m' -> settled m l -> settled m' l.
Proof. intros E (W & C & S & A). repeat (split; [assumption|]). intros x Hx K. eapply agree_trans; [apply A; assumption|exact E]. Qed.
Lemma settled_sound m l : settled m l -> sound l /\ calm l.
Proof. intros (W & C & S & _). split; [split; assumption|exact C]. Qed.
Lemma keeps_in l l' x' : keeps l l' -> In x' l' -> exists x, In x l /\ rok x' = rok x.
Proof. induction 1 as [|x y l l' (K & _) H IH]; [intros []|]. intros [<-|Hx]; [exists x; cbn; auto|]. destruct (IH Hx) as (z & Hz & E). exists z. cbn. auto. Qed.
Lemma set_in_settled a r b k v l' n : Forall rwf (a ++ r :: b) -> calm (a ++ r :: b) -> synced (a ++ r :: b) -> rok r = true -> canonical k -> set_in a r b k v = (l', n) ->
  settled (set_key (con r) (k, v)) l' /\ keeps (a ++ r :: b) l' /\ follows (a ++ r :: b) n (set_key (con r) (k, v)).
Proof.
  intros W C Sy K Ck E. destruct (set_in_ok a r b k v l' n W C Sy K Ck E) as (W' & C' & S' & Of & T & Hs & A).
  assert (Ag : agree (has (fst (tset (rgen r) k v))) (set_key (con r) (k, v))) by (intros q P N; apply Hs, P). assert (Hin : In r (a ++ r :: b)) by (apply in_app_iff; right; left; reflexivity).
  assert (Wr : rwf r) by (rewrite Forall_forall in W; auto). split; [|split].
  - repeat (split; [assumption|]). intros x Hx Kx. eapply agree_trans; [apply A; assumption|exact Ag].
  - unfold set_in in E. destruct (tset (rgen r) k v) as [g n1]. injection E as <- <-. apply keeps_app; [apply keeps_feeds|]. constructor; [unfold source; destruct n1; cbn; split; congruence|apply keeps_feeds].
  - eapply follows_agree; [exact Ag|]. intros M x Hx Kx Wx Em q P N. destruct (tset (rgen r) k v) as [g n1] eqn:Et. assert (n1 = n) as -> by (unfold set_in in E; rewrite Et in E; injection E as _ <-; reflexivity). cbn [fst] in *.
    rewrite <- (tells_replay g (con r) n q (proj1 (tset_ok _ _ _ _ _ Wr Ck Et)) T P). apply replay_ext. rewrite (Em q P N). apply (Sy x r Hx Hin Wx (calm_was _ r C Hin K) q P N).
Qed.
Lemma rep_get_ok l k : sound l -> exists l' n v, rep_get l k = Ok (l', n, v) /\ settled (stacked (map offers l)) l' /\ keeps l l' /\ follows l n (stacked (map offers l)) /\
  (canonical k -> named k <> [] -> v = if slashed k then None else stacked (map offers l) k).
Proof.
  intros So. destruct (catch_up_ok l So) as (l1 & n & E & St & K & Fo). unfold rep_get. rewrite E. cbn [bind].
  assert (F : follows l n (stacked (map offers l))).
  { destruct Fo as [(-> & ->)|C]; [|apply covers_follows; [apply So|exact C]]. intros M x Hx Kx _ A. eapply agree_trans; [exact A|]. apply St; assumption. }
  destruct (first_ok l1) as [a [[r b]|]] eqn:Ef.
  - exists (a ++ r :: b), n, (tget (rgen r) k). pose proof (first_ok_seen _ _ _ _ Ef) as Fs. pose proof (settled_seen _ _ _ St Fs) as St'. split; [reflexivity|]. split; [exact St'|]. split; [eapply keeps_trans; [exact K|apply seen_keeps, Fs]|]. split; [exact F|].
    intros C N. rewrite tget_has by exact C. destruct (slashed k) eqn:Es; [reflexivity|]. assert (P : Forall plain k) by (destruct C as [P|(k' & _ & P & ->)]; [exact P|]; destruct (trailing_slashed k' P); congruence).
    destruct St' as (_ & _ & _ & A). apply (A r); [apply in_app_iff; right; left; reflexivity| |exact P|intros ->; apply N; reflexivity]. pose proof (first_ok_spec l1) as X. rewrite Ef in X. destruct X as (a0 & r0 & _ & _ & -> & Kr & _). exact Kr.
  - exists a, n, None. destruct (first_ok_none _ _ Ef) as (-> & Fn). split; [reflexivity|]. split; [apply (settled_seen _ _ _ St (map_seen2 l1))|]. split; [eapply keeps_trans; [exact K|apply keeps_seen]|]. split; [exact F|].
    intros C N. destruct (slashed k); [reflexivity|]. symmetry. apply stacked_off. apply Forall_forall. intros x Hx. destruct (In_nth_error _ _ Hx) as (p & Hp). destruct (f2_nth _ _ _ _ _ K Hp) as (y & Hy & Ky & _). rewrite <- Ky. rewrite Forall_forall in Fn. apply Fn. eapply nth_error_In, Hy.
Qed.
Lemma rep_set_ok l k v : sound l -> canonical k -> exists l' n, rep_set l k v = Ok (l', n) /\ settled (set_key (stacked (map offers l)) (k, v)) l' /\ keeps l l' /\ follows l n (set_key (stacked (map offers l)) (k, v)).
Proof.
  intros So Ck. destruct (catch_up_ok l So) as (l1 & n & E & St & K & Fo). unfold rep_set. rewrite E. cbn [bind].
  assert (F : follows l n (stacked (map offers l))).
  { destruct Fo as [(-> & ->)|C]; [|apply covers_follows; [apply So|exact C]]. intros M x Hx Kx _ A. eapply agree_trans; [exact A|]. apply St; assumption. }
  destruct (first_ok l1) as [a [[r b]|]] eqn:Ef.
  - pose proof (first_ok_seen _ _ _ _ Ef) as Fs. destruct (settled_seen _ _ _ St Fs) as (W & C & Sy & A). destruct (set_in a r b k v) as [l2 m] eqn:Es. exists l2, (n ++ m). split; [reflexivity|].
    assert (Kr : rok r = true) by (pose proof (first_ok_spec l1) as X; rewrite Ef in X; destruct X as (a0 & r0 & _ & _ & -> & Kr & _); exact Kr). assert (Hin : In r (a ++ r :: b)) by (apply in_app_iff; right; left; reflexivity).
    destruct (set_in_settled a r b k v l2 m W C Sy Kr Ck Es) as (St2 & K2 & F2). pose proof (A r Hin Kr) as Ar. split; [eapply settled_agree; [apply set_key_agree, Ar|exact St2]|]. split; [eapply keeps_trans; [exact K|]; eapply keeps_trans; [apply seen_keeps, Fs|exact K2]|].
    intros M x Hx Kx Wx Em. rewrite replay_app. eapply agree_trans; [|apply set_key_agree, Ar]. apply (F2 _ r Hin Kr); [eapply calm_was; eassumption|]. eapply agree_trans; [eapply F; eassumption|apply agree_sym, Ar].
  - destruct (first_ok_none _ _ Ef) as (-> & Fn). exists (map seen l1), n. split; [reflexivity|]. pose proof (settled_seen _ _ _ St (map_seen2 l1)) as (W & C & Sy & _). split; [|split; [eapply keeps_trans; [exact K|apply keeps_seen]|]].
    + repeat (split; [assumption|]). intros x Hx Kx. apply in_map_iff in Hx. destruct Hx as (y & <- & Hy). rewrite Forall_forall in Fn. cbn in Kx. rewrite (Fn y Hy) in Kx. discriminate.
    + intros M x Hx Kx. exfalso. apply In_nth_error in Hx. destruct Hx as (p & Hp). destruct (f2_nth _ _ _ _ _ K Hp) as (y & Hy & Ky & _). rewrite Forall_forall in Fn. rewrite (Fn y) in Ky by (eapply nth_error_In, Hy). congruence.
Qed.
