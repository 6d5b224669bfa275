(** What follows from the layout. *)
From Verif Require Import Base EncoderModel WrapModel WrapSpec WrapProofs.
Local Open Scope nat_scope.

(** ** Histories *)
Lemma texts_plain calls : forall cur, Forall (fun c => snd c = false) calls -> texts cur calls = [cur ++ fed calls].
Proof.
  induction calls as [|[t f] calls IH]; intros cur H; inversion H as [|x y H1 H2]; subst; cbn [texts].
  - unfold fed. cbn. rewrite app_nil_r. reflexivity.
  - cbn in H1. subst f. rewrite IH by exact H2. unfold fed. cbn. rewrite app_assoc. reflexivity.
Qed.
Lemma wrap_call m s t f s' o : wloop m s t = Ok (s', o) ->
  exists b, enc_do_encode (wrap m) (@Est (wrap m) true false s) t f false =
    Ok (@Est (wrap m) true false (if f then fst (flushline s') else s'), [], o ++ (if f then line s' else []), b).
Proof.
  intros H. unfold enc_do_encode. cbn [okay finished andb negb st]. destruct t as [|c t].
  - cbn in H. inversion H; subst. destruct f; cbn; eexists; [|reflexivity]. reflexivity.
  - cbn [andb negb orb]. cbn [enc_encode wrap]. unfold wrap_encode. rewrite H. destruct f; cbn; eexists; reflexivity.
Qed.
Lemma feed_laid m : 1 <= m -> forall calls col cur s o, wloop m (Wst col [] 0 false) cur = Ok (s, o) ->
  exists s' out bs, feed (wrap m) (@Est (wrap m) true false s) [] (calls ++ [([], true)]) = Ok (s', [], out, bs) /\ all_laid m col (texts cur calls) (o ++ out).
Proof.
  intros M. induction calls as [|[t f] calls IH]; intros col cur s o H; cbn [app feed texts].
  - destruct (wloop_laid m M (length cur) cur col (le_n _)) as (s1 & o1 & col' & E & Ld & _). rewrite H in E. inversion E; subst s1 o1.
    destruct (wrap_call m s [] true s [] eq_refl) as (b & Eb). rewrite Eb. cbn [bind]. eexists _, _, _. split; [reflexivity|]. cbn [app]. rewrite app_nil_r.
    rewrite <- (app_nil_r (o ++ line s)). econstructor; [exact Ld|constructor].
  - destruct (wloop_laid m M (length (cur ++ t)) (cur ++ t) col (le_n _)) as (s1 & o1 & col' & E & Ld & Wd). rewrite wloop_app, H in E. cbn [bind] in E.
    destruct (wloop m s t) as [[s2 o2]| |] eqn:E2; cbn [bind] in E; try discriminate. inversion E; subst s1 o1. destruct (wrap_call m s t f s2 o2 E2) as (b & Eb). rewrite Eb. cbn [bind].
    destruct f.
    + destruct (IH (width s2) [] (Wst (width s2) [] 0 false) [] eq_refl) as (s' & out & bs & F & A). cbn [flushline fst]. rewrite F. cbn [bind]. eexists _, _, _. split; [reflexivity|].
      rewrite <- app_assoc, app_assoc, app_assoc. econstructor; [exact Ld|]. cbn [app] in A. rewrite <- Wd. exact A.
    + destruct (IH col (cur ++ t) s2 (o ++ o2)) as (s' & out & bs & F & A); [rewrite wloop_app, H; cbn [bind]; rewrite E2; reflexivity|]. rewrite F. cbn [bind]. eexists _, _, _. split; [reflexivity|].
      rewrite app_nil_r, app_assoc. exact A.
Qed.

(** ** The layout is the only one *)
Lemma pre_unique (P : byte -> bool) a : forall a' x x', (forall c, In c a -> P c = true) -> (forall c, In c a' -> P c = true) ->
  match x with [] => True | c :: _ => P c = false end -> match x' with [] => True | c :: _ => P c = false end -> a ++ x = a' ++ x' -> a = a' /\ x = x'.
Proof.
  induction a as [|c a IH]; intros [|c' a'] x x' A A' X X' E; cbn [app] in E.
  - auto.
  - subst x. rewrite (A' c' (or_introl eq_refl)) in X. discriminate.
  - subst x'. rewrite (A c (or_introl eq_refl)) in X'. discriminate.
  - inversion E; subst c'. destruct (IH a' x x') as [-> ->]; auto; [intros; apply A; right; assumption|intros; apply A'; right; assumption].
Qed.
Lemma blanks_app a b : blanks (a ++ b) <-> blanks a /\ blanks b.
Proof. unfold blanks. setoid_rewrite in_app_iff. split; [intros H; split; auto|intros [H1 H2] c [I|I]; auto]. Qed.
Lemma app_len {A} (p : list A) : forall p' x y, length p = length p' -> p ++ x = p' ++ y -> p = p' /\ x = y.
Proof.
  induction p as [|c p IH]; intros [|c' p'] x y L E; cbn in *; try discriminate; [auto|]. inversion E; subst. destruct (IH p' x y) as [-> ->]; auto.
Qed.
Lemma pieces_fun m w ps ps' : 1 <= m -> pieces m w ps -> pieces m w ps' -> ps = ps'.
Proof.
  intros M (E & a & b & -> & F & Bl) (E' & a' & b' & -> & F' & Bl'). rewrite <- E in E'. clear E w. revert a' F' E'. induction a as [|p a IH]; intros [|p' a'] F' E'.
  - cbn in E'. rewrite !app_nil_r in E'. congruence.
  - exfalso. apply (f_equal (@length _)) in E'. cbn in E'. rewrite app_nil_r, concat_app, !app_length in E'. cbn in E'. rewrite app_nil_r in E'. inversion F'; subst. lia.
  - exfalso. apply (f_equal (@length _)) in E'. cbn in E'. rewrite app_nil_r, concat_app, !app_length in E'. cbn in E'. rewrite app_nil_r in E'. inversion F; subst. lia.
  - inversion F as [|x y F1 F2]; subst. inversion F' as [|x y F1' F2']; subst. cbn in E'. destruct (app_len p' p _ _ F1' E') as [-> X]. cbn [app]. f_equal. apply IH; auto.
Qed.
Lemma mono_blanks r : forall k, blanks r -> k <= advances k r.
Proof. intros k H. pose proof (advances_ge r k H). lia. Qed.
(** [laid] by the blanks at the beginning *)
Definition shape (m col : nat) (ws r o : bytes) (col' : nat) : Prop :=
  (r = [] /\ exists a b, ws = a ++ b /\ (a = [] \/ advances col a <= m) /\ (b = [] \/ exists c x, b = c :: x /\ m < advances col (a ++ [c])) /\ o = a /\ col' = advances col ws) \/
  (exists t o', r = newline :: t /\ laid m 0 t o' col' /\ o = newline :: o') \/
  (exists w t o', r = w ++ t /\ a_word w /\ ends_word t /\
    ((advances col (ws ++ w) <= m /\ laid m (advances col (ws ++ w)) t o' col' /\ o = ws ++ w ++ o') \/
     (m < advances col (ws ++ w) /\ ws <> [] /\ exists ps, pieces m w ps /\ laid m (length (last ps [])) t o' col' /\ o = newline :: on_lines ps ++ o') \/
     (m < advances col (ws ++ w) /\ ws = [] /\ exists p q ps, w = p ++ q /\ length p = m - col /\ pieces m q ps /\ laid m (length (last ps [])) t o' col' /\ o = p ++ newline :: on_lines ps ++ o'))).
Lemma laid_shape m col t o col' : laid m col t o col' -> exists ws r, t = ws ++ r /\ blanks ws /\ shape m col ws r o col'.
Proof.
  intros H. destruct H as [col a b|col ws t o col'|col ws w t o col'|col ws w ps t o col'|col p q ps t o col'].
  - exists (a ++ b), []. rewrite app_nil_r. split; [reflexivity|]. split; [assumption|]. left. split; [reflexivity|]. exists a, b. auto.
  - exists ws, (newline :: t). split; [reflexivity|]. split; [assumption|]. right; left. eauto.
  - exists ws, (w ++ t). split; [reflexivity|]. split; [assumption|]. right; right. exists w, t, o. split; [reflexivity|]. auto 6.
  - exists ws, (w ++ t). split; [reflexivity|]. split; [assumption|]. right; right. exists w, t, o. split; [reflexivity|]. split; [assumption|]. split; [assumption|]. right; left. eauto 8.
  - exists [], (p ++ q ++ t). split; [reflexivity|]. split; [intros c []|]. right; right. exists (p ++ q), t, o. rewrite <- app_assoc. split; [reflexivity|]. split; [assumption|]. split; [assumption|]. right; right. split; [assumption|]. split; [reflexivity|]. exists p, q, ps. auto 6.
Qed.
Lemma shape_start m col ws r o col' : shape m col ws r o col' -> match r with [] => True | c :: _ => is_blank c = false end.
Proof.
  intros [(-> & _)|[(t & o' & -> & _)|(w & t & o' & -> & [N W] & _)]]; [exact I|reflexivity|]. destruct w as [|c w]; [congruence|]. cbn. specialize (W c (or_introl eq_refl)). unfold is_sep in W. apply orb_false_iff in W. apply W.
Qed.
Lemma word_not_nl w t x : a_word w -> w ++ t = newline :: x -> False.
Proof. intros [N W] E. destruct w as [|c w]; [congruence|]. inversion E; subst c. specialize (W newline (or_introl eq_refl)). discriminate. Qed.
Lemma end_unique m col a a' b b' : blanks (a ++ b) -> a ++ b = a' ++ b' ->
  (a = [] \/ advances col a <= m) -> (b = [] \/ exists c x, b = c :: x /\ m < advances col (a ++ [c])) ->
  (a' = [] \/ advances col a' <= m) -> (b' = [] \/ exists c x, b' = c :: x /\ m < advances col (a' ++ [c])) -> a = a'.
Proof.
  assert (X : forall a a' b b' l, blanks (a ++ b) -> a' = a ++ l -> b = l ++ b' -> (b = [] \/ exists c x, b = c :: x /\ m < advances col (a ++ [c])) -> (a' = [] \/ advances col a' <= m) -> a = a').
  { intros x x' y y' l Bl -> -> H1 H2. destruct l as [|c l]; [rewrite app_nil_r; reflexivity|exfalso]. destruct H2 as [H2|H2]; [destruct x; discriminate|].
    destruct H1 as [H1|(c' & z & E & H1)]; [discriminate|]. cbn in E. inversion E; subst c' z. change (c :: l) with ([c] ++ l) in H2. rewrite app_assoc, advances_app in H2.
    pose proof (mono_blanks l (advances col (x ++ [c]))) as Q. specialize (Q ltac:(intros d I; apply Bl; apply in_app_iff; right; right; apply in_app_iff; auto)). lia. }
  intros Bl E A1 B1 A2 B2. pose proof E as E0. apply app_eq_app in E. destruct E as [l [[-> ->]|[-> ->]]].
  - symmetry. apply (X a' (a' ++ l) (l ++ b) b l); auto. rewrite app_assoc. exact Bl.
  - apply (X a (a ++ l) (l ++ b') b' l); auto.
Qed.
Lemma laid_fun m : 1 <= m -> forall n t, length t <= n -> forall col o c o' c', laid m col t o c -> laid m col t o' c' -> o = o' /\ c = c'.
Proof.
  intros M. induction n as [n IH] using lt_wf_ind. intros t N col o c o' c' H H'.
  destruct (laid_shape _ _ _ _ _ H) as (ws & r & E & Bl & S). destruct (laid_shape _ _ _ _ _ H') as (ws' & r' & E' & Bl' & S'). rewrite E in E'.
  destruct (pre_unique is_blank ws ws' r r' Bl Bl' (shape_start _ _ _ _ _ _ S) (shape_start _ _ _ _ _ _ S') E') as [<- <-]. clear E' Bl'. subst t. rewrite app_length in N.
  destruct S as [(-> & a & b & E1 & E2 & E3 & -> & ->)|[(t & o1 & -> & L & ->)|(w & t & o1 & -> & W & ET & S)]];
  destruct S' as [(R & a' & b' & E1' & E2' & E3' & -> & ->)|[(t' & o1' & R & L' & ->)|(w' & t' & o1' & R & W' & ET' & S')]]; try discriminate.
  - split; [|reflexivity]. apply (end_unique m col a a' b b'); auto; [rewrite <- E1; exact Bl|congruence].
  - destruct W' as [NW _]. destruct w'; [congruence|discriminate].
  - inversion R; subst t'. cbn [length] in N. destruct (IH (length t) ltac:(lia) t (le_n _) 0 _ _ _ _ L L') as [-> ->]. auto.
  - exfalso. exact (word_not_nl _ _ _ W' (eq_sym R)).
  - destruct W as [NW _]. destruct w; [congruence|discriminate].
  - exfalso. exact (word_not_nl _ _ _ W R).
  - destruct (pre_unique (fun c => negb (is_sep c)) w w' t t') as [<- <-].
    + intros x I. rewrite (proj2 W x I). reflexivity.
    + intros x I. rewrite (proj2 W' x I). reflexivity.
    + destruct t; [exact I|]. cbn in ET. rewrite ET. reflexivity.
    + destruct t'; [exact I|]. cbn in ET'. rewrite ET'. reflexivity.
    + exact R.
    + assert (LT : length t < n). { rewrite app_length in N. destruct W as [NW _]. destruct w; [congruence|]. cbn in N. lia. }
      destruct S as [(K & L & ->)|[(K & NE & ps & P & L & ->)|(K & -> & p & q & ps & E1 & E2 & P & L & ->)]];
      destruct S' as [(K' & L' & ->)|[(K' & NE' & ps' & P' & L' & ->)|(K' & Ews & p' & q' & ps' & E1' & E2' & P' & L' & ->)]]; try lia; try congruence.
      * destruct (IH (length t) LT t (le_n _) _ _ _ _ _ L L') as [-> ->]. auto.
      * rewrite <- (pieces_fun m w ps ps' M P P') in *. destruct (IH (length t) LT t (le_n _) _ _ _ _ _ L L') as [-> ->]. auto.
      * rewrite E1 in E1'. destruct (app_len p p' q q' ltac:(congruence) E1') as [-> ->]. rewrite <- (pieces_fun m _ ps ps' M P P') in *. destruct (IH (length t) LT t (le_n _) _ _ _ _ _ L L') as [-> ->]. auto.
Qed.
