(** Width, words and blanks of a layout. *)
From Verif Require Import Base EncoderModel WrapModel WrapSpec WrapProofs WrapProofs2.
Local Open Scope nat_scope.

(** ** Width *)
Definition fits_from (m r : nat) (s : bytes) : Prop := forall a b, s = a ++ b -> advances r a <= m.
Lemma fits_app m r x y : fits_from m r x -> fits_from m (advances r x) y -> fits_from m r (x ++ y).
Proof.
  intros H1 H2 a b E. apply app_eq_app in E. destruct E as [l [[E1 E2]|[E1 E2]]].
  - apply (H1 a l E1).
  - subst a. rewrite advances_app. apply (H2 l b E2).
Qed.
Lemma fits_split m r x y : fits_from m r (x ++ y) -> fits_from m r x /\ fits_from m (advances r x) y.
Proof.
  intros H. split; intros a b E.
  - subst x. apply (H a (b ++ y)). rewrite app_assoc. reflexivity.
  - subst y. rewrite <- advances_app. apply (H (x ++ a) b). rewrite app_assoc. reflexivity.
Qed.
Lemma fits_nil m r : r <= m -> fits_from m r [].
Proof. intros H a b E. symmetry in E. apply app_eq_nil in E. destruct E as [-> _]. exact H. Qed.
Lemma fits_nl m r : r <= m -> fits_from m r [newline].
Proof. intros H a b E. destruct a as [|c [|d a]]; [exact H| |discriminate]. inversion E; subst. cbn. lia. Qed.
Lemma fits_ink m r w : ink_only w -> r + length w <= m -> fits_from m r w.
Proof. intros W H a b E. subst w. rewrite app_length in H. rewrite advances_word; [lia|]. intros c I. apply W, in_app_iff. auto. Qed.
Lemma fits_blanks m r w : blanks w -> advances r w <= m -> fits_from m r w.
Proof. intros W H a b E. subst w. rewrite advances_app in H. apply blanks_app in W. pose proof (mono_blanks b (advances r a) (proj2 W)). lia. Qed.
Lemma pieces_ink m w ps : ink_only w -> pieces m w ps -> Forall ink_only ps.
Proof. intros W (<- & _). apply Forall_forall. intros p I c J. apply W. apply in_concat. eauto. Qed.
Lemma advances_nl r s : advances r (newline :: s) = advances 0 s.
Proof. reflexivity. Qed.
Lemma lines_fit m w ps : ink_only w -> pieces m w ps -> fits_from m 0 (on_lines ps) /\ advances 0 (on_lines ps) = length (last ps []) /\ length (last ps []) <= m.
Proof.
  intros W P. pose proof (pieces_ink m w ps W P) as I. destruct P as (_ & a & b & -> & F & Bl). clear W w. rewrite last_last. split; [|split; [|lia]].
  - rewrite on_lines_app. induction a as [|p a IH]; inversion I as [|x y I1 I2]; subst; cbn [flat_map app].
    + apply fits_ink; [assumption|lia].
    + inversion F; subst. rewrite <- !app_assoc. apply fits_app; [apply fits_ink; [assumption|lia]|]. rewrite advances_word by assumption. apply fits_app; [apply fits_nl; lia|]. apply IH; assumption.
  - rewrite on_lines_app. induction a as [|p a IH]; inversion I as [|x y I1 I2]; subst; cbn [flat_map app].
    + apply advances_word. assumption.
    + inversion F; subst. rewrite <- !app_assoc, advances_app. cbn [app]. rewrite advances_nl. apply IH; assumption.
Qed.
Lemma laid_fits m col t o col' : laid m col t o col' -> forall r, r <= m -> (col <= m -> r = col) ->
  fits_from m r o /\ (col' <= m -> advances r o = col') /\ advances r o <= m.
Proof.
  assert (fin : forall r x, fits_from m r x -> advances r x <= m) by (intros r x H; apply (H x []); symmetry; apply app_nil_r).
  induction 1 as [col a b H A Bb|col ws t o col' H _ IH|col ws w t o col' H W ET K _ IH|col ws w ps t o col' H NE W ET K P _ IH|col p q ps t o col' W ET K Lp P _ IH]; intros r R C.
  - apply blanks_app in H. destruct H as [Ha Hb]. assert (Y : col <= advances col (a ++ b)) by (apply mono_blanks; rewrite blanks_app; auto). assert (X : fits_from m r a).
    { destruct A as [-> |A]; [apply fits_nil; exact R|]. pose proof (mono_blanks a col Ha). rewrite C by lia. apply fits_blanks; assumption. }
    split; [exact X|]. split; [|apply fin, X]. intros G. rewrite C by lia. destruct Bb as [-> |(c & x & -> & G')]; [rewrite app_nil_r; reflexivity|exfalso].
    change (c :: x) with ([c] ++ x) in G. rewrite app_assoc, advances_app in G. pose proof (mono_blanks x (advances col (a ++ [c]))) as Q. specialize (Q ltac:(intros d I; apply Hb; right; exact I)). lia.
  - destruct (IH 0 ltac:(lia) ltac:(lia)) as (F & E & G). split; [|auto]. apply (fits_app m r [newline] o); [apply fits_nl; exact R|exact F].
  - pose proof (mono_blanks ws col H). destruct W as [_ W]. assert (advances col (ws ++ w) = advances col ws + length w) by (rewrite advances_app; apply advances_word; exact W).
    rewrite C by lia. destruct (IH (advances col (ws ++ w)) K ltac:(auto)) as (F & E & G). rewrite !app_assoc, advances_app. split; [|auto]. apply fits_app; [|exact F]. apply fits_app; [apply fits_blanks; [exact H|lia]|apply fits_ink; [exact W|lia]].
  - destruct W as [_ W]. destruct (lines_fit m w ps W P) as (F1 & E1 & G1). destruct (IH (length (last ps [])) G1 ltac:(auto)) as (F & E & G). rewrite advances_nl, advances_app, E1. split; [|auto].
    apply (fits_app m r [newline]); [apply fits_nl; exact R|]. apply fits_app; [exact F1|]. change (advances r [newline]) with 0. rewrite E1. exact F.
  - destruct W as [_ W]. assert (Wp : ink_only p) by (intros c I; apply W, in_app_iff; auto). assert (Wq : ink_only q) by (intros c I; apply W, in_app_iff; auto).
    destruct (lines_fit m q ps Wq P) as (F1 & E1 & G1). destruct (IH (length (last ps [])) G1 ltac:(auto)) as (F & E & G). rewrite advances_app, advances_nl, advances_app, E1. split; [|auto].
    assert (Fp : fits_from m r p). { destruct p as [|c p]; [apply fits_nil; exact R|]. cbn [length] in Lp. apply fits_ink; [exact Wp|]. rewrite C by lia. cbn [length]. lia. }
    apply fits_app; [exact Fp|]. apply (fits_app m _ [newline]); [apply fits_nl, fin, Fp|]. rewrite advances_nl. change (advances 0 []) with 0. apply fits_app; [exact F1|]. rewrite E1. exact F.
Qed.
Lemma all_laid_fits m col ts o : all_laid m col ts o -> forall r, r <= m -> (col <= m -> r = col) -> fits_from m r o.
Proof.
  induction 1 as [col|col t ts o o' col' L _ IH]; intros r R C; [apply fits_nil; exact R|].
  destruct (laid_fits m col t o col' L r R C) as (F & E & G). apply fits_app; [exact F|]. apply IH; [exact G|exact E].
Qed.

(** ** Ink *)
Lemma ink_app a b : ink (a ++ b) = ink a ++ ink b.
Proof. apply filter_app. Qed.
Lemma ink_blanks ws : blanks ws -> ink ws = [].
Proof. induction ws as [|c ws IH]; intros H; [reflexivity|]. cbn. unfold is_sep. rewrite (H c (or_introl eq_refl)). cbn. apply IH. intros d I. apply H. right. exact I. Qed.
Lemma ink_lines ps : ink (on_lines ps) = ink (concat ps).
Proof.
  induction ps as [|p ps IH]; [reflexivity|]. destruct ps as [|q ps]; [cbn; rewrite app_nil_r; reflexivity|]. change (on_lines (p :: q :: ps)) with (p ++ newline :: on_lines (q :: ps)). change (concat (p :: q :: ps)) with (p ++ concat (q :: ps)).
  rewrite !ink_app. change (ink (newline :: on_lines (q :: ps))) with (ink (on_lines (q :: ps))). rewrite IH. reflexivity.
Qed.
Lemma laid_ink m col t o col' : laid m col t o col' -> ink o = ink t.
Proof.
  induction 1 as [col a b H A Bb|col ws t o col' H _ IH|col ws w t o col' H W ET K _ IH|col ws w ps t o col' H NE W ET K P _ IH|col p q ps t o col' W ET K Lp P _ IH].
  - apply blanks_app in H. rewrite ink_app, !ink_blanks; tauto.
  - rewrite ink_app, (ink_blanks ws H). exact IH.
  - rewrite !ink_app, IH. reflexivity.
  - change (ink (newline :: on_lines ps ++ o)) with (ink (on_lines ps ++ o)). rewrite !ink_app, (ink_blanks ws H), ink_lines, (proj1 P), IH. reflexivity.
  - rewrite !ink_app. change (ink (newline :: on_lines ps ++ o)) with (ink (on_lines ps ++ o)). rewrite ink_app, ink_lines, (proj1 P), IH. reflexivity.
Qed.
Lemma texts_ink calls : forall cur, ink (concat (texts cur calls)) = ink (cur ++ fed calls).
Proof.
  induction calls as [|[t f] calls IH]; intros cur; [reflexivity|]. cbn [texts]. change (fed ((t, f) :: calls)) with (t ++ fed calls). destruct f.
  - cbn [concat]. rewrite ink_app, IH, <- ink_app. cbn [app]. rewrite <- app_assoc. reflexivity.
  - rewrite IH, <- app_assoc. reflexivity.
Qed.
Lemma all_laid_ink m col ts o : all_laid m col ts o -> ink o = ink (concat ts).
Proof. induction 1 as [col|col t ts o o' col' L _ IH]; [reflexivity|]. cbn [concat]. rewrite !ink_app, IH, (laid_ink m col t o col' L). reflexivity. Qed.

(** ** Words *)
Lemma words_fun t ws : words t ws -> forall ws', words t ws' -> ws = ws'.
Proof.
  induction 1 as [|c t ws C _ IH|w t ws W ET _ IH]; intros ws' H.
  - inversion H as [| |w t ws [N _] _ _ E]; [reflexivity|]. destruct w; [congruence|discriminate].
  - inversion H as [|c' t' ws'' C' H' E|w t' ws'' [N W] ET H' E]; subst; [apply IH; assumption|]. destruct w as [|d w]; [congruence|]. inversion E; subst d. rewrite (W c (or_introl eq_refl)) in C. discriminate.
  - inversion H as [E0 E1|c' t' ws'' C' H' E E1|w' t' ws'' W' ET' H' E E1]; subst.
    + destruct W as [N _]. destruct w; [congruence|discriminate].
    + destruct W as [N W]. destruct w as [|d w]; [congruence|]. inversion E; subst d. rewrite (W c' (or_introl eq_refl)) in C'. discriminate.
    + destruct (pre_unique (fun c => negb (is_sep c)) w' w t' t) as [-> ->].
      * intros x I. rewrite (proj2 W' x I). reflexivity.
      * intros x I. rewrite (proj2 W x I). reflexivity.
      * destruct t'; [exact I|]. cbn in ET'. rewrite ET'. reflexivity.
      * destruct t; [exact I|]. cbn in ET. rewrite ET. reflexivity.
      * exact E.
      * f_equal. apply IH. exact H'.
Qed.
Lemma words_blanks ws t l : blanks ws -> words t l -> words (ws ++ t) l.
Proof.
  induction ws as [|c ws IH]; intros H W; [exact W|]. cbn. apply W_sep; [unfold is_sep; rewrite (H c (or_introl eq_refl)); reflexivity|]. apply IH; [intros d I; apply H; right; exact I|exact W].
Qed.
Lemma words_total t : exists ws, words t ws.
Proof.
  remember (length t) as n eqn:N. assert (L : length t <= n) by lia. clear N. revert t L. induction n as [|n IH]; intros t L; [destruct t; [exists []; constructor|cbn in L; lia]|].
  destruct (text_cases t) as (ws & r & -> & Bl & [-> |[(r' & ->)|(w & r' & -> & W & ET)]]).
  - exists []. apply words_blanks; [exact Bl|constructor].
  - rewrite app_length in L. cbn in L. destruct (IH r' ltac:(lia)) as (l & H). exists l. apply words_blanks; [exact Bl|]. apply W_sep; [reflexivity|exact H].
  - rewrite !app_length in L. assert (1 <= length w) by (destruct W as [NW _]; destruct w; [congruence|cbn; lia]). destruct (IH r' ltac:(lia)) as (l & H'). exists (w :: l). apply words_blanks; [exact Bl|]. apply W_word; assumption.
Qed.
Lemma laid_ends m col t o col' : laid m col t o col' -> ends_word t -> ends_word o.
Proof.
  destruct 1 as [col a b H A Bb|col ws t o col' H _|col ws w t o col' H W ET K _|col ws w ps t o col' H NE W ET K P _|col p q ps t o col' W ET K Lp P _]; intros E; try reflexivity.
  - destruct a as [|c a]; [exact I|]. cbn. unfold is_sep. rewrite (H c (or_introl eq_refl)). reflexivity.
  - destruct ws as [|c ws]; [|exact E]. destruct W as [N W]. destruct w; [congruence|exact E].
  - destruct p as [|c p]; [reflexivity|]. exact E.
Qed.
Lemma words_lines ps o l : Forall a_word ps -> ends_word o -> words o l -> words (on_lines ps ++ o) (ps ++ l).
Proof.
  intros F E W. induction F as [|p ps A F IH]; [exact W|]. destruct ps as [|q ps].
  - cbn. apply W_word; assumption.
  - change (on_lines (p :: q :: ps)) with (p ++ newline :: on_lines (q :: ps)). rewrite <- app_assoc. cbn [app]. apply W_word; [exact A|reflexivity|]. apply W_sep; [reflexivity|]. exact IH.
Qed.
Lemma pieces_words m w ps : 1 <= m -> ink_only w -> pieces m w ps -> Forall a_word ps.
Proof.
  intros M W P. pose proof (pieces_ink m w ps W P) as I. destruct P as (_ & a & b & -> & F & Bl). apply Forall_forall. intros p H. split; [|rewrite Forall_forall in I; exact (I p H)].
  apply in_app_iff in H. destruct H as [H|[<-|[]]].
  - rewrite Forall_forall in F. specialize (F p H). intros ->. cbn in F. lia.
  - intros ->. cbn in Bl. lia.
Qed.
Lemma laid_words m col t o col' : 1 <= m -> laid m col t o col' -> (col = 0 \/ ends_word t) -> exists ws pss, words t ws /\ Forall2 (pieces m) ws pss /\ words o (concat pss).
Proof.
  intros M. induction 1 as [col a b H A Bb|col ws t o col' H _ IH|col ws w t o col' H W ET K L IH|col ws w ps t o col' H NE W ET K P L IH|col p q ps t o col' W ET K Lp P L IH]; intros Z.
  - exists [], []. apply blanks_app in H as H'. split; [rewrite <- (app_nil_r (a ++ b)); apply words_blanks; [exact H|constructor]|]. split; [constructor|]. rewrite <- (app_nil_r a). apply words_blanks; [tauto|constructor].
  - destruct (IH (or_introl eq_refl)) as (l & pss & W1 & W2 & W3). exists l, pss. split; [apply words_blanks; [exact H|apply W_sep; auto]|]. split; [exact W2|]. apply W_sep; auto.
  - destruct (IH (or_intror ET)) as (l & pss & W1 & W2 & W3). exists (w :: l), ([w] :: pss). split; [apply words_blanks; [exact H|apply W_word; auto]|]. split.
    + constructor; [|exact W2]. split; [cbn; apply app_nil_r|]. exists [], w. split; [reflexivity|]. split; [constructor|]. rewrite advances_app, (advances_word w _ (proj2 W)) in K. pose proof (mono_blanks ws col H). destruct W as [N _]. destruct w; [congruence|cbn [length] in *; lia].
    + cbn [concat app]. apply words_blanks; [exact H|]. apply W_word; [exact W|eapply laid_ends; eassumption|exact W3].
  - destruct (IH (or_intror ET)) as (l & pss & W1 & W2 & W3). exists (w :: l), (ps :: pss). split; [apply words_blanks; [exact H|apply W_word; auto]|]. split; [constructor; assumption|].
    cbn [concat]. apply W_sep; [reflexivity|]. apply words_lines; [eapply pieces_words; [exact M|exact (proj2 W)|exact P]|eapply laid_ends; eassumption|exact W3].
  - destruct Z as [-> |Z]; [|exfalso; destruct W as [N W]; rewrite app_assoc in Z; destruct (p ++ q) as [|c x] eqn:E; [congruence|]; cbn in Z; rewrite (W c (or_introl eq_refl)) in Z; discriminate].
    destruct (IH (or_intror ET)) as (l & pss & W1 & W2 & W3). exists ((p ++ q) :: l), ((p :: ps) :: pss). rewrite app_assoc. split; [apply W_word; auto|].
    rewrite Nat.sub_0_r in Lp. split.
    + constructor; [|exact W2]. destruct P as (<- & a & b & -> & F & Bl). split; [reflexivity|]. exists (p :: a), b. split; [reflexivity|]. split; [constructor; assumption|exact Bl].
    + cbn [concat]. cbn [app]. apply W_word; [split; [intros ->; cbn in Lp; lia|intros c I; apply (proj2 W), in_app_iff; auto]|reflexivity|]. apply W_sep; [reflexivity|].
      apply words_lines; [eapply pieces_words; [exact M| |exact P]; intros c I; apply (proj2 W), in_app_iff; auto|eapply laid_ends; eassumption|exact W3].
Qed.

(** ** Blanks at the ends of lines *)
Lemma nt_app x y : no_trailing x -> no_trailing y -> (forall x' c, x = x' ++ [c] -> is_blank c = false) -> no_trailing (x ++ y).
Proof.
  intros X Y Z a c b E. apply app_eq_app in E. destruct E as [l [[E1 E2]|[E1 E2]]].
  - destruct l as [|d [|e l]]; cbn in E2.
    + apply (Y [] c b). symmetry. exact E2.
    + inversion E2; subst d. apply (Z a c E1).
    + inversion E2; subst d e. apply (X a c l E1).
  - apply (Y l c b E2).
Qed.
Lemma nt_no_nl x : (forall c, In c x -> c <> newline) -> no_trailing x.
Proof. intros H a c b E. exfalso. apply (H newline); [|reflexivity]. rewrite E. apply in_app_iff. right; right; left. reflexivity. Qed.
Lemma ink_no_nl w : ink_only w -> forall c, In c w -> c <> newline.
Proof. intros W c I ->. specialize (W newline I). discriminate. Qed.
Lemma ink_last w : ink_only w -> forall x c, w = x ++ [c] -> is_blank c = false.
Proof. intros W x c ->. specialize (W c ltac:(apply in_app_iff; right; left; reflexivity)). unfold is_sep in W. apply orb_false_iff in W. apply W. Qed.
Lemma nt_nl y : no_trailing y -> no_trailing (newline :: y).
Proof. intros H [|d a] c b E; inversion E; subst; [reflexivity|]. apply (H a c b). reflexivity. Qed.
Lemma nt_ink w y : ink_only w -> no_trailing y -> no_trailing (w ++ y).
Proof. intros W Y. apply nt_app; [apply nt_no_nl, ink_no_nl, W|exact Y|apply ink_last, W]. Qed.
Lemma nt_lines ps o : Forall ink_only ps -> no_trailing o -> no_trailing (on_lines ps ++ o).
Proof.
  intros F N. induction F as [|p ps A F IH]; [exact N|]. destruct ps as [|q ps]; [apply nt_ink; assumption|].
  change (on_lines (p :: q :: ps)) with (p ++ newline :: on_lines (q :: ps)). rewrite <- app_assoc. apply nt_ink; [exact A|]. apply (nt_nl (on_lines (q :: ps) ++ o)). exact IH.
Qed.
Lemma nt_blanks ws w o : blanks ws -> a_word w -> no_trailing o -> no_trailing (ws ++ w ++ o).
Proof.
  intros H [N W] O. rewrite app_assoc. apply nt_app; [|exact O|].
  - apply nt_no_nl. intros c I ->. apply in_app_iff in I. destruct I as [I|I]; [specialize (H newline I); discriminate|specialize (W newline I); discriminate].
  - intros x c E. destruct w as [|d w] using rev_ind; [congruence|]. rewrite app_assoc in E. apply app_inj_tail in E. destruct E as [_ <-]. apply (ink_last (w ++ [d]) W w d). reflexivity.
Qed.
Lemma laid_nt m col t o col' : laid m col t o col' -> no_trailing o.
Proof.
  induction 1 as [col a b H A Bb|col ws t o col' H _ IH|col ws w t o col' H W ET K _ IH|col ws w ps t o col' H NE W ET K P _ IH|col p q ps t o col' W ET K Lp P _ IH].
  - apply nt_no_nl. intros c I ->. specialize (H newline ltac:(apply in_app_iff; auto)). discriminate.
  - apply nt_nl. exact IH.
  - apply nt_blanks; assumption.
  - apply nt_nl. apply nt_lines; [eapply pieces_ink; [exact (proj2 W)|exact P]|exact IH].
  - apply nt_ink; [intros c I; apply (proj2 W), in_app_iff; auto|]. apply nt_nl, nt_lines; [eapply pieces_ink; [|exact P]; intros c I; apply (proj2 W), in_app_iff; auto|exact IH].
Qed.
(** ** Text that fits *)
Lemma laid_same m col t o col' : laid m col t o col' -> fits_from m col t -> no_trailing t -> o = t.
Proof.
  induction 1 as [col a b H A Bb|col ws t o col' H _ IH|col ws w t o col' H W ET K _ IH|col ws w ps t o col' H NE W ET K P _ IH|col p q ps t o col' W ET K Lp P _ IH]; intros F N.
  - destruct Bb as [-> |(c & x & -> & G)]; [symmetry; apply app_nil_r|]. specialize (F (a ++ [c]) x). rewrite <- app_assoc in F. specialize (F eq_refl). lia.
  - destruct ws as [|c ws] using rev_ind.
    + cbn [app]. f_equal. apply IH; [apply (fits_split m col [newline] t F)|]. intros a c b ->. apply (N (newline :: a) c b). reflexivity.
    + exfalso. specialize (H c ltac:(apply in_app_iff; right; left; reflexivity)). rewrite (N ws c t) in H; [discriminate|]. rewrite <- app_assoc. reflexivity.
  - do 2 f_equal. apply IH; [rewrite app_assoc in F; apply (fits_split m col (ws ++ w) t F)|]. intros a c b ->. apply (N (ws ++ w ++ a) c b). rewrite <- !app_assoc. reflexivity.
  - exfalso. specialize (F (ws ++ w) t). rewrite <- app_assoc in F. specialize (F eq_refl). lia.
  - exfalso. specialize (F (p ++ q) t). rewrite <- app_assoc in F. specialize (F eq_refl). lia.
Qed.
