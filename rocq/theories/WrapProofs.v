(** The encoder lays out its text. *)
From Verif Require Import Base EncoderModel WrapModel WrapSpec.
Local Open Scope nat_scope.

Lemma wloop_app m a : forall s b, wloop m s (a ++ b) = (let! (s, o) := wloop m s a in let! (s, o') := wloop m s b in Ok (s, o ++ o')).
Proof.
  induction a as [|c a IH]; intros s b; cbn [app wloop bind].
  - destruct (wloop m s b) as [[s' o']| |]; reflexivity.
  - destruct (wstep m s c) as [[s1 o1]| |]; cbn [bind]; [|reflexivity|reflexivity]. rewrite IH. destruct (wloop m s1 a) as [[s2 o2]| |]; cbn [bind]; [|reflexivity|reflexivity].
    destruct (wloop m s2 b) as [[s3 o3]| |]; cbn [bind]; [|reflexivity|reflexivity]. rewrite app_assoc. reflexivity.
Qed.
Lemma put_ok m l c : length l < m -> put m l c = Ok (l ++ [c]).
Proof. intros H. unfold put. destruct (Nat.ltb_spec (length l) m); [reflexivity|lia]. Qed.
Lemma is_blank_cases c : is_blank c = true -> (c = " "%char \/ c = tab) /\ Ascii.eqb c newline = false.
Proof. unfold is_blank. rewrite orb_true_iff, !Ascii.eqb_eq. intros [-> | ->]; split; auto. Qed.
Lemma blank_wstep m s c : is_blank c = true -> wstep m s c = blank_step m s c (advance (width s) c).
Proof.
  intros H. destruct (is_blank_cases c H) as [[-> | ->] N]; unfold wstep, advance; rewrite N; cbn [Ascii.eqb].
  - replace (width s + 1) with (S (width s)) by lia. reflexivity.
  - change (Ascii.eqb tab " ") with false. change (Ascii.eqb tab tab) with true. change (Ascii.eqb tab TAB) with true. cbn [negb]. f_equal. lia.
Qed.
Lemma other_wstep m s c : is_sep c = false -> wstep m s c = other_step m s c.
Proof.
  unfold is_sep, is_blank. rewrite !orb_false_iff. intros [[H1 H2] H3]. unfold wstep. rewrite H1, H3. change tab with TAB. rewrite H2. reflexivity.
Qed.
Lemma advance_gt k c : is_blank c = true -> k < advance k c.
Proof. intros H. destruct (is_blank_cases c H) as [[-> | ->] N]; unfold advance; rewrite N; cbn -[Nat.div Nat.mul]; [lia|]. change (Ascii.eqb tab TAB) with true. cbv iota. pose proof (Nat.div_mod k 8 ltac:(lia)). pose proof (Nat.mod_upper_bound k 8 ltac:(lia)). lia. Qed.
Lemma advances_ge ws : forall k, blanks ws -> k + length ws <= advances k ws.
Proof.
  induction ws as [|c ws IH]; intros k H; cbn; [lia|]. specialize (IH (advance k c) (fun d I => H d (or_intror I))). pose proof (advance_gt k c (H c (or_introl eq_refl))). unfold advances in IH. lia.
Qed.
Lemma advances_app k a b : advances k (a ++ b) = advances (advances k a) b.
Proof. apply fold_left_app. Qed.
Lemma advance_word k c : is_sep c = false -> advance k c = k + 1.
Proof. unfold is_sep, is_blank, advance. rewrite !orb_false_iff. intros [[H1 H2] H3]. rewrite H2, H3. reflexivity. Qed.
Lemma advances_word w : forall k, (forall c, In c w -> is_sep c = false) -> advances k w = k + length w.
Proof.
  induction w as [|c w IH]; intros k H; cbn; [lia|]. rewrite advance_word by (apply H; left; reflexivity). unfold advances in IH. rewrite IH; [lia|intros d I; apply H; right; exact I].
Qed.

(** Blanks *)
Lemma blanks_run m ws : forall k l, blanks ws -> length l <= k ->
  exists a b, ws = a ++ b /\ (a = [] \/ advances k a <= m) /\ (b = [] \/ exists c r, b = c :: r /\ m < advances k (a ++ [c])) /\
    wloop m (Wst k l 0 false) ws = Ok (Wst (advances k ws) (l ++ a) 0 false, []) /\ length (l ++ a) <= advances k ws.
Proof.
  induction ws as [|c ws IH]; intros k l H L.
  - exists [], []. rewrite (app_nil_r l). cbn. repeat split; auto.
  - assert (Hc : is_blank c = true) by (apply H; left; reflexivity). assert (Hw : blanks ws) by (intros d I; apply H; right; exact I).
    pose proof (advance_gt k c Hc) as G. cbn [wloop]. rewrite (blank_wstep m _ c Hc). unfold blank_step. cbn [width inword line wordindex].
    destruct (Nat.leb_spec (advance k c) m) as [M|M].
    + rewrite put_ok by lia. cbn [bind]. destruct (IH (advance k c) (l ++ [c]) Hw) as (a & b & E & A & Bb & R & LL); [rewrite app_length; cbn; lia|].
      rewrite R. cbn [bind]. exists (c :: a), b. rewrite E. split; [reflexivity|]. split.
      { right. destruct A as [-> |A]; [exact M|exact A]. }
      split; [exact Bb|]. rewrite <- E. rewrite <- app_assoc in R, LL |- *. cbn [app] in R, LL |- *. split; [reflexivity|exact LL].
    + cbn [bind].
      assert (X : forall ws k l, m < k -> blanks ws -> wloop m (Wst k l 0 false) ws = Ok (Wst (advances k ws) l 0 false, [])).
      { clear. induction ws as [|c ws IH]; intros k l M H; [reflexivity|]. cbn [wloop]. rewrite blank_wstep by (apply H; left; reflexivity). unfold blank_step. cbn [width inword line wordindex].
        pose proof (advance_gt k c (H c (or_introl eq_refl))). destruct (Nat.leb_spec (advance k c) m); [lia|]. cbn [bind]. rewrite IH; [reflexivity|lia|intros d I; apply H; right; exact I]. }
      rewrite X by assumption. cbn [bind]. exists [], (c :: ws). rewrite (app_nil_r l). split; [reflexivity|]. split; [auto|]. split; [right; exists c, ws; auto|]. split; [reflexivity|].
      pose proof (advances_ge ws (advance k c) Hw). change (advances k (c :: ws)) with (advances (advance k c) ws). lia.
Qed.

(** Words *)
Definition ink_only (w : bytes) : Prop := forall c, In c w -> is_sep c = false.
Lemma ink_cons c w : ink_only (c :: w) -> is_sep c = false /\ ink_only w.
Proof. intros H. split; [apply H; left; reflexivity|intros d I; apply H; right; exact I]. Qed.
Lemma step_in m k l wi c : k < m -> length l <= k -> is_sep c = false -> wstep m (Wst k l wi true) c = Ok (Wst (S k) (l ++ [c]) wi true, []).
Proof.
  intros K L C. rewrite other_wstep by exact C. unfold other_step. cbn [width inword line wordindex]. destruct (Nat.leb_spec m k); [lia|]. cbn [width inword line wordindex]. rewrite put_ok by lia. reflexivity.
Qed.
Lemma word_run m w : forall k l wi, ink_only w -> length l <= k -> k + length w <= m -> wloop m (Wst k l wi true) w = Ok (Wst (k + length w) (l ++ w) wi true, []).
Proof.
  induction w as [|c w IH]; intros k l wi W L K; cbn [wloop length] in *.
  - rewrite Nat.add_0_r, app_nil_r. reflexivity.
  - destruct (ink_cons c w W) as [C W']. rewrite step_in by (auto; lia). cbn [bind]. rewrite IH; [|exact W'|rewrite app_length; cbn; lia|lia]. cbn [bind]. rewrite <- app_assoc. cbn [app]. do 3 f_equal. lia.
Qed.
Lemma on_lines_app a b : on_lines (a ++ [b]) = flat_map (fun p => p ++ [newline]) a ++ b.
Proof.
  induction a as [|p a IH]; [reflexivity|]. cbn [flat_map app]. rewrite <- app_assoc, <- app_assoc. cbn [app]. rewrite <- IH. destruct a; reflexivity.
Qed.
Lemma chunk m w : 1 <= m -> forall l, l <> [] -> length l <= m -> ink_only w ->
  exists a b, concat (a ++ [b]) = l ++ w /\ Forall (fun p => length p = m) a /\ 1 <= length b <= m /\
    wloop m (Wst (length l) l 0 true) w = Ok (Wst (length b) b 0 true, flat_map (fun p => p ++ [newline]) a).
Proof.
  intros M. induction w as [|c w IH]; intros l NE L W.
  - exists [], l. cbn. rewrite app_nil_r. repeat split; auto. destruct l; [congruence|cbn; lia].
  - destruct (ink_cons c w W) as [C W']. cbn [wloop]. destruct (Nat.ltb_spec (length l) m) as [K|K].
    + rewrite step_in by auto. cbn [bind]. destruct (IH (l ++ [c])) as (a & b & E & F & Bl & R); [destruct l; discriminate|rewrite app_length; cbn; lia|exact W'|].
      rewrite app_length in R. cbn [length] in R. rewrite Nat.add_1_r in R. rewrite R. cbn [bind app]. exists a, b. rewrite E, <- app_assoc. cbn. auto.
    + rewrite other_wstep by exact C. unfold other_step. cbn [width inword line wordindex]. destruct (Nat.leb_spec m (length l)); [|lia]. cbn [negb Nat.eqb flushline width inword line wordindex length].
      rewrite put_ok by (cbn; lia). cbn [bind app]. destruct (IH [c]) as (a & b & E & F & Bl & R); [discriminate|cbn; lia|exact W'|]. cbn [length] in R. rewrite R. cbn [bind].
      exists (l :: a), b. cbn [app concat flat_map]. rewrite E. repeat split; auto; try lia. constructor; [lia|exact F].
Qed.
Lemma chunk_start m c w : 1 <= m -> ink_only (c :: w) -> exists ps, pieces m (c :: w) ps /\ exists o, wloop m (Wst 1 [c] 0 true) w = Ok (Wst (length (last ps [])) (last ps []) 0 true, o) /\ o ++ last ps [] = on_lines ps.
Proof.
  intros M W. destruct (chunk m w M [c]) as (a & b & E & F & Bl & R); [discriminate|cbn; lia|apply (ink_cons c w W)|].
  exists (a ++ [b]). split; [split; [exact E|eauto]|]. rewrite last_last. eexists. split; [exact R|]. rewrite on_lines_app. reflexivity.
Qed.
Lemma chunk_more m l w : 1 <= m -> l <> [] -> length l <= m -> ink_only w -> exists ps, pieces m (l ++ w) ps /\ exists o, wloop m (Wst (length l) l 0 true) w = Ok (Wst (length (last ps [])) (last ps []) 0 true, o) /\ o ++ last ps [] = on_lines ps.
Proof.
  intros M NE L W. destruct (chunk m w M l) as (a & b & E & F & Bl & R); auto.
  exists (a ++ [b]). split; [split; [exact E|eauto]|]. rewrite last_last. eexists. split; [exact R|]. rewrite on_lines_app. reflexivity.
Qed.
(** A word, from the blanks [l] before it on *)
Definition word_out (m k : nat) (l w : bytes) (col : nat) (out : bytes) : Prop :=
  k + length w <= m /\ out = l ++ w /\ col = k + length w \/
  m < k + length w /\ l <> [] /\ (exists ps, pieces m w ps /\ out = newline :: on_lines ps /\ col = length (last ps [])) \/
  m < k + length w /\ l = [] /\ exists p q ps, w = p ++ q /\ length p = m - k /\ pieces m q ps /\ out = p ++ newline :: on_lines ps /\ col = length (last ps []).
Lemma word_start m k l w : 1 <= m -> length l <= k -> w <> [] -> ink_only w ->
  exists s o out, wloop m (Wst k l 0 false) w = Ok (s, o) /\ inword s = true /\ o ++ line s = out /\ word_out m k l w (width s) out.
Proof.
  intros M L NE W. destruct w as [|c w]; [congruence|]. destruct (ink_cons c w W) as [C W']. cbn [wloop]. rewrite other_wstep by exact C. unfold other_step. cbn [width inword line wordindex].
  destruct (Nat.leb_spec m k) as [K|K].
  - cbn [negb width inword line wordindex length]. rewrite put_ok by (cbn; lia). cbn [bind app]. destruct (chunk_start m c w M W) as (ps & P & o & R & O). rewrite R. cbn [bind].
    eexists _, _, (newline :: on_lines ps). split; [reflexivity|]. split; [reflexivity|]. split; [cbn; rewrite O; reflexivity|]. cbn [width].
    destruct l as [|x l]; [right; right|right; left]; (split; [cbn; lia|]).
    + split; [reflexivity|]. exists [], (c :: w), ps. cbn [length]. repeat split; try (apply P); auto. lia.
    + split; [discriminate|]. exists ps. auto.
  - cbn [width inword line wordindex length]. rewrite put_ok by lia. cbn [bind app].
    destruct (Nat.leb_spec (k + length (c :: w)) m) as [F|F]; cbn [length] in F.
    + rewrite word_run; [|exact W'|rewrite app_length; cbn; lia|lia]. cbn [bind app]. eexists _, _, _. split; [reflexivity|]. split; [reflexivity|]. split; [reflexivity|]. left. cbn [width line app length]. rewrite <- app_assoc. cbn [app]. repeat split; lia.
    + set (p := firstn (m - S k) w). set (q := skipn (m - S k) w). assert (E : w = p ++ q) by (symmetry; apply firstn_skipn).
      assert (Lp : length p = m - S k) by (apply firstn_length_le; lia). assert (Lq : length q = length w - (m - S k)) by apply skipn_length.
      clearbody p q. destruct q as [|d q]; [cbn in Lq; lia|].
      assert (Wp : ink_only p) by (intros x I; apply W'; rewrite E; apply in_app_iff; auto).
      assert (Wq : ink_only (d :: q)) by (intros x I; apply W'; rewrite E; apply in_app_iff; auto).
      rewrite E, wloop_app. rewrite word_run; [|exact Wp|rewrite app_length; cbn; lia|lia]. cbn [bind wloop]. destruct (ink_cons d q Wq) as [D Wq'].
      rewrite other_wstep by exact D. unfold other_step. cbn [width inword line wordindex]. destruct (Nat.leb_spec m (S k + length p)); [|lia]. cbn [negb].
      destruct l as [|x l]; cbn [length Nat.eqb].
      * cbn [flushline width inword line wordindex length]. rewrite put_ok by (cbn; lia). cbn [bind app].
        destruct (chunk_start m d q M Wq) as (ps & P & o & R & O). rewrite R. cbn [bind app]. eexists _, _, _. split; [reflexivity|]. split; [reflexivity|]. split; [reflexivity|]. right; right.
        split; [rewrite <- E; cbn [length]; lia|]. split; [reflexivity|]. exists (c :: p), (d :: q), ps. cbn [width line]. repeat split; try (apply P); [cbn; lia|].
        cbn [app]. rewrite <- !app_assoc. cbn [app]. rewrite <- O. reflexivity.
      * set (l' := x :: l) in *. assert (SK : skipn (S (length l)) ((l' ++ [c]) ++ p) = c :: p). { rewrite <- app_assoc. change (S (length l)) with (length l'). rewrite skipn_app, skipn_all, Nat.sub_diag. reflexivity. }
        rewrite SK. cbn [width inword line wordindex]. assert (LL : S (length l) <= k) by exact L.
        rewrite put_ok by (cbn [length]; lia). cbn [bind app].
        destruct (chunk_more m ((c :: p) ++ [d]) q M) as (ps & P & o & R & O); [discriminate|rewrite app_length; cbn [length]; lia|exact Wq'|].
        assert (Z : length ((c :: p) ++ [d]) = S (length (c :: p))) by (rewrite app_length; cbn; lia). rewrite Z in R. cbn [app length] in R. cbn [length]. rewrite R. cbn [bind app]. eexists _, _, _. split; [reflexivity|]. split; [reflexivity|]. split; [reflexivity|]. right; left.
        split; [rewrite <- E; cbn [length]; lia|]. split; [discriminate|]. exists ps. cbn [width line]. rewrite <- app_assoc in P. cbn [app] in P. split; [exact P|]. split; [|reflexivity]. rewrite <- O. reflexivity.
Qed.

(** After a word, a separator or a flush empties the line *)
Lemma sep_flush m s c t : is_sep c = true -> inword s = true ->
  wloop m s (c :: t) = (let! (s', o) := wloop m (Wst (width s) [] 0 false) (c :: t) in Ok (s', line s ++ o)).
Proof.
  intros C I. cbn [wloop]. assert (X : wstep m s c = (let! (s', o) := wstep m (Wst (width s) [] 0 false) c in Ok (s', line s ++ o))).
  { unfold is_sep in C. apply orb_true_iff in C. destruct C as [C|C].
    - rewrite !blank_wstep by exact C. unfold blank_step. rewrite I. cbn [flushline width inword line wordindex]. destruct (if advance (width s) c <=? m then put m [] c else Ok []); cbn [bind]; rewrite ?app_nil_r; reflexivity.
    - unfold wstep. rewrite C, I. cbn [flushline width inword line wordindex bind app]. reflexivity. }
  rewrite X. destruct (wstep m (Wst (width s) [] 0 false) c) as [[s1 o1]| |]; cbn [bind]; [|reflexivity|reflexivity]. destruct (wloop m s1 t) as [[s2 o2]| |]; cbn [bind]; [|reflexivity|reflexivity]. rewrite app_assoc. reflexivity.
Qed.
(** How a text begins *)
Lemma text_cases t : exists ws r, t = ws ++ r /\ blanks ws /\ (r = [] \/ (exists r', r = newline :: r') \/ exists w r', r = w ++ r' /\ a_word w /\ ends_word r').
Proof.
  assert (Wd : forall t, exists w r, t = w ++ r /\ (forall c, In c w -> is_sep c = false) /\ ends_word r).
  { clear. induction t as [|c t (w & r & E & W & R)]; [exists [], []; cbn; tauto|]. destruct (is_sep c) eqn:C; [exists [], (c :: t); cbn; tauto|].
    exists (c :: w), r. rewrite E. split; [reflexivity|]. split; [|exact R]. intros d [<-|I]; auto. }
  induction t as [|c t (ws & r & E & Bl & R)].
  - exists [], []. split; [reflexivity|]. split; [intros c []|auto].
  - destruct (is_blank c) eqn:C.
    + exists (c :: ws), r. rewrite E. split; [reflexivity|]. split; [|exact R]. intros d [<-|I]; auto.
    + exists [], (c :: t). split; [reflexivity|]. split; [intros d []|]. right. destruct (Ascii.eqb c newline) eqn:N.
      * left. apply Ascii.eqb_eq in N. subst c. eauto.
      * right. destruct (Wd (c :: t)) as (w & r' & E' & W & R'). exists w, r'. split; [exact E'|]. split; [|exact R']. split; [|exact W]. intros ->. cbn in E'. subst r'. cbn in R'. unfold is_sep in R'. rewrite C, N in R'. discriminate.
Qed.
Lemma wloop_laid m : 1 <= m -> forall n t col, length t <= n -> exists s o col', wloop m (Wst col [] 0 false) t = Ok (s, o) /\ laid m col t (o ++ line s) col' /\ width s = col'.
Proof.
  intros M. induction n as [|n IH]; intros t col N.
  - destruct t; [|cbn in N; lia]. eexists _, _, _. split; [reflexivity|]. split; [|reflexivity]. apply (L_end m col [] []); auto. intros c [].
  - destruct (text_cases t) as (ws & r & E & Bl & R). subst t. destruct (blanks_run m ws col [] Bl ltac:(cbn; lia)) as (a & b & E & A & Bb & Rn & LL). cbn [app] in Rn, LL.
    destruct R as [-> |[(r' & ->)|(w & r' & -> & W & ER)]].
    + rewrite app_nil_r in *. eexists _, _, _. split; [exact Rn|]. split; [|reflexivity]. cbn. subst ws. apply L_end; auto.
    + destruct (IH r' 0) as (s & o & col' & E1 & E2 & E3); [rewrite app_length in N; cbn in N; lia|]. rewrite wloop_app, Rn. cbn [bind wloop]. unfold wstep at 1. change (Ascii.eqb newline newline) with true. cbn [flushline width inword line wordindex bind app].
      rewrite E1. cbn [bind app]. eexists _, _, _. split; [reflexivity|]. split; [|exact E3]. apply L_newline; auto.
    + destruct W as [WN WI]. rewrite wloop_app, Rn. cbn [bind]. rewrite wloop_app. destruct (word_start m (advances col ws) a w M LL WN WI) as (s & o & out & E1 & I1 & O1 & WO). rewrite E1. cbn [bind].
      assert (LR : length r' <= n). { rewrite !app_length in N. destruct w; [congruence|cbn in N; lia]. }
      destruct (IH r' (width s) LR) as (s2 & o2 & col' & F1 & F2 & F3).
      assert (X : exists s3 o3, wloop m s r' = Ok (s3, o3) /\ o3 ++ line s3 = line s ++ o2 ++ line s2 /\ width s3 = width s2).
      { destruct r' as [|c r'].
        - cbn in F1. inversion F1; subst. exists s, []. split; [reflexivity|]. cbn. rewrite app_nil_r. auto.
        - rewrite sep_flush by auto. rewrite F1. cbn [bind]. eexists _, _. split; [reflexivity|]. rewrite <- app_assoc. auto. }
      destruct X as (s3 & o3 & X1 & X2 & X3). rewrite X1. cbn [bind]. eexists _, _, _. split; [reflexivity|]. split; [|rewrite X3; exact F3]. cbn [app].
      rewrite <- (app_assoc o), X2, (app_assoc o), O1. clear X1 X2 X3 E1 F1. set (o' := o2 ++ line s2) in *.
      assert (AD : advances col (ws ++ w) = advances col ws + length w) by (rewrite advances_app; apply advances_word; exact WI).
      destruct WO as [(K & -> & C)|[(K & NL & ps & P & -> & C)|(K & NL & p & q & ps & -> & Lp & P & -> & C)]].
      * assert (a = ws). { destruct Bb as [-> |(c & r & -> & G)]; [rewrite app_nil_r in E; auto|]. exfalso. subst ws.
          pose proof (advances_ge r (advances col (a ++ [c])) (fun d I => Bl d ltac:(apply in_app_iff; right; right; exact I))) as Q. rewrite <- advances_app, <- app_assoc in Q. cbn [app] in Q. lia. }
        subst a. rewrite <- app_assoc. rewrite C in F2. apply L_fits; [exact Bl|split; assumption|exact ER|lia|rewrite AD; exact F2].
      * cbn [app]. rewrite C in F2. apply L_wrap; [exact Bl|intros ->; destruct a; [congruence|discriminate]|split; assumption|exact ER|lia|exact P|exact F2].
      * subst a. destruct ws as [|c ws'].
        -- cbn [app]. rewrite <- !app_assoc. cbn [app]. change (advances col []) with col in *. rewrite C in F2. eapply L_cut; [split; eassumption|exact ER|rewrite advances_word by exact WI; exact K|exact Lp|exact P|exact F2].
        -- assert (G : m < advances col (c :: ws')).
           { cbn [app] in E. destruct Bb as [-> |(c' & r & -> & G)]; [discriminate|]. inversion E; subst c' r. change (advances col (c :: ws')) with (advances (advance col c) ws'). change (advances col ([] ++ [c])) with (advance col c) in G.
             pose proof (advances_ge ws' (advance col c) (fun d I => Bl d (or_intror I))). lia. }
           assert (p = []) by (destruct p; [reflexivity|cbn [length] in Lp; lia]). subst p. cbn [app] in *. rewrite C in F2. apply (L_wrap m col (c :: ws') q ps r' o' col'); [exact Bl|discriminate|split; assumption|exact ER|exact (eq_ind_r (fun x => m < x) K AD)|exact P|exact F2].
Qed.
