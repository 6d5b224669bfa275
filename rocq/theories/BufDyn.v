(** The growing buffer implements a queue with history. *)
From Verif Require Import Base BaseFacts BufModel BufSpec BufGeneric BufCirc.

Definition good (c : circ) : Prop := c_wf c /\ c_norm c.
Definition qs (l : list circ) : bytes := concat (map c_queue l).
Definition sumused (l : list circ) : nat := fold_right (fun c n => c_used c + n) 0 l.

Lemma qs_cons c l : qs (c :: l) = c_queue c ++ qs l.
Proof. reflexivity. Qed.
Lemma qs_app a b : qs (a ++ b) = qs a ++ qs b.
Proof. unfold qs. rewrite map_app. apply concat_app. Qed.
Lemma qs_one c : qs [c] = c_queue c.
Proof. unfold qs. cbn. apply app_nil_r. Qed.
Lemma qs_length l : length (qs l) = sumused l.
Proof. induction l as [|c l IH]; [reflexivity|]. rewrite qs_cons, app_length, IH, c_queue_length. reflexivity. Qed.
Lemma sumused_app a b : sumused (a ++ b) = sumused a + sumused b.
Proof. rewrite <- !qs_length, qs_app, app_length. reflexivity. Qed.
Lemma good_wf c : good c -> wf _ (Circ_ok false (c_size c)) c.
Proof. intros [H _]. split; [assumption|]. split; [reflexivity|discriminate]. Qed.

(** the last [n] bytes *)
Definition lastn (n : nat) (l : bytes) : bytes := skipn (length l - n) l.
Lemma lastn_length n l : length (lastn n l) = min n (length l).
Proof. unfold lastn. rewrite skipn_length. lia. Qed.
Lemma lastn_suffix n l : suffix_of (lastn n l) l.
Proof. exists (firstn (length l - n) l). symmetry. apply firstn_skipn. Qed.
Lemma lastn_all n l : length l <= n -> lastn n l = l.
Proof. intros H. unfold lastn. replace (length l - n) with 0 by lia. reflexivity. Qed.
Lemma suffix_compare a b l : suffix_of a l -> suffix_of b l -> length a <= length b -> suffix_of a b.
Proof.
  intros [p E1] [q E2] H. subst l. assert (L : length q <= length p).
  { apply (f_equal (@length _)) in E2. rewrite !app_length in E2. lia. }
  exists (skipn (length q) p). rewrite <- (firstn_skipn (length q) p), <- app_assoc in E2.
  apply app_eq_app_length in E2; [|rewrite firstn_length; lia]. symmetry. apply E2.
Qed.
Lemma suffix_app a b c : suffix_of a b -> suffix_of (a ++ c) (b ++ c).
Proof. intros [p ->]. exists p. rewrite app_assoc. reflexivity. Qed.
Lemma suffix_eq a b : suffix_of a b -> length b <= length a -> a = b.
Proof.
  intros [p ->] H. rewrite app_length in H. destruct p; [reflexivity|cbn in H; lia].
Qed.

Section Dyn.
Variables (gran minalloc maxalloc unlimited : nat).
Hypothesis gran_pos : 0 < gran.
Hypothesis unlimited_pos : 0 < unlimited.
Notation DynStore := (DynStore gran minalloc maxalloc unlimited).
Notation d_newsize := (d_newsize gran minalloc maxalloc).
Notation d_newbuffer := (d_newbuffer gran minalloc maxalloc).
Notation d_coalesce := (d_coalesce gran minalloc maxalloc).

Lemma newsize_ge t n : n <= d_newsize t n.
Proof.
  unfold BufModel.d_newsize, roundup. set (x := if _ <? n then n else _).
  assert (n <= x) by (unfold x; destruct (Nat.ltb_spec (if (if d_total t <? n * 2 then n * 2 else d_total t) <? minalloc
     then minalloc else if maxalloc <? (if d_total t <? n * 2 then n * 2 else d_total t) then maxalloc
      else (if d_total t <? n * 2 then n * 2 else d_total t)) n); lia).
  pose proof (Nat.mod_upper_bound x gran ltac:(lia)). destruct (x mod gran =? 0); lia.
Qed.
Lemma newbuffer_ok t n : d_sane t = true -> 0 < n ->
  exists c, d_newbuffer t n = Ok c /\ good c /\ c_used c = 0 /\ c_hist c = [] /\ n <= c_size c.
Proof.
  intros Hs Hn. unfold BufModel.d_newbuffer. rewrite Hs. destruct (Nat.eqb_spec gran 0); [lia|].
  pose proof (newsize_ge t n). exists (circ_new (d_newsize t n)). split; [reflexivity|].
  assert (E : c_size (circ_new (d_newsize t n)) = d_newsize t n) by apply repeat_length.
  split; [|split; [reflexivity|split; [reflexivity|lia]]].
  split; [apply (circ_new_ok true (d_newsize t n)); lia|]. unfold c_norm. rewrite E. cbn. lia.
Qed.

Lemma merge_circ a c n : good a -> good c -> n <= c_used c -> n <= c_size a - c_used a ->
  exists a' c', basicmerge CircStore CircStore a c n = Ok (a', c') /\ good a' /\ good c' /\
    c_size a' = c_size a /\ suffix_of (c_hist a') (c_hist a) /\
    c_queue a' = c_queue a ++ firstn n (c_queue c) /\ c_queue c' = skipn n (c_queue c).
Proof.
  intros Ga Gc H1 H2.
  destruct (basicmerge_ok CircStore CircStore (Circ_ok false (c_size a)) (Circ_ok false (c_size c)) a c n)
    as (a' & c' & E & Wa & Wc & Na & Nc & Hh & Hq & Hq').
  - apply good_wf; assumption.
  - apply good_wf; assumption.
  - apply Gc.
  - cbn. rewrite c_queue_length. assumption.
  - cbn. unfold c_room. assumption.
  - exists a', c'. split; [exact E|]. destruct Wa as [Wa [Sa _]], Wc as [Wc [Sc _]].
    split; [split; [assumption|apply Na; apply Ga]|]. split; [split; assumption|]. auto.
Qed.

Lemma used_queue c q : c_queue c = q -> c_used c = length q.
Proof. intros <-. symmetry. apply c_queue_length. Qed.

Lemma coalesce_loop_ok : forall rest target needed skip, good target -> Forall good rest ->
  0 < needed <= sumused rest -> needed <= c_size target - c_used target ->
  skip <= c_used target + needed ->
  exists target' rest', coalesce_loop target rest needed skip = Ok (target' :: rest') /\
    good target' /\ Forall good rest' /\
    c_queue target' ++ qs rest' = skipn skip (c_queue target ++ qs rest) /\
    c_used target' = c_used target + needed - skip /\
    suffix_of (c_hist target') (c_hist target ++ firstn skip (c_queue target ++ qs rest)) /\
    skip <= length (c_hist target').
Proof.
  induction rest as [|c r IH]; intros target needed skip Gt Gr Hn Hs Hk; [cbn in Hn; lia|].
  cbn [coalesce_loop]. inversion Gr as [|? ? Gc Gr']; subst.
  cbn [sumused fold_right] in Hn. fold (sumused r) in Hn.
  destruct (Nat.ltb_spec 0 (c_used c)) as [Hu|Hu].
  - set (chunk := min (c_used c) needed).
    destruct (merge_circ target c chunk Gt Gc ltac:(lia) ltac:(lia)) as (a & c' & E & Ga & Gc' & Sa & Hh & Hq & Hq').
    rewrite E. cbn [bind].
    assert (Ua : c_used a = c_used target + chunk).
    { rewrite (used_queue a _ Hq), app_length, firstn_length, !c_queue_length. lia. }
    assert (Eq : c_queue a ++ c_queue c' ++ qs r = c_queue target ++ qs (c :: r)).
    { rewrite Hq, Hq', qs_cons, <- app_assoc. f_equal. rewrite app_assoc, firstn_skipn. reflexivity. }
    destruct (Nat.eqb_spec (needed - chunk) 0) as [Hz|Hz].
    + destruct (c_get_ok a skip) as (a' & p & F1 & F2 & F3 & F4 & F5 & F6 & F7 & F8 & _); [apply Ga|lia|].
      rewrite F1. cbn [bind]. exists a', (c' :: r). split; [reflexivity|]. split; [split; assumption|].
      split; [constructor; assumption|]. rewrite qs_cons, F6, F5.
      assert (L : skip <= length (c_queue a)) by (rewrite c_queue_length; lia).
      split; [|split; [lia|split; [|assumption]]].
      * rewrite <- Eq. rewrite skipn_app. replace (skip - length (c_queue a)) with 0 by lia. reflexivity.
      * eapply suffix_trans; [eassumption|]. rewrite <- Eq. rewrite firstn_app.
        replace (skip - length (c_queue a)) with 0 by lia. rewrite firstn_O, app_nil_r. apply suffix_app. assumption.
    + assert (Ec : qs (c' :: r) = qs r).
      { rewrite qs_cons, Hq'. rewrite skipn_all2; [reflexivity|]. rewrite c_queue_length. lia. }
      rewrite qs_cons in Ec.
      destruct (IH a (needed - chunk) skip Ga Gr' ltac:(lia) ltac:(lia) ltac:(lia)) as (t' & r' & F1 & F2 & F3 & F4 & F5 & F6 & F7).
      rewrite F1. exists t', r'. rewrite Ec in Eq. rewrite Eq in F4, F6. split; [reflexivity|].
      split; [assumption|]. split; [assumption|]. split; [assumption|]. split; [lia|]. split; [|assumption].
      eapply suffix_trans; [eassumption|]. apply suffix_app. assumption.
  - destruct (IH target needed skip Gt Gr' ltac:(lia) Hs Hk) as (t' & r' & F1 & F2 & F3 & F4 & F5 & F6 & F7).
    rewrite F1. exists t', r'. assert (Ec : qs (c :: r) = qs r).
    { rewrite qs_cons. replace (c_queue c) with (@nil ascii); [reflexivity|]. symmetry. apply length_zero_iff_nil.
      rewrite c_queue_length. lia. }
    rewrite Ec. auto 10.
Qed.

(** History and well-formedness *)
Definition d_hist (t : dyn) : bytes :=
  match d_list t with [] => [] | c :: _ => lastn (d_maxunget t) (c_hist c) end.
Definition d_queue (t : dyn) : bytes := qs (d_list t).
Definition d_wf (t : dyn) : Prop :=
  Forall good (d_list t) /\ d_total t = sumused (d_list t) /\ (d_list t = [] -> d_maxunget t = 0).

Lemma hist_length t : length (d_hist t) = d_ungettable t.
Proof.
  unfold d_hist, d_ungettable. destruct (d_list t) as [|c l]; [reflexivity|].
  rewrite lastn_length, c_hist_length. unfold c_ungettable. lia.
Qed.
Lemma wf_sane t : d_wf t -> d_sane t = true.
Proof.
  intros (_ & H & _). unfold d_sane. destruct (d_list t); [|apply orb_true_r]. cbn in H. rewrite H. reflexivity.
Qed.

Lemma coalesce_ok t pre buf post count : d_list t = pre ++ buf :: post -> Forall good (buf :: post) ->
  count <= sumused (buf :: post) ->
  exists t' buf' post', d_coalesce t (length pre) count = Ok t' /\ d_list t' = pre ++ buf' :: post' /\
    d_total t' = d_total t /\ d_maxunget t' = d_maxunget t /\ Forall good (buf' :: post') /\
    qs (buf' :: post') = qs (buf :: post) /\ count <= c_used buf' /\
    suffix_of (d_hist t') (d_hist t) /\ (count = 0 -> t' = t).
Proof.
  intros El Gl Hc. unfold BufModel.d_coalesce. rewrite El, firstn_len, skipn_len.
  inversion Gl as [|? ? Gb Gp]; subst.
  destruct (Nat.leb_spec count (c_used buf)) as [Hle|Hgt].
  { exists t, buf, post. rewrite El. repeat split; auto. }
  assert (Hz : count <> 0) by lia.
  cbn [sumused fold_right] in Hc. fold (sumused post) in Hc.
  assert (Hpre : forall b' p', pre <> [] -> d_hist (Dyn (pre ++ b' :: p') (d_total t) (d_maxunget t)) = d_hist t).
  { intros b' p' Hne. unfold d_hist. cbn [d_list d_maxunget]. rewrite El. destruct pre; [congruence|reflexivity]. }
  destruct (Nat.ltb_spec (c_free buf) (count - c_used buf)) as [Hf|Hf].
  - assert (HS : d_sane t = true) by (unfold d_sane; rewrite El; destruct pre; apply orb_true_r).
    assert (HU : exists skip buf2, (if (length pre =? 0) && negb (d_total t =? 0)
       then let! buf := c_unget buf (d_ungettable t) in Ok (d_ungettable t, buf) else Ok (0, buf)) = Ok (skip, buf2) /\
       good buf2 /\ c_used buf2 = c_used buf + skip /\
       exists h, c_queue buf2 = h ++ c_queue buf /\ length h = skip /\ (pre = [] -> suffix_of h (d_hist t)) /\ (pre <> [] -> skip = 0)).
    { destruct (Nat.eqb_spec (length pre) 0) as [Ep|Ep]; cbn [andb].
      - apply length_zero_iff_nil in Ep. subst pre. cbn [app] in El.
        destruct (Nat.eqb_spec (d_total t) 0) as [Et|Et]; cbn [negb].
        + exists 0, buf. split; [reflexivity|]. split; [assumption|]. split; [lia|]. exists []. auto.
        + assert (Eu : d_ungettable t = length (d_hist t)) by (symmetry; apply hist_length).
          assert (Eh : d_hist t = lastn (d_maxunget t) (c_hist buf)) by (unfold d_hist; rewrite El; reflexivity).
          assert (Lb : length (d_hist t) <= length (c_hist buf)) by (rewrite Eh, lastn_length; lia).
          destruct (c_unget_ok buf (d_ungettable t)) as (b2 & F1 & F2 & F3 & F4 & F5 & F6 & F7 & F8);
            [apply Gb|rewrite <- c_hist_length; lia|].
          rewrite F1. exists (d_ungettable t), b2. split; [reflexivity|]. split; [split; assumption|].
          split; [lia|]. exists (d_hist t).
          split; [|split; [lia|split; [auto|congruence]]].
          rewrite F8, Eu. f_equal. rewrite Eh. fold (lastn (length (lastn (d_maxunget t) (c_hist buf))) (c_hist buf)).
          rewrite lastn_length. unfold lastn. f_equal. lia.
      - exists 0, buf. split; [reflexivity|]. split; [assumption|]. split; [lia|]. exists [].
        repeat split; auto. }
    destruct HU as (skip & buf2 & E & G2 & U2 & h & Q2 & Lh & Hh & Hn). rewrite E. clear E. cbn [bind].
    destruct (newbuffer_ok t (count + skip) HS ltac:(lia)) as (nb & E & Gn & Un & Hhn & Hsz). rewrite E. cbn [bind].
    destruct (coalesce_loop_ok (buf2 :: post) nb (count + skip) skip) as (t' & r' & F1 & F2 & F3 & F4 & F5 & F6 & F7);
      [assumption|constructor; assumption|cbn; fold (sumused post); lia|lia|lia|].
    rewrite F1. cbn [bind]. eexists _, t', r'. split; [reflexivity|]. split; [reflexivity|]. split; [reflexivity|].
    split; [reflexivity|]. split; [constructor; assumption|].
    assert (Qn : c_queue nb = []) by (apply length_zero_iff_nil; rewrite c_queue_length; assumption).
    rewrite Qn in *. cbn [app] in F4, F6. rewrite qs_cons, Q2 in F4, F6.
    split; [|split; [lia|split; [|congruence]]].
    + rewrite qs_cons, F4, <- app_assoc, <- Lh, skipn_len. reflexivity.
    + destruct pre as [|x pre].
      2:{ rewrite Hpre by congruence. auto. }
      rewrite Hhn in F6. cbn [app] in F6. rewrite <- app_assoc, <- Lh, firstn_len in F6.
      unfold d_hist at 1. cbn [d_list d_maxunget app]. eapply suffix_trans; [apply lastn_suffix|].
      eapply suffix_trans; [exact F6|]. auto.
  - destruct (coalesce_loop_ok post buf (count - c_used buf) 0) as (t' & r' & F1 & F2 & F3 & F4 & F5 & F6 & F7);
      [assumption|assumption|lia|unfold c_free in Hf; lia|lia|].
    rewrite F1. cbn [bind]. eexists _, t', r'. split; [reflexivity|]. split; [reflexivity|]. split; [reflexivity|].
    split; [reflexivity|]. split; [constructor; assumption|]. cbn [skipn firstn] in *. rewrite app_nil_r in F6.
    split; [exact F4|split; [lia|split; [|congruence]]].
    destruct pre as [|x pre]; [|rewrite Hpre by congruence; auto].
    unfold d_hist. cbn [d_list d_maxunget app]. rewrite El. cbn [app].
    apply (suffix_compare _ _ (c_hist buf)).
    + eapply suffix_trans; [apply lastn_suffix|assumption].
    + apply lastn_suffix.
    + rewrite !lastn_length. pose proof (suffix_length _ _ F6). lia.
Qed.

Lemma drop_empty_ok l mx : Forall good l -> 0 < sumused l ->
  exists c r mx', drop_empty l mx = Ok (c :: r, mx') /\ Forall good (c :: r) /\ 0 < c_used c /\
    qs (c :: r) = qs l /\ mx' <= mx /\ (l = c :: r /\ mx' = mx \/ mx' = 0).
Proof.
  revert mx. induction l as [|c l IH]; intros mx G H; [cbn in H; lia|]. cbn [drop_empty].
  inversion G as [|? ? Gc Gl]; subst. cbn [sumused fold_right] in H. fold (sumused l) in H.
  destruct (Nat.eqb_spec (c_used c) 0) as [Hz|Hz].
  - destruct (IH 0 Gl ltac:(lia)) as (c' & r & mx' & E & F1 & F2 & F3 & F4 & F5).
    rewrite E. exists c', r, mx'. split; [reflexivity|]. split; [assumption|]. split; [assumption|].
    split; [|split; [lia|right; lia]].
    rewrite F3, qs_cons. replace (c_queue c) with (@nil ascii); [reflexivity|]. symmetry.
    apply length_zero_iff_nil. rewrite c_queue_length. assumption.
  - exists c, l, mx. repeat split; auto. lia.
Qed.

Lemma total_queue t : d_wf t -> d_total t = length (d_queue t).
Proof. intros (_ & H & _). rewrite H. symmetry. apply qs_length. Qed.

Notation d_get := (d_get gran minalloc maxalloc).
Lemma d_get_ok t n : d_wf t -> n <= length (d_queue t) ->
  exists t' p, d_get t n = Ok (t', p) /\ d_wf t' /\ d_queue t' = skipn n (d_queue t) /\
    suffix_of (d_hist t') (d_hist t ++ firstn n (d_queue t)) /\ n <= length (d_hist t') /\
    forall k j, k + j <= n -> d_rd t' (fst p, snd p + k) j = Ok (firstn j (skipn k (d_queue t))).
Proof.
  intros W Hn. pose proof W as (G & Ht & Hm). pose proof (total_queue t W) as Tq.
  unfold BufModel.d_get. rewrite (wf_sane t W). destruct (Nat.eqb_spec n 0) as [->|Hz].
  { exists t, (0, 0). split; [reflexivity|]. split; [assumption|]. split; [reflexivity|].
    split; [cbn; rewrite app_nil_r; auto|]. split; [lia|]. intros k j Hkj. assert (j = 0) as -> by lia. reflexivity. }
  destruct (Nat.leb_spec n (d_total t)); [|lia].
  destruct (drop_empty_ok (d_list t) (d_maxunget t) G ltac:(lia)) as (c & r & mx & E & G1 & Hu & Hq & Hmx & Hd).
  rewrite E. cbn [bind]. set (t1 := Dyn (c :: r) (d_total t - n) mx).
  assert (Hh1 : suffix_of (d_hist t1) (d_hist t)).
  { unfold d_hist, t1. cbn [d_list d_maxunget]. destruct Hd as [[-> ->]| ->]; [auto|].
    replace (lastn 0 (c_hist c)) with (@nil ascii); [auto|]. symmetry. apply length_zero_iff_nil. rewrite lastn_length. reflexivity. }
  assert (Hq1 : d_queue t1 = d_queue t) by exact Hq.
  assert (HC : exists t2 c2 r2, (if c_used c <? n then d_coalesce t1 0 n else Ok t1) = Ok t2 /\ d_list t2 = c2 :: r2 /\
     d_total t2 = d_total t1 /\ d_maxunget t2 = mx /\ Forall good (c2 :: r2) /\ qs (c2 :: r2) = qs (c :: r) /\
     n <= c_used c2 /\ suffix_of (d_hist t2) (d_hist t1)).
  { destruct (Nat.ltb_spec (c_used c) n) as [Hlt|Hge].
    - destruct (coalesce_ok t1 [] c r n eq_refl G1) as (t2 & c2 & r2 & F1 & F2 & F3 & F4 & F5 & F6 & F7 & F8 & _).
      { rewrite <- qs_length, Hq. exact Hn. }
      exists t2, c2, r2. cbn [length] in F1. auto 10.
    - exists t1, c, r. repeat split; auto. }
  destruct HC as (t2 & c2 & r2 & F1 & F2 & F3 & F4 & F5 & F6 & F7 & F8).
  rewrite F1. cbn [bind]. rewrite F2. pose proof (Forall_inv F5) as Gc2. pose proof (Forall_inv_tail F5) as Gr2.
  destruct (c_get_ok c2 n) as (c3 & p & A1 & A2 & A3 & A4 & A5 & A6 & A7 & A8 & A9); [apply Gc2|assumption|].
  rewrite A1. cbn [bind]. eexists _, (0, p). split; [reflexivity|].
  assert (Qt : c_queue c2 ++ qs r2 = d_queue t) by (rewrite <- qs_cons, F6; exact Hq).
  assert (L2 : n <= length (c_queue c2)) by (rewrite c_queue_length; assumption).
  assert (T2 : firstn n (c_queue c2) = firstn n (d_queue t)).
  { rewrite <- Qt, firstn_app. replace (n - length (c_queue c2)) with 0 by lia. rewrite firstn_O, app_nil_r. reflexivity. }
  split; [|split; [|split; [|split]]].
  - split; [constructor; [split; assumption|assumption]|]. split; [|cbn; discriminate].
    cbn [d_list d_total sumused fold_right]. fold (sumused r2). rewrite F3, A5. cbn [t1 d_total].
    rewrite Tq, <- Qt, app_length, c_queue_length, qs_length. lia.
  - unfold d_queue at 1. cbn [d_list]. rewrite qs_cons, A6, <- Qt, skipn_app.
    replace (n - length (c_queue c2)) with 0 by lia. reflexivity.
  - unfold d_hist at 1. cbn [d_list d_maxunget]. rewrite F4, <- T2.
    eapply suffix_trans; [|apply suffix_app; eapply suffix_trans; [exact F8|exact Hh1]].
    assert (Eh : d_hist t2 = lastn mx (c_hist c2)) by (unfold d_hist; rewrite F2, F4; reflexivity).
    apply (suffix_compare _ _ (c_hist c2 ++ firstn n (c_queue c2))).
    + eapply suffix_trans; [apply lastn_suffix|assumption].
    + apply suffix_app. rewrite Eh. apply lastn_suffix.
    + pose proof (suffix_length _ _ A7) as L. rewrite app_length, firstn_length in *. rewrite Eh, !lastn_length. lia.
  - unfold d_hist. cbn [d_list d_maxunget]. rewrite lastn_length. lia.
  - intros k j Hkj. unfold d_rd. destruct (Nat.eqb_spec j 0) as [->|Hj]; [reflexivity|].
    cbn [fst snd d_list nth_error of_opt bind]. rewrite A9 by assumption. rewrite <- Qt. rewrite skipn_app, firstn_app.
    replace (j - length (skipn k (c_queue c2))) with 0 by (rewrite skipn_length; lia).
    rewrite firstn_O, app_nil_r. reflexivity.
Qed.

Lemma d_unget_ok t n : d_wf t -> n <= length (d_hist t) ->
  exists t', d_unget t n = Ok t' /\ d_wf t' /\
    d_hist t' = firstn (length (d_hist t) - n) (d_hist t) /\
    d_queue t' = skipn (length (d_hist t) - n) (d_hist t) ++ d_queue t.
Proof.
  intros W Hn. pose proof W as (G & Ht & Hm). unfold d_unget. rewrite (wf_sane t W).
  destruct (Nat.eqb_spec n 0) as [->|Hz].
  { exists t. rewrite Nat.sub_0_r, firstn_all, skipn_all. auto. }
  unfold d_hist, d_queue in *. destruct (d_list t) as [|c l] eqn:El; [cbn in Hn; lia|].
  rewrite lastn_length in *. inversion G as [|? ? Gc Gl]; subst.
  destruct (Nat.leb_spec n (d_maxunget t)); [|lia].
  destruct (c_unget_ok c n) as (c2 & F1 & F2 & F3 & F4 & F5 & F6 & F7 & F8); [apply Gc|rewrite <- c_hist_length; lia|].
  rewrite F1. cbn [bind]. eexists. split; [reflexivity|]. split; [|split].
  - split; [constructor; [split; assumption|assumption]|]. split; [|discriminate].
    cbn in *. lia.
  - cbn [d_list d_maxunget]. rewrite F7. unfold lastn. rewrite firstn_length.
    rewrite firstn_skipn_comm. f_equal; [lia|f_equal; lia].
  - cbn [d_list]. rewrite !qs_cons, F8, app_assoc. f_equal. f_equal.
    unfold lastn. rewrite skipn_skipn_add. f_equal. lia.
Qed.

Definition d_region (t : dyn) (p : dptr) (n : nat) : Prop :=
  n = 0 \/ exists pre c, d_list t = pre ++ [c] /\ fst p = length pre /\ c_region c (snd p) n.

Lemma replace_mid (pre : list circ) c post c' : d_replace (pre ++ c :: post) (length pre) c' = pre ++ c' :: post.
Proof.
  unfold d_replace. rewrite firstn_len. f_equal. f_equal.
  change (pre ++ c :: post) with (pre ++ [c] ++ post). rewrite app_assoc.
  rewrite (skipn_app_len (pre ++ [c]) post (S (length pre)) 0) by (rewrite app_length; cbn; lia). reflexivity.
Qed.
Lemma nth_mid (pre : list circ) c post : nth_error (pre ++ c :: post) (length pre) = Some c.
Proof. rewrite nth_error_app2, Nat.sub_diag by lia. reflexivity. Qed.

Lemma hist_mid pre c c' post T T' M : (pre = [] -> c_hist c' = c_hist c) ->
  d_hist (Dyn (pre ++ c' :: post) T M) = d_hist (Dyn (pre ++ c :: post) T' M).
Proof. intros H. unfold d_hist. cbn [d_list d_maxunget]. destruct pre; cbn; [rewrite H|]; reflexivity. Qed.

Notation d_alloc := (d_alloc gran minalloc maxalloc).
Lemma d_alloc_ok t n : d_wf t ->
  exists t' p J, d_alloc t n = Ok (t', p) /\ d_wf t' /\ d_queue t' = d_queue t ++ J /\ length J = n /\
    suffix_of (d_hist t') (d_hist t) /\ d_region t' p n.
Proof.
  intros W. pose proof W as (G & Ht & Hm). unfold BufModel.d_alloc.
  destruct (Nat.eq_dec n 0) as [->|Hz].
  { destruct (Nat.ltb_spec (l_free t) 0); [lia|]. cbn [bind Nat.eqb].
    exists t, (0, 0), []. rewrite app_nil_r. repeat split; auto. left. reflexivity. }
  assert (HB : exists t1 pre c, (if l_free t <? n then
       let! b := d_newbuffer t n in Ok (Dyn (d_list t ++ [b]) (d_total t + c_used b) (d_maxunget t))
     else Ok t) = Ok t1 /\ d_list t1 = pre ++ [c] /\ d_wf t1 /\ d_queue t1 = d_queue t /\
     suffix_of (d_hist t1) (d_hist t) /\ n <= c_size c - c_used c).
  { destruct (Nat.ltb_spec (l_free t) n) as [Hlt|Hge].
    - destruct (newbuffer_ok t n (wf_sane t W) ltac:(lia)) as (b & E & Gb & Ub & Hb & Sb). rewrite E. cbn [bind].
      eexists _, (d_list t), b. split; [reflexivity|]. split; [reflexivity|]. split; [|split; [|split]].
      + split; [apply Forall_app; auto|]. split; [|intros H; cbn in H; destruct (d_list t); discriminate].
        cbn [d_total d_list]. rewrite sumused_app. cbn. lia.
      + unfold d_queue. cbn [d_list]. rewrite qs_app, qs_one.
        replace (c_queue b) with (@nil ascii); [apply app_nil_r|]. symmetry. apply length_zero_iff_nil. rewrite c_queue_length. assumption.
      + unfold d_hist. cbn [d_list d_maxunget]. destruct (d_list t) eqn:El; cbn; [|auto].
        rewrite Hb. unfold lastn. cbn. auto.
      + lia.
    - unfold l_free in Hge. destruct (rev (d_list t)) as [|c r] eqn:Er; [lia|].
      assert (El : d_list t = rev r ++ [c]) by (rewrite <- (rev_involutive (d_list t)), Er; reflexivity).
      exists t, (rev r), c. unfold c_free in Hge. repeat split; auto. }
  destruct HB as (t1 & pre & c & E & El & W1 & Q1 & H1 & Hr). rewrite E. cbn [bind].
  destruct (Nat.eqb_spec n 0); [lia|]. rewrite El, rev_app_distr. cbn [rev app].
  destruct W1 as (G1 & T1 & M1). rewrite El in G1. apply Forall_app in G1. destruct G1 as [Gp Gc]. inversion Gc as [|? ? Gc' _]; subst.
  destruct (c_alloc_ok c n) as (c' & p & J & A1 & A2 & A3 & A4 & A5 & A6 & A7 & A8 & A9); [apply Gc'|assumption|].
  rewrite A1. cbn [bind]. rewrite rev_involutive, rev_length.
  eexists _, (length pre, p), J. split; [reflexivity|]. split; [|split; [|split; [assumption|split]]].
  - split; [apply Forall_app; split; [assumption|constructor; [split; [assumption|apply A3; apply Gc']|constructor]]|].
    split; [|intros H; cbn in H; destruct pre; discriminate].
    cbn [d_total d_list]. rewrite T1, El, !sumused_app. cbn. lia.
  - unfold d_queue in *. cbn [d_list]. rewrite <- Q1, El, !qs_app, !qs_one, A6, app_assoc. reflexivity.
  - eapply suffix_trans; [|exact H1]. destruct pre as [|x pre].
    + unfold d_hist at 1. cbn [d_list d_maxunget app]. rewrite A8. unfold lastn. cbn. auto.
    + unfold d_hist. rewrite El. cbn. auto.
  - right. exists pre, c'. auto.
Qed.

Lemma d_wr_ok t p n Q J k d : d_wf t -> d_region t p n -> d_queue t = Q ++ J -> length J = n ->
  k + length d <= n ->
  exists t', d_wr t (fst p, snd p + k) d = Ok t' /\ d_wf t' /\ d_hist t' = d_hist t /\
    d_queue t' = Q ++ overwrite J k d /\ d_region t' p n.
Proof.
  intros W R Hq LJ Hk. pose proof W as (G & Ht & Hm).
  destruct d as [|x d].
  { exists t. cbn [d_wr]. rewrite overwrite_nil. auto. }
  destruct R as [->|(pre & c & El & Ep & R)]; [cbn in Hk; lia|].
  unfold d_wr. cbn [fst snd]. rewrite Ep, El, nth_mid. cbn [of_opt bind].
  set (dd := x :: d) in *. rewrite El in G. apply Forall_app in G. destruct G as [Gp Gc]. inversion Gc as [|? ? Gc' _]; subst.
  pose proof (good_wf c Gc') as Wc.
  assert (Lc : length J <= length (c_queue c)) by (rewrite c_queue_length; apply R).
  set (Qc := firstn (length (c_queue c) - length J) (c_queue c)).
  assert (EJ : c_queue c = Qc ++ J /\ Q = qs pre ++ Qc).
  { unfold d_queue in Hq. rewrite El, qs_app, qs_one in Hq.
    rewrite <- (firstn_skipn (length (c_queue c) - length J) (c_queue c)) in Hq. fold Qc in Hq. rewrite app_assoc in Hq.
    apply app_eq_app_length in Hq.
    - destruct Hq as [E1 E2]. split; [|congruence]. rewrite <- E2. unfold Qc. rewrite firstn_skipn. reflexivity.
    - apply (f_equal (@length _)) in Hq. rewrite !app_length, skipn_length in Hq. rewrite !app_length. lia. }
  destruct EJ as [EJ EQ].
  destruct (ok_wr _ (Circ_ok false (c_size c)) c (snd p) (length J) Qc J k dd Wc R EJ eq_refl Hk) as (c' & A1 & A2 & A3 & A4 & A5 & A6 & _).
  cbn in A1, A3, A4, A5. destruct A2 as [A2 [A2' _]].
  change (c_wr c (snd p + k) dd) with (c_wr c (snd p + k) (x :: d)) in A1. unfold dd. rewrite A1. cbn [bind].
  rewrite replace_mid. eexists. split; [reflexivity|].
  assert (U : c_used c' = c_used c).
  { rewrite <- !c_queue_length, A4, EJ, !app_length, overwrite_length by lia. lia. }
  split; [|split; [|split]].
  - split; [apply Forall_app; split; [assumption|constructor; [split; [assumption|apply A6; apply Gc']|constructor]]|].
    split; [|intros H; cbn in H; destruct pre; discriminate].
    cbn [d_total d_list]. rewrite Ht, El, !sumused_app. cbn. lia.
  - rewrite (hist_mid pre c c' [] (d_total t) (d_total t)) by auto. unfold d_hist. rewrite El. reflexivity.
  - unfold d_queue. cbn [d_list]. rewrite qs_app, qs_one, A4, EQ, <- app_assoc. reflexivity.
  - right. exists pre, c'. auto.
Qed.

Lemma sumused_rev l : sumused (rev l) = sumused l.
Proof. induction l as [|c l IH]; [reflexivity|]. cbn [rev]. rewrite sumused_app, IH. cbn. fold (sumused l). lia. Qed.
Lemma unalloc_loop_ok : forall rl count, Forall good rl -> count <= sumused rl ->
  exists rl', unalloc_loop rl count = Ok rl' /\ Forall good rl' /\
    sumused rl' = sumused rl - count /\
    qs (rev rl') = firstn (sumused rl - count) (qs (rev rl)) /\
    (rl' = [] \/ exists a c c' b, rl = a ++ c :: b /\ rl' = c' :: b /\ c_hist c' = c_hist c).
Proof.
  induction rl as [|c r IH]; intros count G H.
  - cbn in H. assert (count = 0) as -> by lia. exists []. auto 6.
  - cbn [sumused fold_right] in *. fold (sumused r) in *. inversion G as [|? ? Gc Gr]; subst. cbn [unalloc_loop].
    destruct (Nat.eqb_spec count 0) as [->|Hz].
    + exists (c :: r). split; [reflexivity|]. split; [assumption|]. split; [cbn; fold (sumused r); lia|].
      split; [|right; exists [], c, c, r; auto].
      symmetry. apply firstn_all2. rewrite qs_length, sumused_rev. cbn. fold (sumused r). lia.
    + assert (LR : length (qs (rev r)) = sumused r).
      { rewrite qs_length. apply sumused_rev. }
      destruct (Nat.ltb_spec count (c_used c)) as [Hlt|Hge].
      * destruct (c_unalloc_ok c count) as (c' & A1 & A2 & A3 & A4 & A5 & A6 & A7); [apply Gc|lia|].
        rewrite A1. cbn [bind]. exists (c' :: r). split; [reflexivity|].
        split; [constructor; [split; [assumption|unfold c_norm; rewrite A3, A4; apply Gc]|assumption]|].
        split; [cbn; fold (sumused r); lia|]. split; [|right; exists [], c, c', r; auto].
        cbn [rev]. rewrite !qs_app, !qs_one, A7. rewrite firstn_app, LR.
        rewrite (firstn_all2 (qs (rev r))) by lia. do 2 f_equal. lia.
      * destruct (IH (count - c_used c) Gr ltac:(lia)) as (rl' & A1 & A2 & A3 & A4 & A5).
        rewrite A1. exists rl'. split; [reflexivity|]. split; [assumption|]. split; [lia|]. split.
        -- rewrite A4. cbn [rev]. rewrite qs_app, firstn_app, LR.
           replace (c_used c + sumused r - count - sumused r) with 0 by lia. rewrite firstn_O, app_nil_r. f_equal. lia.
        -- destruct A5 as [->|(a & x & x' & b & E1 & E2 & E3)]; [auto|]. right. exists (c :: a), x, x', b.
           rewrite E1. auto.
Qed.
Lemma d_unalloc_ok t n : d_wf t -> n <= length (d_queue t) ->
  exists t', d_unalloc t n = Ok t' /\ d_wf t' /\ suffix_of (d_hist t') (d_hist t) /\
    d_queue t' = firstn (length (d_queue t) - n) (d_queue t).
Proof.
  intros W Hn. pose proof W as (G & Ht & Hm). rewrite <- total_queue in * by assumption.
  unfold d_unalloc. destruct (Nat.leb_spec n (d_total t)); [|lia].
  destruct (unalloc_loop_ok (rev (d_list t)) n) as (rl & A1 & A2 & A3 & A4 & A5).
  { apply Forall_rev. assumption. }
  { rewrite sumused_rev. lia. }
  rewrite A1. cbn [bind]. rewrite sumused_rev, rev_involutive in *. eexists. split; [reflexivity|]. split; [|split].
  - split; [apply Forall_rev; assumption|]. split; [cbn; rewrite sumused_rev; lia|].
    cbn. destruct rl as [|x rl]; [reflexivity|]. cbn [rev]. intros E. destruct (rev rl); discriminate.
  - unfold d_hist. cbn [d_list d_maxunget]. destruct A5 as [->|(a & c & c' & b & E1 & E2 & E3)]; [cbn; auto|].
    rewrite E2. cbn [rev].
    assert (El : d_list t = rev b ++ c :: rev a).
    { rewrite <- (rev_involutive (d_list t)), E1, rev_app_distr. cbn [rev]. rewrite <- app_assoc. reflexivity. }
    rewrite El. destruct (rev b); cbn; [rewrite E3|]; auto.
  - unfold d_queue. cbn [d_list]. rewrite A4, Ht. reflexivity.
Qed.

Lemma d_optget_bounds l : Forall good l ->
  let o := match filter (fun c => negb (c_optget c =? 0)) l with [] => 0 | c :: _ => c_optget c end in
  o <= sumused l /\ (0 < sumused l -> 0 < o).
Proof.
  induction 1 as [|c l [Gw Gn] G IH]; cbn [filter].
  - cbn. lia.
  - cbn [sumused fold_right]. fold (sumused l). unfold c_norm in Gn.
    destruct (Nat.eqb_spec (c_optget c) 0) as [E|E]; cbn [negb]; unfold c_optget in *; cbn in *; lia.
Qed.

Lemma search_from_ok : forall l i o, o < sumused l ->
  exists pre c post o', l = pre ++ c :: post /\ search_from l i o = Some (i + length pre, Z.of_nat o') /\
    o = sumused pre + o' /\ o' < c_used c.
Proof.
  induction l as [|c l IH]; intros i o H; [cbn in H; lia|]. cbn [search_from].
  cbn [sumused fold_right] in H. fold (sumused l) in H. destruct (Nat.ltb_spec o (c_used c)).
  - exists [], c, l, o. cbn. rewrite Nat.add_0_r. auto.
  - destruct (IH (S i) (o - c_used c) ltac:(lia)) as (pre & c' & post & o' & E1 & E2 & E3 & E4).
    exists (c :: pre), c', post, o'. rewrite E2, E1. cbn [length sumused fold_right app]. fold (sumused pre).
    split; [reflexivity|]. split; [do 2 f_equal; lia|]. lia.
Qed.
Lemma d_search_ok t o : (0 <= o)%Z -> Z.to_nat o < sumused (d_list t) ->
  exists pre c post o', d_list t = pre ++ c :: post /\ d_search t o = Some (length pre, Z.of_nat o') /\
    Z.to_nat o = sumused pre + o' /\ o' < c_used c.
Proof.
  intros H1 H2. destruct (search_from_ok (d_list t) 0 (Z.to_nat o) H2) as (pre & c & post & o' & E1 & E2 & E3 & E4).
  exists pre, c, post, o'. split; [assumption|]. split; [|auto].
  unfold d_search. destruct (d_list t) eqn:El; [destruct pre; discriminate|].
  destruct (Z.ltb_spec o 0); [lia|]. exact E2.
Qed.
Lemma c_peekable_pos c o : o < c_used c -> c_peekable c (Z.of_nat o) = c_used c - o.
Proof.
  intros H. unfold c_peekable, base_peekable. destruct (Z.eqb_spec (Z.of_nat o) 0); [lia|].
  destruct (Z.ltb_spec (Z.of_nat o) 0); lia.
Qed.

Lemma window_mid pre q post h o n : o + n <= length q ->
  window h (pre ++ q ++ post) (Z.of_nat (length pre + o)) n = firstn n (skipn o q).
Proof.
  intros H. rewrite window_q. rewrite (skipn_app_len pre _ _ o) by reflexivity.
  rewrite skipn_app, firstn_app. replace (n - length (skipn o q)) with 0 by (rewrite skipn_length; lia).
  rewrite firstn_O, app_nil_r. reflexivity.
Qed.
Lemma overwrite_mid pre q post o d : o + length d <= length q ->
  overwrite (pre ++ q ++ post) (length pre + o) d = pre ++ overwrite q o d ++ post.
Proof.
  intros H. rewrite <- overwrite_app by assumption. unfold overwrite at 1.
  rewrite firstn_app, firstn_all2 by lia. rewrite skipn_app, skipn_all2 by lia.
  unfold overwrite. rewrite <- app_assoc. cbn [app]. do 2 f_equal; [f_equal; lia|]. do 2 f_equal. lia.
Qed.

(** peek at the sub-buffer after [pre]; no coalescing needed *)
Lemma peek_sub t pre c post o n : d_wf t -> d_list t = pre ++ c :: post -> 0 < n -> o + n <= c_used c ->
  exists c' p, c_mpeek c (Z.of_nat o) n = Ok (c', p) /\
    let t' := Dyn (pre ++ c' :: post) (d_total t) (d_maxunget t) in
    d_wf t' /\ d_hist t' = d_hist t /\ d_queue t' = d_queue t /\
    d_rd t' (length pre, p) n = Ok (window (d_hist t) (d_queue t) (Z.of_nat (sumused pre + o)) n) /\
    forall d, length d = n ->
      exists t'', d_wr t' (length pre, p) d = Ok t'' /\ d_wf t'' /\ d_hist t'' = d_hist t /\
        d_queue t'' = overwrite (d_queue t) (sumused pre + o) d.
Proof.
  intros W El Hn Ho. pose proof W as (G & Ht & Hm). rewrite El in G. apply Forall_app in G. destruct G as [Gp Gcp].
  pose proof (Forall_inv Gcp) as Gc. pose proof (Forall_inv_tail Gcp) as Gq.
  destruct (c_mpeek_ok c (Z.of_nat o) n) as (c' & p & A1 & A2 & A3 & A4 & A5 & A6 & A7 & A8 & A9 & A10);
    [apply Gc|assumption|lia|lia|].
  exists c', p. split; [assumption|]. cbv zeta. set (t' := Dyn _ _ _).
  assert (Eh : d_hist t' = d_hist t).
  { unfold t'. rewrite (hist_mid pre c c' post (d_total t) (d_total t)) by auto. unfold d_hist. rewrite El. reflexivity. }
  assert (Eq : d_queue t = qs pre ++ c_queue c ++ qs post) by (unfold d_queue; rewrite El, qs_app, qs_cons; reflexivity).
  split.
  { split; [apply Forall_app; split; [assumption|constructor; [split; [assumption|apply A8; [lia|apply Gc]]|assumption]]|].
    split; [|intros H; cbn in H; destruct pre; discriminate].
    cbn [t' d_total d_list]. rewrite Ht, El, !sumused_app. cbn. lia. }
  split; [assumption|]. split; [unfold d_queue; cbn [t' d_list]; rewrite El, !qs_app, !qs_cons, A5; reflexivity|].
  split.
  - unfold d_rd. destruct (Nat.eqb_spec n 0); [lia|]. cbn [fst snd t' d_list]. rewrite nth_mid. cbn [of_opt bind].
    rewrite A9. f_equal. rewrite window_q, Eq. rewrite <- qs_length.
    rewrite window_mid by (rewrite c_queue_length; assumption). reflexivity.
  - intros d Ld. destruct (A10 d Ld ltac:(lia)) as (c2 & B1 & B2 & B3 & B4 & B5 & B6 & B7 & B8).
    unfold d_wr. destruct d as [|x d]; [cbn in Ld; lia|]. cbn [fst snd t' d_list]. rewrite nth_mid. cbn [of_opt bind].
    rewrite B1. cbn [bind]. rewrite replace_mid. eexists. split; [reflexivity|]. cbn [d_total d_maxunget].
    split; [|split].
    + split; [apply Forall_app; split; [assumption|constructor; [split; [assumption|]|assumption]]|].
      { unfold c_norm. rewrite B3, B4, <- A3. apply A8; [lia|apply Gc]. }
      split; [|intros H; cbn in H; destruct pre; discriminate].
      cbn [t' d_total d_list]. rewrite Ht, El, !sumused_app. cbn. lia.
    + rewrite (hist_mid pre c c2 post (d_total t) (d_total t)) by auto. unfold d_hist. rewrite El. reflexivity.
    + unfold d_queue at 1. cbn [d_list]. rewrite qs_app, qs_cons, B8, Nat2Z.id, Eq, <- qs_length.
      rewrite overwrite_mid by (rewrite c_queue_length; lia). reflexivity.
Qed.

Definition Dyn_ok : buffer_ok DynStore.
Proof.
  refine (BufferOk DynStore d_wf d_hist d_queue (fun _ _ => True) d_region (fun _ => True) false
            _ _ _ _ _ _ _ _ _ _ _ _ _ _ _ _ _ _ _ _ _);
  cbn [bT bP padd bused bfree bungettable bunallocable boptget boptalloc bpeekable boptpeek bget bunget balloc bunalloc bmpeek bzap brd bwr BufModel.DynStore].
  - intros [i p]. cbn. rewrite Nat.add_0_r. reflexivity.
  - intros [i p] a b. cbn. rewrite Nat.add_assoc. reflexivity.
  - apply total_queue.
  - intros t _. symmetry. apply hist_length.
  - apply total_queue.
  - intros t o W. unfold d_peekable. rewrite (total_queue t W), hist_length. reflexivity.
  - trivial.
  - trivial.
  - intros t (G & Ht & _). unfold d_queue. rewrite qs_length. apply (d_optget_bounds (d_list t) G).
  - intros t (G & Ht & _) _ Hq. apply (d_optget_bounds (d_list t) G). rewrite <- qs_length.
    unfold d_queue in Hq. destruct (qs (d_list t)); [congruence|cbn; lia].
  - trivial.
  - intros t n W _ Hn. unfold d_optalloc.
    destruct (Nat.eqb_spec (match rev (d_list t) with [] => 0 | c :: _ => c_optalloc c end) 0); lia.
  - intros t o W H1 H2. pose proof W as (G & Ht & Hm). unfold d_queue in *. rewrite qs_length in *. unfold d_optpeek.
    destruct (Z.ltb_spec o 0) as [Ho|Ho].
    + rewrite hist_length in H1. unfold d_ungettable in H1. unfold d_search.
      destruct (d_list t) as [|c l] eqn:El; [lia|]. destruct (Z.ltb_spec o 0); [|lia].
      destruct (Nat.leb_spec (Z.to_nat (- o)) (c_ungettable c)); [|lia]. cbn [nth_error].
      unfold c_peekable, base_peekable. destruct (Z.eqb_spec o 0); [lia|]. destruct (Z.ltb_spec o 0); [|lia].
      destruct (Nat.leb_spec (Z.to_nat (- o)) (c_ungettable c)); [|lia]. cbn [sumused fold_right]. lia.
    + destruct (d_search_ok t o Ho ltac:(lia)) as (pre & c & post & o' & E1 & E2 & E3 & E4).
      rewrite E2, E1, nth_mid, c_peekable_pos by assumption. rewrite sumused_app. cbn [sumused fold_right]. lia.
  - intros t n W Hn. destruct (d_get_ok t n W Hn) as (t' & p & H1 & H2 & H3 & H4 & H5 & H6).
    exists t', p. auto 10.
  - apply d_unget_ok.
  - intros t n W _. destruct (d_alloc_ok t n W) as (t' & p & J & H1 & H2 & H3 & H4 & H5 & H6).
    exists t', p, J. auto 10.
  - intros t p n Q J k d W R Hq LJ Hk. destruct (d_wr_ok t p n Q J k d W R Hq LJ Hk) as (t' & H1 & H2 & H3 & H4 & H5).
    exists t'. auto 10.
  - apply d_unalloc_ok.
  - intros t o W. exists (0, 0). split; reflexivity.
  - intros t o n W [Ho|Ho] Hn Hp H1 H2; [discriminate|]. pose proof W as (G & Ht & Hm).
    destruct (d_search_ok t o Ho) as (pre & c & post & o' & E1 & E2 & E3 & E4).
    { unfold d_queue in H2. rewrite qs_length in H2. lia. }
    unfold d_optpeek in Hp. rewrite E2, E1, nth_mid, c_peekable_pos in Hp by assumption.
    destruct (peek_sub t pre c post o' n W E1 Hn ltac:(lia)) as (c' & p & A1 & A2 & A3 & A4 & A5 & A6).
    exists (Dyn (pre ++ c' :: post) (d_total t) (d_maxunget t)), (length pre, p).
    split.
    { unfold d_mpeek. destruct (Nat.eqb_spec n 0); [lia|]. rewrite E2, E1, nth_mid. cbn [of_opt bind].
      rewrite c_peekable_pos by assumption. destruct (Nat.ltb_spec (c_used c - o') n); [lia|]. cbn [bind].
      rewrite E1, nth_mid. cbn [of_opt bind]. rewrite A1. cbn [bind]. rewrite replace_mid. reflexivity. }
    rewrite <- E3 in A5, A6. rewrite Z2Nat.id in A5 by assumption.
    repeat (split; [assumption|]). intros d Ld _. exact (A6 d Ld).
  - intros t W. split; [|split; reflexivity]. repeat split; cbn; auto.
Defined.

Lemma dyn_new_ok : wf _ Dyn_ok dyn_new.
Proof. repeat split; cbn; auto. Qed.

(** peek at offset 0 works for any number of bytes, across sub-buffers *)
Lemma peek0_ok t n : d_wf t -> n <= length (d_queue t) ->
  exists t', peek_read DynStore t 0 n = Ok (t', firstn n (d_queue t)) /\ d_wf t' /\
    d_queue t' = d_queue t /\ suffix_of (d_hist t') (d_hist t).
Proof.
  intros W Hn. pose proof W as (G & Ht & Hm). unfold peek_read. cbn [bmpeek brd BufModel.DynStore]. unfold d_mpeek.
  destruct (Nat.eqb_spec n 0) as [->|Hz]; [exists t; auto|].
  destruct (d_search_ok t 0 ltac:(lia)) as (pre & c & post & o' & E1 & E2 & E3 & E4).
  { unfold d_queue in Hn. rewrite qs_length in Hn. lia. }
  assert (o' = 0) as -> by lia. assert (Hpre : sumused pre = 0) by lia.
  rewrite E2, E1, nth_mid. cbn [of_opt bind].
  assert (G' := G). rewrite E1 in G'. apply Forall_app in G'. destruct G' as [Gp Gc].
  assert (HC : exists t2 c2 r2, (if c_peekable c (Z.of_nat 0) <? n then d_coalesce t (length pre) n else Ok t) = Ok t2 /\
    d_list t2 = pre ++ c2 :: r2 /\ d_wf t2 /\ d_queue t2 = d_queue t /\ n <= c_used c2 /\ suffix_of (d_hist t2) (d_hist t)).
  { rewrite c_peekable_pos by assumption. rewrite Nat.sub_0_r. destruct (Nat.ltb_spec (c_used c) n).
    - destruct (coalesce_ok t pre c post n E1 Gc) as (t2 & c2 & r2 & F1 & F2 & F3 & F4 & F5 & F6 & F7 & F8 & _).
      { unfold d_queue in Hn. rewrite qs_length, E1, sumused_app in Hn. lia. }
      assert (Eq : d_queue t2 = d_queue t) by (unfold d_queue; rewrite F2, E1, !qs_app, F6; reflexivity).
      exists t2, c2, r2. repeat (split; [assumption|]). split.
      { split; [rewrite F2; apply Forall_app; auto|]. split; [|rewrite F2; destruct pre; discriminate].
        rewrite F3, Ht, <- !qs_length. unfold d_queue in Eq. rewrite Eq. reflexivity. }
      auto.
    - exists t, c, post. repeat (split; [auto; fail|]). auto. }
  destruct HC as (t2 & c2 & r2 & F1 & F2 & F3 & F4 & F5 & F6). rewrite F1. cbn [bind]. rewrite F2, nth_mid. cbn [of_opt bind].
  destruct (peek_sub t2 pre c2 r2 0 n F3 F2 ltac:(lia) ltac:(lia)) as (c' & p & A1 & A2 & A3 & A4 & A5 & _).
  rewrite A1. cbn [bind]. rewrite replace_mid. rewrite A5. cbn [bind]. eexists. split.
  - do 2 f_equal. rewrite Hpre, window_q, F4. reflexivity.
  - split; [assumption|]. split; [congruence|]. rewrite A3. assumption.
Qed.

End Dyn.

(** ** merge of two growing buffers *)
Lemma steal_ok : forall fuel a b count, length (d_list b) < fuel -> d_wf a -> d_wf b -> 
  count <= length (d_queue b) -> 0 < count ->
  exists a' b' count', steal fuel a b count = Ok (a', b', count') /\ d_wf a' /\ d_wf b' /\
    count' <= count /\
    d_queue a' = d_queue a ++ firstn (count - count') (d_queue b) /\
    d_queue b' = skipn (count - count') (d_queue b) /\ count' <= length (d_queue b') /\ d_hist a' = d_hist a.
Proof.
  induction fuel as [|fuel IH]; intros a b count Hf Wa Wb Hc Hp; [lia|]. cbn [steal].
  pose proof Wa as (Ga & Ta & Ma). pose proof Wb as (Gb & Tb & Mb).
  destruct (d_list b) as [|buf r] eqn:El.
  { unfold d_queue in Hc. rewrite El in Hc. cbn in Hc. lia. }
  assert (Qb : d_queue b = c_queue buf ++ qs r) by (unfold d_queue; rewrite El, qs_cons; reflexivity).
  assert (Lb : length (c_queue buf) = c_used buf) by apply c_queue_length.
  pose proof (Forall_inv Gb) as Gbuf. pose proof (Forall_inv_tail Gb) as Gr.
  destruct (Nat.ltb_spec count (c_used buf)) as [Hlt|Hge].
  { exists a, b, count. rewrite Nat.sub_diag. cbn [firstn skipn]. rewrite app_nil_r. split; [reflexivity|]. auto 10. }
  set (b1 := Dyn r (d_total b - c_used buf) 0).
  set (a1 := Dyn (d_list a ++ [buf]) (d_total a + c_used buf) (d_maxunget a)).
  assert (Wb1 : d_wf b1).
  { split; [assumption|]. split; [|reflexivity]. cbn [b1 d_total d_list]. cbn in Tb. fold (sumused r) in Tb. lia. }
  assert (Wa1 : d_wf a1).
  { split; [apply Forall_app; auto|]. split; [|intros H; cbn in H; destruct (d_list a); discriminate].
    cbn [a1 d_total d_list]. rewrite sumused_app. cbn. lia. }
  assert (Qa1 : d_queue a1 = d_queue a ++ c_queue buf) by (unfold d_queue; cbn [a1 d_list]; rewrite qs_app, qs_one; reflexivity).
  assert (Qb1 : d_queue b1 = qs r) by reflexivity.
  assert (Ha1 : d_hist a1 = d_hist a).
  { unfold d_hist. cbn [a1 d_list d_maxunget]. destruct (d_list a) eqn:Ea; cbn; [|reflexivity].
    rewrite Ma by reflexivity. apply length_zero_iff_nil. rewrite lastn_length. reflexivity. }
  destruct (Nat.eqb_spec (count - c_used buf) 0) as [Hz|Hz].
  - exists a1, b1, 0. split; [reflexivity|]. split; [assumption|]. split; [assumption|]. split; [lia|].
    rewrite Nat.sub_0_r. assert (count = length (c_queue buf)) as -> by lia.
    rewrite Qb, firstn_len, skipn_len. repeat split; auto. lia.
  - destruct (IH a1 b1 (count - c_used buf)) as (a' & b' & count' & F1 & F2 & F3 & F4 & F5 & F6 & F7 & F8);
      [cbn [b1 d_list length] in *; lia|assumption|assumption|rewrite Qb1; rewrite Qb, app_length in Hc; lia|lia|].
    exists a', b', count'. split; [assumption|]. split; [assumption|]. split; [assumption|]. split; [lia|].
    split; [|split; [|split; [assumption|congruence]]].
    + rewrite F5, Qa1, Qb1, Qb, <- app_assoc. f_equal. rewrite firstn_app, Lb. rewrite (firstn_all2 (c_queue buf)) by lia. do 2 f_equal. lia.
    + rewrite F6, Qb1, Qb. rewrite skipn_app, Lb. rewrite (skipn_all2 (c_queue buf)) by lia. cbn [app]. f_equal. lia.
Qed.


Definition DynP_ok (p : dparams) (H : 0 < p_gran p /\ 0 < p_unlimited p) : buffer_ok (DynStoreP p) :=
  Dyn_ok _ (p_minalloc p) (p_maxalloc p) _ (proj1 H) (proj2 H).

Theorem dyn_merge_ok pa pb (Ha : 0 < p_gran pa /\ 0 < p_unlimited pa) (Hb : 0 < p_gran pb /\ 0 < p_unlimited pb) a b count : d_wf a -> d_wf b -> count <= length (d_queue b) ->
  exists a' b', dyn_merge pa pb a b count = Ok (a', b') /\ d_wf a' /\ d_wf b' /\
    suffix_of (d_hist a') (d_hist a) /\
    d_queue a' = d_queue a ++ firstn count (d_queue b) /\ d_queue b' = skipn count (d_queue b).
Proof.
  intros Wa Wb Hc. unfold dyn_merge. destruct (Nat.eqb_spec count 0) as [->|Hz].
  - exists a, b. cbn. rewrite app_nil_r. auto 10.
  - destruct (steal_ok (S (length (d_list b))) a b count) as (a1 & b1 & c1 & E1 & W1 & W2 & Hle & Q1 & Q2 & L1 & H1);
      [lia|assumption|assumption|assumption|lia|].
    rewrite E1. cbn [bind].
    destruct (basicmerge_ok _ _ (DynP_ok pa Ha) (DynP_ok pb Hb) a1 b1 c1 W1 W2 I L1 I) as (a2 & b2 & F1 & F2 & F3 & _ & _ & F4 & F5 & F6).
    exists a2, b2. split; [exact F1|]. cbn [wf queue hist DynP_ok Dyn_ok] in *. split; [assumption|]. split; [assumption|].
    split; [rewrite <- H1; assumption|]. rewrite F5, F6, Q1, Q2. split.
    + rewrite <- app_assoc. f_equal. rewrite firstn_skipn_comm.
      rewrite <- (firstn_skipn (count - c1) (firstn count (d_queue b))).
      rewrite firstn_firstn. f_equal; [f_equal; lia|]. do 2 f_equal. lia.
    + rewrite skipn_skipn_add. f_equal. lia.
Qed.
