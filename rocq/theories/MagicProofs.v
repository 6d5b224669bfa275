(** Proofs about the shared circle. *)
From Verif Require Import Base BaseFacts MagicModel MagicSpec.

Lemma mod_inj sz h a b : a < sz -> b < sz -> (h + a) mod sz = (h + b) mod sz -> a = b.
Proof.
  intros Ha Hb E.
  pose proof (Nat.div_mod (h + a) sz ltac:(lia)). pose proof (Nat.div_mod (h + b) sz ltac:(lia)).
  rewrite E in H. assert ((h + a) / sz = (h + b) / sz) by nia. nia.
Qed.

Lemma mod_add_l sz h u i : sz <> 0 -> ((h + u) mod sz + i) mod sz = (h + (u + i)) mod sz.
Proof. intros H. rewrite Nat.add_mod_idemp_l by lia. f_equal. lia. Qed.

Lemma mod_wrap sz a : a < sz + sz -> 0 < sz -> a mod sz = if a <? sz then a else a - sz.
Proof.
  intros H H0. destruct (Nat.ltb_spec a sz).
  - apply Nat.mod_small. lia.
  - replace a with ((a - sz) + 1 * sz) at 1 by lia. rewrite Nat.mod_add by lia. apply Nat.mod_small. lia.
Qed.

Lemma used_value_ok sz h u : h < sz -> u < sz -> used_value sz ((h + u) mod sz) h = Ok u.
Proof.
  intros Hh Hu. rewrite (mod_wrap sz (h + u)) by lia. unfold used_value.
  destruct (Nat.ltb_spec (h + u) sz).
  - destruct (Z.ltb_spec (Z.of_nat (h + u) - Z.of_nat h) 0); [lia|].
    destruct (Z.leb_spec 0 (Z.of_nat (h + u) - Z.of_nat h)); [|lia].
    destruct (Z.ltb_spec (Z.of_nat (h + u) - Z.of_nat h) (Z.of_nat sz)); [|lia]. cbn. f_equal. lia.
  - destruct (Z.ltb_spec (Z.of_nat (h + u - sz) - Z.of_nat h) 0); [|lia].
    destruct (Z.leb_spec 0 (Z.of_nat (h + u - sz) - Z.of_nat h + Z.of_nat sz)); [|lia].
    destruct (Z.ltb_spec (Z.of_nat (h + u - sz) - Z.of_nat h + Z.of_nat sz) (Z.of_nat sz)); [|lia].
    cbn. f_equal. lia.
Qed.

(** Outstanding copies: every one is at its place on the ring, and every index
    below [len] is outstanding or done. *)
Definition pend_ok (sz base len : nat) (l : list (nat * nat)) (done : nat -> Prop) : Prop :=
  (forall i a, In (i, a) l -> i < len /\ a = (base + i) mod sz) /\
  (forall i, i < len -> In (i, (base + i) mod sz) l \/ done i).

Lemma in_take_out {A} (l : list A) k d x : k < length l -> In x l -> x = nth k l d \/ In x (take_out l k).
Proof.
  intros Hk Hx. unfold take_out.
  rewrite <- (firstn_skipn k l) in Hx. apply in_app_or in Hx. destruct Hx as [Hx|Hx].
  - right. apply in_or_app. auto.
  - assert (E : skipn k l = nth k l d :: skipn (S k) l).
    { clear -Hk. revert k Hk; induction l as [|y l IH]; intros k Hk; cbn in Hk; [lia|].
      destruct k; [reflexivity|]. cbn [skipn nth]. rewrite IH by lia. reflexivity. }
    rewrite E in Hx. destruct Hx as [Hx|Hx]; [left; congruence|right; apply in_or_app; auto].
Qed.

Lemma take_out_in {A} (l : list A) k x : In x (take_out l k) -> In x l.
Proof.
  unfold take_out. intros H. apply in_app_or in H. destruct H as [H|H].
  - rewrite <- (firstn_skipn k l). apply in_or_app. auto.
  - rewrite <- (firstn_skipn (S k) l). apply in_or_app. auto.
Qed.

Lemma pend_init sz base len chunk1 done : base < sz -> len < sz -> chunk1 = min len (sz - base) ->
  pend_ok sz base len (copies 0 base chunk1 ++ copies chunk1 0 (len - chunk1)) done.
Proof.
  intros Hb Hl ->. unfold copies. split.
  - intros i a H. apply in_app_or in H.
    destruct H as [H|H]; apply in_map_iff in H; destruct H as (j & E & Hj); apply in_seq in Hj;
      injection E as <- <-; (split; [lia|]); rewrite mod_wrap by lia;
      match goal with |- context [?a <? ?b] => destruct (Nat.ltb_spec a b) end; lia.
  - intros i Hi. left. apply in_or_app. rewrite mod_wrap by lia.
    destruct (Nat.ltb_spec (base + i) sz).
    + left. apply in_map_iff. exists i. split; [f_equal; lia|]. apply in_seq. lia.
    + right. apply in_map_iff. exists (i - (sz - base)). split; [f_equal; lia|]. apply in_seq. lia.
Qed.

Lemma pend_step sz base len now later (done done' : nat -> Prop) k d i a :
  pend_ok sz base len (now ++ later) done -> k < length now -> nth k now d = (i, a) ->
  (forall j, j < len -> done j -> done' j) -> done' i ->
  pend_ok sz base len (take_out now k ++ later) done'.
Proof.
  intros [P1 P2] Hk Hn Hd Hi. split.
  - intros j b H. apply P1. apply in_app_or in H. apply in_or_app.
    destruct H as [H|H]; [left; eapply take_out_in; eassumption|right; assumption].
  - intros j Hj. destruct (P2 j Hj) as [H|H]; [|right; auto].
    apply in_app_or in H. destruct H as [H|H].
    + destruct (in_take_out now k d _ Hk H) as [E|E].
      * rewrite Hn in E. injection E as -> _. right. assumption.
      * left. apply in_or_app. auto.
    + left. apply in_or_app. auto.
Qed.

(** The ring at [base] shows [l]. *)
Definition shows (m : mem) (sz base : nat) (l : bytes) : Prop :=
  forall i, i < length l -> nth_error m ((base + i) mod sz) = nth_error l i.

Lemma nth_error_store m a b m' : store m a b = Some m' ->
  forall j, nth_error m' j = if j =? a then Some b else nth_error m j.
Proof.
  revert a m'; induction m as [|x m IH]; intros a m' H j; cbn in H; [discriminate|].
  destruct a as [|a].
  - injection H as <-. destruct j; reflexivity.
  - destruct (store m a b) eqn:E; [|discriminate]. injection H as <-. destruct j; [reflexivity|].
    cbn [nth_error]. rewrite (IH _ _ E). reflexivity.
Qed.

Lemma store_ok m a b : a < length m -> exists m', store m a b = Some m'.
Proof. intros H. rewrite store_some by assumption. eauto. Qed.

Definition call_of (p : proc) : option call :=
  match p with
  | Idle => None
  | InUsed c _ | AtChunk c _ | AtCopy c _ _ | Copying c _ _ _ _ | AtUpdate c _ _ | AtStore c _ _ _ => Some c
  end.

Definition put_len (cap : nat) (q d : bytes) (before len : nat) : Prop :=
  len <= length d /\ min (length d) (cap - before) <= len /\ length q + len <= cap.
Definition get_len (q : bytes) (n before len : nat) : Prop :=
  len <= n /\ min n before <= len /\ len <= length q.

(** What is known about the writer. *)
Definition w_inv (cap : nat) (s : shared) (q : bytes) (before : nat) (p : proc) : Prop :=
  let sz := cap + 1 in let t := s_tail s in
  match p with
  | Idle => True
  | InUsed c u => length q <= before <= cap /\
      match u with
      | U0 => True
      | UT t' => t' = t
      | UH h' => h' < sz /\ exists u, length q <= u <= before /\ t = (h' + u) mod sz
      end
  | AtChunk (CPut d) len => put_len cap q d before len
  | AtCopy (CPut d) len chunk1 => put_len cap q d before len /\ chunk1 = min len (sz - t)
  | Copying (CPut d) len now later buf => put_len cap q d before len /\ buf = [] /\
      pend_ok sz t len (now ++ later) (fun i => nth_error (s_circle s) ((t + i) mod sz) = nth_error d i)
  | AtUpdate (CPut d) len buf => put_len cap q d before len /\ buf = [] /\
      forall i, i < len -> nth_error (s_circle s) ((t + i) mod sz) = nth_error d i
  | AtStore (CPut d) len buf v => put_len cap q d before len /\ buf = [] /\ v = (t + len) mod sz /\
      forall i, i < len -> nth_error (s_circle s) ((t + i) mod sz) = nth_error d i
  | _ => False
  end.

(** What is known about the reader. *)
Definition r_inv (cap : nat) (s : shared) (q : bytes) (before : nat) (p : proc) : Prop :=
  let sz := cap + 1 in let h := s_head s in
  match p with
  | Idle => True
  | InUsed c u => before <= length q /\
      match u with
      | U0 => True
      | UT t' => exists u, before <= u <= length q /\ t' = (h + u) mod sz
      | UH h' => h' = h
      end
  | AtChunk (CGet n) len => get_len q n before len
  | AtCopy (CGet n) len chunk1 => get_len q n before len /\ chunk1 = min len (sz - h)
  | Copying (CGet n) len now later buf => get_len q n before len /\ length buf = len /\
      pend_ok sz h len (now ++ later) (fun i => nth_error buf i = nth_error q i)
  | AtUpdate (CGet n) len buf => get_len q n before len /\ buf = firstn len q
  | AtUpdate (CSkip n) len buf => get_len q n before len /\ buf = []
  | AtStore (CGet n) len buf v => get_len q n before len /\ v = (h + len) mod sz /\ buf = firstn len q
  | AtStore (CSkip n) len buf v => get_len q n before len /\ v = (h + len) mod sz /\ buf = []
  | _ => False
  end.

Record inv (cap : nat) (y : sys) (q : bytes) : Prop := Inv
  { i_h : s_head (y_sh y) < cap + 1;
    i_t : s_tail (y_sh y) = (s_head (y_sh y) + length q) mod (cap + 1);
    i_m : length (s_circle (y_sh y)) = cap + 1;
    i_q : length q <= cap;
    i_s : shows (s_circle (y_sh y)) (cap + 1) (s_head (y_sh y)) q;
    i_l : exists st wb rb, accepts cap (y_log y) st q /\
        st true = option_map (fun c => (c, wb)) (call_of (y_w y)) /\
        st false = option_map (fun c => (c, rb)) (call_of (y_r y)) /\
        (forall c, call_of (y_w y) = Some c -> allowed true c) /\
        (forall c, call_of (y_r y) = Some c -> allowed false c) /\
        w_inv cap (y_sh y) q wb (y_w y) /\ r_inv cap (y_sh y) q rb (y_r y) }.

Lemma firstn_nth_error {A} (l : list A) : forall n i, i < n -> nth_error (firstn n l) i = nth_error l i.
Proof.
  induction l as [|x l IH]; intros n i H.
  - rewrite firstn_nil. reflexivity.
  - destruct n; [lia|]. destruct i; [reflexivity|]. cbn. apply IH. lia.
Qed.
Lemma skipn_nth_error {A} (l : list A) : forall n i, nth_error (skipn n l) i = nth_error l (n + i).
Proof.
  induction l as [|x l IH]; intros n i.
  - rewrite skipn_nil. destruct i, n; reflexivity.
  - destruct n; [reflexivity|]. cbn. apply IH.
Qed.
Lemma nth_error_ext {A} (a b : list A) : length a = length b ->
  (forall i, i < length a -> nth_error a i = nth_error b i) -> a = b.
Proof.
  revert b; induction a as [|x a IH]; intros [|y b] Hl H; try discriminate; [reflexivity|].
  cbn in Hl. pose proof (H 0 ltac:(cbn; lia)) as H0. cbn in H0. injection H0 as ->. f_equal.
  apply IH; [lia|]. intros i Hi. apply (H (S i)). cbn. lia.
Qed.

(** The reader does not notice bytes being added behind it. *)
Lemma r_inv_grow cap s s' q d before p : s_head s' = s_head s ->
  r_inv cap s q before p -> r_inv cap s' (q ++ d) before p.
Proof.
  intros Eh. unfold r_inv, get_len. rewrite Eh, app_length.
  destruct p as [|c u|c len|c len k|c len now later buf|c len buf|c len buf v]; try (destruct c); auto.
  all: try (intros (H1 & H2); split; [lia|]; destruct u; auto; destruct H2 as (u & ? & ?); exists u; split; [lia|assumption]).
  - lia.
  - intros ((?&?&?)&?). repeat split; (assumption || lia).
  - intros ((?&?&?)&?&P). split; [lia|]. split; [assumption|].
    destruct P as [P1 P2]. split; [assumption|]. intros i Hi. destruct (P2 i Hi) as [?|E]; [left; assumption|right].
    rewrite E. symmetry. apply nth_error_app1. lia.
  - intros ((?&?&?)&->). split; [lia|]. rewrite firstn_app. replace (len - length q) with 0 by lia.
    cbn. symmetry. apply app_nil_r.
  - intros ((?&?&?)&?). repeat split; (assumption || lia).
  - intros ((?&?&?)&?&->). split; [lia|]. split; [assumption|].
    rewrite firstn_app. replace (len - length q) with 0 by lia. cbn. symmetry. apply app_nil_r.
  - intros ((?&?&?)&?&?). repeat split; (assumption || lia).
Qed.

(** The writer does not notice bytes being taken away. *)
Lemma w_inv_shrink cap s s' q q' before p : s_tail s' = s_tail s -> s_circle s' = s_circle s ->
  length q' <= length q -> w_inv cap s q before p -> w_inv cap s' q' before p.
Proof.
  intros Et Ec Hq. unfold w_inv, put_len. rewrite Et, Ec.
  destruct p as [|c u|c len|c len k|c len now later buf|c len buf|c len buf v]; try (destruct c); auto.
  all: try (intros (H1 & H2); split; [lia|]; destruct u; auto;
            destruct H2 as (? & u & ? & ?); split; [assumption|]; exists u; split; [lia|assumption]).
  - lia.
  - intros ((?&?&?)&?). repeat split; (assumption || lia).
  - intros ((?&?&?)&?&P). split; [lia|]. split; assumption.
  - intros ((?&?&?)&?&P). split; [lia|]. split; assumption.
  - intros ((?&?&?)&?&?&P). split; [lia|]. repeat split; assumption.
Qed.

Lemma pend_nil sz base len done : pend_ok sz base len [] done -> forall i, i < len -> done i.
Proof. intros [_ P] i Hi. destruct (P i Hi) as [[]|?]; assumption. Qed.

Definition upd (st : bool -> option (call * nat)) who x : bool -> option (call * nat) :=
  fun w => if Bool.eqb w who then x else st w.

Lemma nth_in_len {A} (x : A) l ch d : In (nth (ch mod length (x :: l)) (x :: l) d) (x :: l).
Proof. apply nth_In. apply Nat.mod_upper_bound. cbn. lia. Qed.

Ltac state := constructor; cbn [y_sh y_w y_r y_log s_head s_tail s_circle] in *; auto.
Ltac split7 := split; [|split; [|split; [|split; [|split; [|split]]]]];
  cbn [s_head s_tail s_circle call_of option_map] in *; auto; try (intros; discriminate); try exact I.

(** A step of the writer. *)
Lemma w_step cap y q ch c : inv cap y q -> allowed true c ->
  exists y' q', sys_step (cap + 1) y (Act true ch c) = Ok y' /\ inv cap y' q'.
Proof.
  intros [Hh Ht Hm Hq Hs (st & wb & rb & Ha & Sw & Sr & Aw & Ar & W & R)] Hc.
  destruct y as [[h t m] w r log]. cbn [y_sh y_w y_r y_log s_head s_tail s_circle] in *.
  unfold sys_step. cbn [a_who a_choice a_call y_sh y_w y_r y_log].
  assert (Htl : t < cap + 1) by (rewrite Ht; apply Nat.mod_upper_bound; lia).
  destruct w as [|c0 u|c0 len|c0 len k|c0 len now later buf|c0 len buf|c0 len buf v]; cbn [pstep].
  - (* call *)
    eexists _, q. cbn [bind]. split; [reflexivity|]. state.
    exists (upd st true (Some (c, length q))), (length q), rb. split7.
    + apply A_call; assumption.
    + congruence.
    + cbn [w_inv]. lia.
  - (* used *)
    cbn [w_inv s_tail] in W. destruct W as (Hb & W).
    assert (G : forall u, length q <= u <= wb -> exists y' q',
      (let (p, es) := after_used true (cap + 1) c0 u in
       Ok (Sys (Sh h t m) p r (log ++ es))) = Ok y' /\ inv cap y' q').
    { intros u0 Hu. pose proof (Aw c0 eq_refl) as Hc0.
      destruct c0; cbn [after_used allowed] in *; try discriminate.
      - eexists _, q. split; [reflexivity|]. state.
        exists st, wb, rb. rewrite app_nil_r. split7. cbn [w_inv]. unfold put_len. lia.
      - eexists _, q. split; [reflexivity|]. state.
        exists (upd st true None), wb, rb. split7.
        eapply A_used; [eassumption|eassumption|lia|lia].
      - eexists _, q. split; [reflexivity|]. state.
        exists (upd st true None), wb, rb. split7.
        eapply A_left; [eassumption|eassumption|lia|lia]. }
    destruct u as [|t'|h'].
    + destruct (Nat.even ch).
      * eexists _, q. cbn [bind]. split; [reflexivity|]. state.
        exists st, wb, rb. rewrite app_nil_r. split7. cbn [w_inv s_tail]. split; [lia|reflexivity].
      * eexists _, q. cbn [bind]. split; [reflexivity|]. state.
        exists st, wb, rb. rewrite app_nil_r. split7. cbn [w_inv s_tail]. split; [lia|]. split; [lia|].
        exists (length q). split; [lia|assumption].
    + cbn [s_head]. subst t'. rewrite Ht, used_value_ok by lia. rewrite <- Ht. cbn [bind].
      destruct (G (length q) ltac:(lia)) as (y' & q' & E & I').
      destruct (after_used true (cap + 1) c0 (length q)). exists y', q'. split; [exact E|exact I'].
    + destruct W as (Hh' & u & Hu & Eu). cbn [s_tail]. rewrite Eu, used_value_ok by lia. rewrite <- Eu. cbn [bind].
      destruct (G u Hu) as (y' & q' & E & I').
      destruct (after_used true (cap + 1) c0 u). exists y', q'. split; [exact E|exact I'].
  - (* chunk *)
    destruct c0; cbn [w_inv] in W; try contradiction.
    eexists _, q. cbn [bind]. split; [reflexivity|]. state.
    exists st, wb, rb. rewrite app_nil_r. split7. cbn [w_inv own s_tail]. split; [assumption|reflexivity].
  - (* copy *)
    destruct c0; cbn [w_inv] in W; try contradiction. destruct W as ((W1 & W2 & W3) & Ek).
    eexists _, q. cbn [bind]. split; [reflexivity|]. state.
    exists st, wb, rb. rewrite app_nil_r. split7. cbn [w_inv own s_tail s_circle] in *.
    split; [unfold put_len; lia|]. split; [reflexivity|]. apply pend_init; (assumption || lia).
  - (* copying *)
    destruct c0; cbn [w_inv] in W; try contradiction. destruct W as (L & -> & P).
    destruct now as [|x now].
    + assert (Hlater : exists p, (match later with
         | [] => Ok (Sh h t m, AtUpdate (CPut data) len [], @nil event)
         | _ :: _ => Ok (Sh h t m, Copying (CPut data) len later [] [], []) end) = Ok (Sh h t m, p, []) /\
         call_of p = Some (CPut data) /\ w_inv cap (Sh h t m) q wb p).
      { destruct later as [|z later].
        - eexists. split; [reflexivity|]. split; [reflexivity|]. cbn [w_inv s_tail s_circle].
          split; [assumption|]. split; [reflexivity|]. exact (pend_nil _ _ _ _ P).
        - eexists. split; [reflexivity|]. split; [reflexivity|]. cbn [w_inv s_tail s_circle].
          split; [assumption|]. split; [reflexivity|]. rewrite app_nil_r. exact P. }
      destruct Hlater as (p & E & Ec & Wp).
      exists (Sys (Sh h t m) p r (log ++ [])), q. split; [rewrite E; reflexivity|]. state.
      exists st, wb, rb. rewrite app_nil_r. rewrite Ec. split7.
    + set (k := ch mod length (x :: now)).
      pose proof (nth_in_len x now ch x) as Hin. fold k in Hin.
      assert (Hk : k < length (x :: now)) by (apply Nat.mod_upper_bound; cbn; lia).
      destruct (nth k (x :: now) x) as [i a] eqn:En.
      destruct (proj1 P i a) as [Hi Ea]; [apply in_or_app; left; exact Hin|].
      pose proof L as (L1 & L2 & L3). cbn [s_tail s_circle] in *.
      destruct (nth_error data i) as [b|] eqn:Eb; [|apply nth_error_None in Eb; lia].
      assert (Hal : a < length m) by (rewrite Hm, Ea; apply Nat.mod_upper_bound; lia).
      destruct (store_ok m a b Hal) as [m' Em]. cbn [of_opt bind]. rewrite Em. cbn [of_opt bind].
      pose proof (nth_error_store _ _ _ _ Em) as Hst.
      eexists _, q. split; [reflexivity|]. state.
      * rewrite (store_length _ _ _ _ Em). assumption.
      * intros j Hj. rewrite Hst. destruct (Nat.eqb_spec ((h + j) mod (cap + 1)) a) as [E|E]; [|apply Hs; assumption].
        exfalso. rewrite Ea, Ht, mod_add_l in E by lia. apply mod_inj in E; lia.
      * exists st, wb, rb. rewrite app_nil_r. split7. cbn [w_inv s_tail s_circle].
        split; [assumption|]. split; [reflexivity|].
        eapply (pend_step (cap + 1) t len (x :: now) later); [exact P|exact Hk|exact En| |].
        -- intros j Hj E. cbn beta in *. rewrite Hst.
           destruct (Nat.eqb_spec ((t + j) mod (cap + 1)) a) as [E'|E']; [|exact E].
           rewrite Ea in E'. apply mod_inj in E'; [|lia|lia]. congruence.
        -- cbn beta. rewrite Hst, <- Ea, Nat.eqb_refl. symmetry. assumption.
  - (* update *)
    destruct c0; cbn [w_inv] in W; try contradiction. destruct W as (L & -> & P).
    destruct (Nat.eqb_spec (cap + 1) 0); [lia|]. cbn [bind].
    eexists _, q. split; [reflexivity|]. state.
    exists st, wb, rb. rewrite app_nil_r. split7. cbn [w_inv own s_tail s_circle] in *.
    split; [assumption|]. repeat split; assumption.
  - (* store *)
    destruct c0; cbn [w_inv] in W; try contradiction. destruct W as (L & -> & -> & P).
    destruct L as (L1 & L2 & L3). cbn [bind s_tail s_circle] in *.
    assert (Hf : length (firstn len data) = len) by (rewrite firstn_length; lia).
    eexists _, (q ++ firstn len data). split; [reflexivity|]. state.
    + rewrite Ht, mod_add_l, app_length, Hf by lia. reflexivity.
    + rewrite app_length, Hf. lia.
    + intros i Hi. rewrite app_length, Hf in Hi.
      destruct (Nat.lt_ge_cases i (length q)) as [E|E].
      * rewrite nth_error_app1 by assumption. apply Hs. assumption.
      * rewrite nth_error_app2 by assumption. rewrite firstn_nth_error by lia.
        rewrite <- P by lia. rewrite Ht, mod_add_l by lia. f_equal. f_equal. lia.
    + exists (upd st true None), wb, rb. split7.
      * eapply A_put; eassumption.
      * eapply r_inv_grow; [|eassumption]. reflexivity.
Qed.

(** A step of the reader. *)
Lemma r_step cap y q ch c : inv cap y q -> allowed false c ->
  exists y' q', sys_step (cap + 1) y (Act false ch c) = Ok y' /\ inv cap y' q'.
Proof.
  intros [Hh Ht Hm Hq Hs (st & wb & rb & Ha & Sw & Sr & Aw & Ar & W & R)] Hc.
  destruct y as [[h t m] w r log]. cbn [y_sh y_w y_r y_log s_head s_tail s_circle] in *.
  unfold sys_step. cbn [a_who a_choice a_call y_sh y_w y_r y_log].
  assert (Htl : t < cap + 1) by (rewrite Ht; apply Nat.mod_upper_bound; lia).
  destruct r as [|c0 u|c0 len|c0 len k|c0 len now later buf|c0 len buf|c0 len buf v]; cbn [pstep].
  - (* call *)
    eexists _, q. cbn [bind]. split; [reflexivity|]. state.
    exists (upd st false (Some (c, length q))), wb, (length q). split7.
    + apply A_call; assumption.
    + congruence.
    + cbn [r_inv]. lia.
  - (* used *)
    cbn [r_inv s_head] in R. destruct R as (Hb & R).
    assert (G : forall u, rb <= u <= length q -> exists y' q',
      (let (p, es) := after_used false (cap + 1) c0 u in
       Ok (Sys (Sh h t m) w p (log ++ es))) = Ok y' /\ inv cap y' q').
    { intros u0 Hu. pose proof (Ar c0 eq_refl) as Hc0.
      destruct c0; cbn [after_used allowed] in *; try discriminate.
      - eexists _, q. split; [reflexivity|]. state.
        exists st, wb, rb. rewrite app_nil_r. split7. cbn [r_inv]. unfold get_len. lia.
      - eexists _, q. split; [reflexivity|]. state.
        exists st, wb, rb. rewrite app_nil_r. split7. cbn [r_inv]. unfold get_len. split; [lia|reflexivity].
      - eexists _, q. split; [reflexivity|]. state.
        exists (upd st false None), wb, rb. split7.
        eapply A_used; [eassumption|eassumption|lia|lia].
      - eexists _, q. split; [reflexivity|]. state.
        exists (upd st false None), wb, rb. split7.
        eapply A_left; [eassumption|eassumption|lia|lia]. }
    destruct u as [|t'|h'].
    + destruct (Nat.even ch).
      * eexists _, q. cbn [bind]. split; [reflexivity|]. state.
        exists st, wb, rb. rewrite app_nil_r. split7. cbn [r_inv s_head]. split; [lia|].
        exists (length q). split; [lia|assumption].
      * eexists _, q. cbn [bind]. split; [reflexivity|]. state.
        exists st, wb, rb. rewrite app_nil_r. split7. cbn [r_inv s_head]. split; [lia|reflexivity].
    + destruct R as (u & Hu & Eu). cbn [s_head]. rewrite Eu, used_value_ok by lia. cbn [bind].
      destruct (G u Hu) as (y' & q' & E & I').
      destruct (after_used false (cap + 1) c0 u). exists y', q'. split; [exact E|exact I'].
    + cbn [s_tail]. subst h'. rewrite Ht, used_value_ok by lia. rewrite <- Ht. cbn [bind].
      destruct (G (length q) ltac:(lia)) as (y' & q' & E & I').
      destruct (after_used false (cap + 1) c0 (length q)). exists y', q'. split; [exact E|exact I'].
  - (* chunk *)
    destruct c0; cbn [r_inv] in R; try contradiction.
    eexists _, q. cbn [bind]. split; [reflexivity|]. state.
    exists st, wb, rb. rewrite app_nil_r. split7. cbn [r_inv own s_head]. split; [assumption|reflexivity].
  - (* copy *)
    destruct c0; cbn [r_inv] in R; try contradiction. destruct R as ((R1 & R2 & R3) & Ek).
    eexists _, q. cbn [bind]. split; [reflexivity|]. state.
    exists st, wb, rb. rewrite app_nil_r. split7. cbn [r_inv own s_head s_circle] in *.
    split; [unfold get_len; lia|]. split; [unfold calloc; apply repeat_length|]. apply pend_init; (assumption || lia).
  - (* copying *)
    destruct c0 as [|n| | |]; cbn [r_inv] in R; try contradiction. destruct R as (L & Hb & P).
    destruct now as [|x now].
    + assert (Hlater : exists p, (match later with
         | [] => Ok (Sh h t m, AtUpdate (CGet n) len buf, @nil event)
         | _ :: _ => Ok (Sh h t m, Copying (CGet n) len later [] buf, []) end) = Ok (Sh h t m, p, []) /\
         call_of p = Some (CGet n) /\ r_inv cap (Sh h t m) q rb p).
      { destruct later as [|z later].
        - eexists. split; [reflexivity|]. split; [reflexivity|]. cbn [r_inv s_head s_circle].
          split; [assumption|]. destruct L as (L1 & L2 & L3). apply nth_error_ext.
          + rewrite firstn_length. lia.
          + intros i Hi. rewrite firstn_nth_error by lia. apply (pend_nil _ _ _ _ P). lia.
        - eexists. split; [reflexivity|]. split; [reflexivity|]. cbn [r_inv s_head s_circle].
          split; [assumption|]. split; [assumption|]. rewrite app_nil_r. exact P. }
      destruct Hlater as (p & E & Ec & Rp).
      exists (Sys (Sh h t m) w p (log ++ [])), q. split; [rewrite E; reflexivity|]. state.
      exists st, wb, rb. rewrite app_nil_r. rewrite Ec. split7.
    + set (k := ch mod length (x :: now)).
      pose proof (nth_in_len x now ch x) as Hin. fold k in Hin.
      assert (Hk : k < length (x :: now)) by (apply Nat.mod_upper_bound; cbn; lia).
      destruct (nth k (x :: now) x) as [i a] eqn:En.
      destruct (proj1 P i a) as [Hi Ea]; [apply in_or_app; left; exact Hin|].
      pose proof L as (L1 & L2 & L3). cbn [s_head s_circle] in *.
      pose proof (Hs i ltac:(lia)) as Hsi. rewrite <- Ea in Hsi.
      destruct (nth_error q i) as [b|] eqn:Eb; [|apply nth_error_None in Eb; lia].
      rewrite Hsi. cbn [of_opt bind].
      destruct (store_ok buf i b ltac:(lia)) as [buf' Em]. rewrite Em. cbn [of_opt bind].
      pose proof (nth_error_store _ _ _ _ Em) as Hst.
      eexists _, q. split; [reflexivity|]. state.
      exists st, wb, rb. rewrite app_nil_r. split7. cbn [r_inv s_head s_circle].
      split; [assumption|]. split; [rewrite (store_length _ _ _ _ Em); assumption|].
      eapply (pend_step (cap + 1) h len (x :: now) later); [exact P|exact Hk|exact En| |].
      * intros j Hj E. cbn beta in *. rewrite Hst. destruct (Nat.eqb_spec j i) as [->|]; [congruence|exact E].
      * cbn beta. rewrite Hst, Nat.eqb_refl. symmetry. assumption.
  - (* update *)
    destruct (Nat.eqb_spec (cap + 1) 0); [lia|]. cbn [bind].
    destruct c0; cbn [r_inv] in R; try contradiction; destruct R as (L & ->);
      (eexists _, q; split; [reflexivity|]; state;
       exists st, wb, rb; rewrite app_nil_r; split7; cbn [r_inv own s_head s_circle] in *;
       split; [assumption|]; split; reflexivity).
  - (* store *)
    assert (Hrest : forall len, len <= length q ->
      shows m (cap + 1) ((h + len) mod (cap + 1)) (skipn len q)).
    { intros l Hl i Hi. rewrite skipn_length in Hi. rewrite mod_add_l, skipn_nth_error by lia.
      apply Hs. lia. }
    assert (Hadv : forall len, len <= length q ->
      t = ((h + len) mod (cap + 1) + length (skipn len q)) mod (cap + 1)).
    { intros l Hl. rewrite mod_add_l, skipn_length, Ht by lia. f_equal. f_equal. lia. }
    destruct c0; cbn [r_inv] in R; try contradiction; destruct R as ((L1 & L2 & L3) & -> & ->);
      cbn [bind s_head s_circle s_tail] in *.
    + eexists _, (skipn len q). split; [reflexivity|]. state.
      * apply Nat.mod_upper_bound. lia.
      * rewrite skipn_length. lia.
      * exists (upd st false None), wb, rb. split7.
        -- rewrite <- (firstn_skipn len q) in Ha.
           assert (Hf : length (firstn len q) = len) by (rewrite firstn_length; lia).
           pose proof (A_get cap log st (firstn len q) (skipn len q) false _ rb Ha Sr) as A.
           rewrite Hf in A. exact (A L1 L2).
        -- eapply w_inv_shrink; [| | |eassumption]; try reflexivity. rewrite skipn_length. lia.
    + eexists _, (skipn len q). split; [reflexivity|]. state.
      * apply Nat.mod_upper_bound. lia.
      * rewrite skipn_length. lia.
      * exists (upd st false None), wb, rb. split7.
        -- rewrite <- (firstn_skipn len q) in Ha.
           assert (Hf : length (firstn len q) = len) by (rewrite firstn_length; lia).
           pose proof (A_skip cap log st (firstn len q) (skipn len q) false _ rb Ha Sr) as A.
           rewrite Hf in A. exact (A L1 L2).
        -- eapply w_inv_shrink; [| | |eassumption]; try reflexivity. rewrite skipn_length. lia.
Qed.

Lemma run_ok cap l : forall y q, inv cap y q -> Forall (fun a => allowed (a_who a) (a_call a)) l ->
  exists y' q', sys_run (cap + 1) y l = Ok y' /\ inv cap y' q'.
Proof.
  induction l as [|[who ch c] l IH]; intros y q I F; cbn [sys_run].
  - eauto.
  - pose proof (Forall_inv F) as Hc. pose proof (Forall_inv_tail F) as F'. cbn [a_who a_call] in Hc.
    assert (E : exists y' q', sys_step (cap + 1) y (Act who ch c) = Ok y' /\ inv cap y' q')
      by (destruct who; [eapply w_step|eapply r_step]; eassumption).
    destruct E as (y1 & q1 & E & I1). rewrite E. cbn [bind]. eauto.
Qed.

Theorem magic_ok cap l : 0 < cap -> Forall (fun a => allowed (a_who a) (a_call a)) l ->
  exists y st q, magic_run cap l = Ok y /\ accepts cap (y_log y) st q /\ length q <= cap.
Proof.
  intros Hc F. unfold magic_run. destruct (Nat.eqb_spec cap 0); [lia|].
  destruct (run_ok cap l (magic_new cap) []) as (y & q & E & I).
  - constructor; cbn [magic_new y_sh y_w y_r y_log s_head s_tail s_circle length]; try lia.
    + rewrite Nat.mod_small; lia.
    + unfold calloc. apply repeat_length.
    + intros i Hi. cbn in Hi. lia.
    + exists (fun _ => None), 0, 0. split7; constructor.
  - assumption.
  - destruct I as [_ _ _ Hq _ (st & _ & _ & Ha & _)]. exists y, st, q. auto.
Qed.

(** Only the calls of the schedule appear in the log. *)
Lemma log_calls size l : forall y y', sys_run size y l = Ok y' ->
  no_skip l -> (forall w n k o, ~ In (ERet w (CSkip n) k o) (y_log y)) ->
  (forall n, call_of (y_w y) <> Some (CSkip n)) -> (forall n, call_of (y_r y) <> Some (CSkip n)) ->
  forall w n k o, ~ In (ERet w (CSkip n) k o) (y_log y').
Proof.
  assert (P : forall who ch c s p s' p' es, pstep size who ch c s p = Ok (s', p', es) ->
    (forall n, c <> CSkip n) -> (forall n, call_of p <> Some (CSkip n)) ->
    (forall n, call_of p' <> Some (CSkip n)) /\ (forall w n k o, ~ In (ERet w (CSkip n) k o) es)).
  { intros who ch c s p s' p' es H Hc Hp.
    assert (Hp' : forall c0, call_of p = Some c0 -> forall n, c0 <> CSkip n) by (intros c0 E n ->; exact (Hp n E)).
    destruct p as [|c0 u|c0 len|c0 len k|c0 len now later buf|c0 len buf|c0 len buf v]; cbn [pstep] in H.
    1: injection H as <- <- <-; cbn; split; [congruence|intros ? ? ? ? [?|[]]; discriminate].
    all: specialize (Hp' c0 eq_refl).
    - assert (A : forall u, (let (p, es) := after_used who size c0 u in Ok (s, p, es)) = Ok (s', p', es) ->
        (forall n, call_of p' <> Some (CSkip n)) /\ (forall w n k o, ~ In (ERet w (CSkip n) k o) es)).
      { intros u0. destruct c0; cbn [after_used]; intros E; injection E as <- <- <-; cbn;
          (split; [congruence|]); try tauto; try (intros ? ? ? ? [?|[]]; discriminate).
      }
      destruct u as [|t'|h'].
      + destruct (Nat.even ch); injection H as <- <- <-; cbn; split; congruence || tauto.
      + destruct (used_value size t' (s_head s)); try discriminate. exact (A _ H).
      + destruct (used_value size (s_tail s) h'); try discriminate. exact (A _ H).
    - injection H as <- <- <-; cbn; split; congruence || tauto.
    - injection H as <- <- <-; cbn; split; congruence || tauto.
    - destruct now as [|x now].
      + destruct later; injection H as <- <- <-; cbn; split; congruence || tauto.
      + destruct (nth _ (x :: now) x) as [i a].
        destruct c0;
          repeat (match type of H with bind (of_opt ?z) _ = _ => destruct z; cbn [of_opt bind] in H; [|discriminate] end);
          injection H as <- <- <-; cbn; split; congruence || tauto.
    - destruct (size =? 0); [discriminate|]. injection H as <- <- <-; cbn; split; congruence || tauto.
    - injection H as <- <- <-; cbn; split; [congruence|]. intros w n k o [E|[]]. injection E as _ E _ _.
      exact (Hp' _ E). }
  induction l as [|[who ch c] l IH]; intros y y' H F Hl Hw Hr; cbn [sys_run] in H.
  - injection H as <-. exact Hl.
  - pose proof (Forall_inv F) as Hc. cbn [a_call] in Hc.
    assert (Hc' : forall n, c <> CSkip n) by (intros n ->; contradiction).
    unfold sys_step in H. cbn [a_who a_choice a_call] in H. destruct who.
    + destruct (pstep size true ch c (y_sh y) (y_w y)) as [[[s p] es]| |] eqn:E; cbn [bind] in H; try discriminate.
      destruct (P _ _ _ _ _ _ _ _ E Hc' Hw) as [P1 P2].
      eapply (IH _ _ H (Forall_inv_tail F)); cbn [y_log y_w y_r]; auto.
      intros w n k o Hi. apply in_app_or in Hi. destruct Hi; [eapply Hl|eapply P2]; eassumption.
    + destruct (pstep size false ch c (y_sh y) (y_r y)) as [[[s p] es]| |] eqn:E; cbn [bind] in H; try discriminate.
      destruct (P _ _ _ _ _ _ _ _ E Hc' Hr) as [P1 P2].
      eapply (IH _ _ H (Forall_inv_tail F)); cbn [y_log y_w y_r]; auto.
      intros w n k o Hi. apply in_app_or in Hi. destruct Hi; [eapply Hl|eapply P2]; eassumption.
Qed.

Lemma accepts_stream cap l st q : accepts cap l st q ->
  (forall w n k o, ~ In (ERet w (CSkip n) k o) l) -> accepted l = received l ++ q.
Proof.
  unfold accepted, received.
  induction 1; intros Hns; rewrite ?flat_map_app; cbn [flat_map app];
    rewrite ?app_nil_r; try (apply IHaccepts; intros; intros Hi; eapply Hns; apply in_or_app; left; eassumption).
  - reflexivity.
  - rewrite IHaccepts, <- app_assoc; [reflexivity|].
    intros w n0 k o Hi; eapply Hns; apply in_or_app; left; eassumption.
  - rewrite IHaccepts, <- app_assoc; [reflexivity|].
    intros w n0 k o Hi; eapply Hns; apply in_or_app; left; eassumption.
  - exfalso. eapply Hns. apply in_or_app. right. left. reflexivity.
Qed.

Theorem magic_stream cap l : 0 < cap -> Forall (fun a => allowed (a_who a) (a_call a)) l -> no_skip l ->
  exists y pending, magic_run cap l = Ok y /\ accepted (y_log y) = received (y_log y) ++ pending /\
    length pending <= cap.
Proof.
  intros Hc F N. destruct (magic_ok cap l Hc F) as (y & st & q & E & A & Hq).
  exists y, q. split; [assumption|]. split; [|assumption].
  eapply accepts_stream; [eassumption|].
  unfold magic_run in E. destruct (cap =? 0); [discriminate|].
  eapply (log_calls _ _ _ _ E N); cbn; try discriminate. tauto.
Qed.
