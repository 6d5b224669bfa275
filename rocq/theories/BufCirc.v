(** The circular and in-place storage classes implement a queue with history. *)
From Verif Require Import Base BaseFacts BufModel BufSpec BufGeneric.

Lemma skipn_len {A} (a b : list A) : skipn (length a) (a ++ b) = b.
Proof. rewrite (skipn_app_len a b (length a) 0) by lia. reflexivity. Qed.
Lemma firstn_len {A} (a b : list A) : firstn (length a) (a ++ b) = a.
Proof. apply firstn_app_len. reflexivity. Qed.

(** ** Memory *)
Lemma mread_ok m p n : p + n <= length m -> mread m p n = Ok (firstn n (skipn p m)).
Proof. intros H. unfold mread. destruct (Nat.leb_spec (p + n) (length m)); [reflexivity|lia]. Qed.
Lemma mwrite_ok m p d : p + length d <= length m -> mwrite m p d = Ok (overwrite m p d).
Proof. intros H. unfold mwrite. destruct (Nat.leb_spec (p + length d) (length m)); [reflexivity|lia]. Qed.

Lemma app_eq_app_length {A} (a : list A) : forall b c d, length a = length c -> a ++ b = c ++ d -> a = c /\ b = d.
Proof.
  induction a as [|x a IH]; intros b [|y c] d L E; try discriminate; [auto|].
  cbn in *. inversion E. destruct (IH b c d) as [-> ->]; auto.
Qed.

(** ** Rings *)
Definition idx (s h i : nat) : nat := if s <=? h + i then h + i - s else h + i.
Definition ring (m : mem) (h n : nat) : bytes := map (fun i => nth (idx (length m) h i) m nul) (seq 0 n).

Lemma idx_lt s h i : h < s -> i <= s -> idx s h i < s.
Proof. unfold idx. destruct (Nat.leb_spec s (h + i)); lia. Qed.
Lemma mod_idx s h i : h < s -> i <= s -> (h + i) mod s = idx s h i.
Proof.
  intros Hh Hi. unfold idx. destruct (Nat.leb_spec s (h + i)).
  - replace (h + i) with ((h + i - s) + 1 * s) at 1 by lia. rewrite Nat.mod_add by lia. apply Nat.mod_small. lia.
  - apply Nat.mod_small. lia.
Qed.
Lemma idx_idx s h a b : h < s -> a + b <= s -> idx s (idx s h a) b = idx s h (a + b).
Proof.
  unfold idx. intros. destruct (Nat.leb_spec s (h + a)), (Nat.leb_spec s (h + (a + b)));
  repeat match goal with |- context [?x <=? ?y] => destruct (Nat.leb_spec x y) end; lia.
Qed.

Lemma ring_length m h n : length (ring m h n) = n.
Proof. unfold ring. rewrite map_length, seq_length. reflexivity. Qed.
Lemma ring_nth m h n i : i < n -> nth i (ring m h n) nul = nth (idx (length m) h i) m nul.
Proof.
  intros H. unfold ring. rewrite (nth_indep _ nul (nth (idx (length m) h 0) m nul)) by (rewrite map_length, seq_length; assumption).
  rewrite (map_nth (fun i => nth (idx (length m) h i) m nul)), seq_nth by assumption. reflexivity.
Qed.
Lemma ring_eq m h n l : length l = n -> (forall i, i < n -> nth i l nul = nth (idx (length m) h i) m nul) -> ring m h n = l.
Proof.
  intros Hl H. apply nth_ext with (d := nul) (d' := nul); rewrite ring_length; [auto|].
  intros i Hi. rewrite ring_nth by assumption. symmetry. auto.
Qed.
Lemma ring_app m h a b : h < length m -> a + b <= length m ->
  ring m h (a + b) = ring m h a ++ ring m (idx (length m) h a) b.
Proof.
  intros Hh Hab. apply ring_eq; [rewrite app_length, !ring_length; reflexivity|].
  intros i Hi. destruct (Nat.lt_ge_cases i a).
  - rewrite app_nth1 by (rewrite ring_length; assumption). apply ring_nth. assumption.
  - rewrite app_nth2 by (rewrite ring_length; assumption). rewrite ring_length, ring_nth by lia.
    rewrite idx_idx by lia. do 2 f_equal. lia.
Qed.
Lemma ring_firstn m h n k : h < length m -> k <= n <= length m -> firstn k (ring m h n) = ring m h k.
Proof.
  intros Hh Hk. replace n with (k + (n - k)) by lia. rewrite ring_app by lia.
  rewrite firstn_app, ring_length, Nat.sub_diag, firstn_O, app_nil_r. apply firstn_all2. rewrite ring_length. lia.
Qed.
Lemma ring_skipn m h n k : h < length m -> k <= n <= length m -> skipn k (ring m h n) = ring m (idx (length m) h k) (n - k).
Proof.
  intros Hh Hk. replace n with (k + (n - k)) at 1 by lia. rewrite ring_app by lia.
  rewrite skipn_app, ring_length, Nat.sub_diag, skipn_O. rewrite skipn_all2 by (rewrite ring_length; lia). reflexivity.
Qed.
Lemma nth_skipn {A} (l : list A) p i d : nth i (skipn p l) d = nth (p + i) l d.
Proof. revert l. induction p as [|p IH]; intros l; [reflexivity|]. destruct l; cbn; [destruct i; reflexivity|apply IH]. Qed.
Lemma nth_firstn {A} (l : list A) n i d : i < n -> nth i (firstn n l) d = nth i l d.
Proof. revert l i. induction n as [|n IH]; intros l i H; [lia|]. destruct l; [reflexivity|]. destruct i; [reflexivity|]. cbn. apply IH. lia. Qed.

Lemma ring_contig m h n : h + n <= length m -> ring m h n = firstn n (skipn h m).
Proof.
  intros H. apply ring_eq; [rewrite firstn_length, skipn_length; lia|].
  intros i Hi. rewrite nth_firstn, nth_skipn by assumption. unfold idx.
  destruct (Nat.leb_spec (length m) (h + i)); [lia|reflexivity].
Qed.
Lemma ring_wrap m h n : h < length m -> length m < h + n -> n <= length m ->
  ring m h n = skipn h m ++ firstn (n - (length m - h)) m.
Proof.
  intros Hh Hn Hm. replace n with ((length m - h) + (n - (length m - h))) at 1 by lia.
  rewrite ring_app by lia. rewrite ring_contig by lia. f_equal.
  - apply firstn_all2. rewrite skipn_length. lia.
  - assert (E : idx (length m) h (length m - h) = 0) by (unfold idx; destruct (Nat.leb_spec (length m) (h + (length m - h))); lia).
    rewrite E, ring_contig by lia. reflexivity.
Qed.

(** ** compact *)
Lemma mswap_ok n : forall m a b c d e, length b = n -> length d = n -> m = a ++ b ++ c ++ d ++ e ->
  mswap m (length a) (length a + n + length c) n = Ok (a ++ d ++ c ++ b ++ e).
Proof.
  induction n as [|n IH]; intros m a b c d e Lb Ld ->; cbn [mswap].
  - destruct b, d; try discriminate. reflexivity.
  - destruct b as [|x b]; [discriminate|]. destruct d as [|y d]; [discriminate|].
    cbn [length] in Lb, Ld. assert (length b = n) by congruence. assert (length d = n) by congruence. clear Lb Ld.
    assert (N1 : nth_error (a ++ (x :: b) ++ c ++ (y :: d) ++ e) (length a) = Some x).
    { rewrite nth_error_app2, Nat.sub_diag by lia. reflexivity. }
    rewrite N1. cbn [of_opt bind].
    assert (N2 : nth_error (a ++ (x :: b) ++ c ++ (y :: d) ++ e) (length a + S n + length c) = Some y).
    { rewrite nth_error_app2 by lia. rewrite nth_error_app2 by (cbn; lia). rewrite nth_error_app2 by (cbn; lia).
      cbn [length]. replace (length a + S n + length c - length a - S (length b) - length c) with 0 by lia. reflexivity. }
    rewrite N2. cbn [of_opt bind].
    assert (St : forall (p : mem) u v r, store (p ++ u :: r) (length p) v = Some (p ++ v :: r)).
    { induction p as [|z p IHp]; intros u v r; cbn; [reflexivity|]. rewrite IHp. reflexivity. }
    cbn [app]. rewrite St. cbn [of_opt bind].
    replace (a ++ y :: b ++ c ++ y :: d ++ e) with ((a ++ y :: b ++ c) ++ y :: d ++ e)
      by (rewrite <- !app_assoc; cbn [app]; rewrite <- !app_assoc; reflexivity).
    replace (length a + S n + length c) with (length (a ++ y :: b ++ c))
      by (rewrite app_length; cbn [length]; rewrite app_length; lia).
    rewrite St. cbn [of_opt bind].
    replace (S (length (a ++ y :: b ++ c))) with (length (a ++ [y]) + n + length (c ++ [x]))
      by (rewrite !app_length; cbn [length]; rewrite !app_length; lia).
    replace (S (length a)) with (length (a ++ [y])) by (rewrite app_length; cbn; lia).
    rewrite (IH _ (a ++ [y]) b (c ++ [x]) d e); auto.
    + rewrite <- !app_assoc. cbn [app]. reflexivity.
    + rewrite <- !app_assoc. cbn [app]. rewrite <- !app_assoc. reflexivity.
Qed.

Lemma compact_loop_ok fuel : forall dn T F H, 0 < length H -> length T < fuel ->
  exists X, compact_loop fuel (dn ++ T ++ F ++ H) (length dn) (length dn + length T + length F) (length H) (length T)
    = Ok (dn ++ H ++ T ++ X) /\ length X = length F.
Proof.
  induction fuel as [|fuel IH]; intros dn T F H LH Lf; [lia|]. cbn [compact_loop].
  destruct (Nat.leb_spec (length H) (length T)).
  - set (T1 := firstn (length H) T). set (T2 := skipn (length H) T).
    assert (HT : T = T1 ++ T2) by (symmetry; apply firstn_skipn).
    assert (L1 : length T1 = length H) by (unfold T1; rewrite firstn_length; lia).
    assert (LT : length T = length H + length T2) by (rewrite HT, app_length; lia).
    replace (length dn + length T + length F) with (length dn + length H + length (T2 ++ F))
      by (rewrite app_length; lia).
    rewrite (mswap_ok (length H) _ dn T1 (T2 ++ F) H []);
      [|assumption|reflexivity|rewrite app_nil_r, HT at 1; rewrite <- !app_assoc; reflexivity].
    cbn [bind]. rewrite app_nil_r.
    destruct (IH (dn ++ H) T2 F T1 ltac:(lia) ltac:(lia)) as (X & E & LX).
    rewrite L1 in E. rewrite app_length in E.
    replace (length dn + length H + length (T2 ++ F)) with (length dn + length H + length T2 + length F)
      by (rewrite app_length; lia).
    replace (length T - length H) with (length T2) by lia.
    replace (dn ++ H ++ (T2 ++ F) ++ T1) with ((dn ++ H) ++ T2 ++ F ++ T1) by (rewrite <- !app_assoc; reflexivity).
    rewrite E. exists X. split; [|assumption]. rewrite HT. rewrite <- !app_assoc. reflexivity.
  - set (m := dn ++ T ++ F ++ H).
    assert (Lm : length m = length dn + length T + length F + length H) by (unfold m; rewrite !app_length; lia).
    rewrite mread_ok by lia. cbn [bind].
    assert (E1 : firstn (length T) (skipn (length dn) m) = T).
    { unfold m. rewrite skipn_len. apply firstn_len. }
    rewrite E1. unfold mmove. rewrite mread_ok by lia. cbn [bind].
    assert (E2 : firstn (length H) (skipn (length dn + length T + length F) m) = H).
    { unfold m. rewrite !app_assoc. replace (length dn + length T + length F) with (length ((dn ++ T) ++ F)) by (rewrite !app_length; lia).
      rewrite skipn_len. apply firstn_all. }
    rewrite E2. rewrite mwrite_ok by lia. cbn [bind].
    rewrite mwrite_ok by (rewrite overwrite_length by lia; lia).
    rewrite overwrite_over by lia.
    unfold overwrite. exists (skipn (length dn + length (H ++ T)) m). split.
    + unfold m at 1. rewrite firstn_len. rewrite <- !app_assoc. reflexivity.
    + rewrite skipn_length, app_length. lia.
Qed.

Lemma compact_ok m h n : h < length m -> n <= length m ->
  exists m', compact m h n = Ok m' /\ length m' = length m /\ firstn n m' = ring m h n.
Proof.
  intros Hh Hn. unfold compact. destruct (Nat.eqb_spec n 0) as [->|Hz].
  - exists m. auto.
  - destruct (Nat.leb_spec (h + n) (length m)).
    + unfold mmove. rewrite mread_ok by lia. cbn [bind].
      assert (L : length (firstn n (skipn h m)) = n) by (rewrite firstn_length, skipn_length; lia).
      rewrite mwrite_ok by lia. eexists. split; [reflexivity|]. split.
      * rewrite overwrite_length by lia. lia.
      * rewrite overwrite_0. rewrite ring_contig by lia.
        rewrite firstn_app, firstn_all2 by lia. rewrite L, Nat.sub_diag, firstn_O, app_nil_r. reflexivity.
    + rewrite ring_wrap by lia. set (hc := length m - h). set (tc := n - hc).
      assert (Hm : m = firstn tc m ++ firstn (h - tc) (skipn tc m) ++ skipn h m).
      { rewrite <- (firstn_skipn tc m) at 1. f_equal. rewrite <- (firstn_skipn (h - tc) (skipn tc m)) at 1. f_equal.
        rewrite skipn_skipn_add. f_equal. lia. }
      assert (LT : length (firstn tc m) = tc) by (rewrite firstn_length; lia).
      assert (LF : length (firstn (h - tc) (skipn tc m)) = h - tc) by (rewrite firstn_length, skipn_length; lia).
      assert (LH : length (skipn h m) = hc) by (rewrite skipn_length; reflexivity).
      destruct (Nat.leb_spec hc (length m - n)).
      * unfold mmove. rewrite mread_ok by lia. cbn [bind skipn].
        rewrite mwrite_ok by lia. cbn [bind].
        set (m1 := overwrite m hc (firstn tc m)).
        assert (L1 : length m1 = length m) by (unfold m1; rewrite overwrite_length; lia).
        rewrite mread_ok by lia. cbn [bind].
        assert (E : firstn hc (skipn h m1) = skipn h m).
        { unfold m1, overwrite. rewrite app_assoc, skipn_app.
          rewrite skipn_all2 by (rewrite app_length, firstn_length; lia).
          rewrite app_length, firstn_length, LT. cbn [app]. rewrite skipn_skipn_add.
          rewrite firstn_all2 by (rewrite skipn_length; lia). f_equal. lia. }
        rewrite E. rewrite mwrite_ok by lia. eexists. split; [reflexivity|]. split.
        -- rewrite overwrite_length by lia. lia.
        -- rewrite overwrite_0, LH. unfold m1, overwrite.
           rewrite (skipn_app_len (firstn hc m) _ hc 0) by (rewrite firstn_length; lia). cbn [skipn].
           replace n with (length (skipn h m ++ firstn tc m)) at 1 by (rewrite app_length; lia).
           rewrite app_assoc. apply firstn_len.
      * destruct (compact_loop_ok (S tc) [] (firstn tc m) (firstn (h - tc) (skipn tc m)) (skipn h m)) as (X & E & LX); [lia|lia|].
        cbn [app length] in E. rewrite LT, LF, LH in E. replace (0 + tc + (h - tc)) with h in E by lia.
        rewrite <- Hm in E. rewrite E. eexists. split; [reflexivity|]. split.
        -- rewrite !app_length. lia.
        -- replace n with (length (skipn h m ++ firstn tc m)) at 1 by (rewrite app_length; lia).
           rewrite app_assoc. apply firstn_len.
Qed.

(** ** Circular buffers *)
(** The read position.  After a peek at a buffer that holds only history, [c_head]
    can be equal to the size. *)
Definition hd (c : circ) : nat := if c_head c =? c_size c then 0 else c_head c.
Definition c_wf (c : circ) : Prop :=
  0 < c_size c /\ c_head c <= c_size c /\ c_used c <= c_init c <= c_size c.
Definition c_norm (c : circ) : Prop := c_head c < c_size c.
(** where the history starts *)
Definition c_base (c : circ) : nat := idx (c_size c) (hd c) (c_size c - (c_init c - c_used c)).
Definition c_all (c : circ) : bytes := ring (c_mem c) (c_base c) (c_init c).
Definition c_hist (c : circ) : bytes := ring (c_mem c) (c_base c) (c_init c - c_used c).
Definition c_queue (c : circ) : bytes := ring (c_mem c) (hd c) (c_used c).
Definition c_region (c : circ) (p n : nat) : Prop :=
  n <= c_used c /\ p + n <= c_size c /\ (0 < n -> p = idx (c_size c) (hd c) (c_used c - n)).

Lemma hd_lt c : c_wf c -> hd c < c_size c.
Proof. intros (H1 & H2 & H3). unfold hd. destruct (Nat.eqb_spec (c_head c) (c_size c)); lia. Qed.
Lemma hd_norm c : c_norm c -> hd c = c_head c.
Proof. unfold c_norm, hd. intros. destruct (Nat.eqb_spec (c_head c) (c_size c)); lia. Qed.
Lemma hd_mod c k : c_wf c -> (c_head c + k) mod c_size c = (hd c + k) mod c_size c.
Proof.
  intros (H1 & H2 & H3). unfold hd. destruct (Nat.eqb_spec (c_head c) (c_size c)) as [E|]; [|reflexivity].
  rewrite E. replace (c_size c + k) with (0 + k + 1 * c_size c) by lia. apply Nat.mod_add. lia.
Qed.
Lemma base_lt c : c_wf c -> c_base c < c_size c.
Proof. intros W. pose proof (hd_lt c W). destruct W as (H1 & H2 & H3). apply idx_lt; lia. Qed.
Lemma base_head c : c_wf c -> idx (c_size c) (c_base c) (c_init c - c_used c) = hd c.
Proof.
  intros W. pose proof (hd_lt c W). destruct W as (H1 & H2 & H3). unfold c_base. rewrite idx_idx by lia.
  unfold idx. destruct (Nat.leb_spec (c_size c) (hd c + (c_size c - (c_init c - c_used c) + (c_init c - c_used c)))); lia.
Qed.
Lemma c_all_split c : c_wf c -> c_all c = c_hist c ++ c_queue c.
Proof.
  intros W. pose proof W as (H1 & H2 & H3). unfold c_all, c_hist, c_queue.
  replace (c_init c) with ((c_init c - c_used c) + c_used c) at 1 by lia.
  rewrite ring_app; [|apply base_lt; assumption|unfold c_size in *; lia].
  fold (c_size c). rewrite base_head by assumption. reflexivity.
Qed.
Lemma c_hist_length c : length (c_hist c) = c_init c - c_used c.
Proof. apply ring_length. Qed.
Lemma c_queue_length c : length (c_queue c) = c_used c.
Proof. apply ring_length. Qed.

(** position of offset [o] *)
Definition zpos (s h : nat) (o : Z) : nat :=
  if (o <? 0)%Z then idx s h (s - Z.to_nat (- o)) else idx s h (Z.to_nat o).
Lemma zpos_lt s h o : h < s -> (- Z.of_nat s <= o <= Z.of_nat s)%Z -> zpos s h o < s.
Proof. intros. unfold zpos. destruct (Z.ltb_spec o 0); apply idx_lt; lia. Qed.
Lemma c_index_ok h o s : 0 < s -> h < s -> (- Z.of_nat s <= o <= Z.of_nat s)%Z ->
  c_index h o s = Ok (zpos s h o).
Proof.
  intros Hs Hh Ho. unfold c_index, zpos. destruct (Nat.eqb_spec s 0); [lia|].
  destruct (Z.ltb_spec (Z.of_nat h + o + Z.of_nat s) 0); [lia|]. f_equal.
  destruct (Z.ltb_spec o 0).
  - rewrite <- mod_idx by lia. f_equal. lia.
  - rewrite <- mod_idx by lia. replace (Z.to_nat (Z.of_nat h + o + Z.of_nat s)) with (h + Z.to_nat o + 1 * s) by lia.
    apply Nat.mod_add. lia.
Qed.
Lemma c_index_hd c o : c_wf c -> (- Z.of_nat (c_size c) <= o <= Z.of_nat (c_size c))%Z ->
  c_index (c_head c) o (c_size c) = Ok (zpos (c_size c) (hd c) o).
Proof.
  intros W Ho. pose proof (hd_lt c W). pose proof W as (H1 & H2 & H3). unfold hd in *.
  destruct (Nat.eqb_spec (c_head c) (c_size c)) as [E|]; [|apply c_index_ok; lia].
  rewrite <- c_index_ok by lia. unfold c_index. destruct (Nat.eqb_spec (c_size c) 0); [lia|].
  destruct (Z.ltb_spec (Z.of_nat (c_head c) + o + Z.of_nat (c_size c)) 0); [lia|].
  destruct (Z.ltb_spec (Z.of_nat 0 + o + Z.of_nat (c_size c)) 0); [lia|]. f_equal.
  replace (Z.to_nat (Z.of_nat (c_head c) + o + Z.of_nat (c_size c)))
    with (Z.to_nat (Z.of_nat 0 + o + Z.of_nat (c_size c)) + 1 * c_size c) by lia.
  apply Nat.mod_add. lia.
Qed.

(** Rotating the buffer so that it starts with the history. *)
Lemma ring_prefix m' m b n i k : firstn n m' = ring m b n -> length m' = length m -> b < length m -> n <= length m ->
  i + k <= n -> ring m' i k = ring m (idx (length m) b i) k.
Proof.
  intros E L Hb Hn Hik. rewrite ring_contig by lia.
  apply nth_ext with (d := nul) (d' := nul); rewrite firstn_length, skipn_length, ?ring_length; [lia|].
  intros j Hj. rewrite nth_firstn, nth_skipn, ring_nth by lia.
  rewrite idx_idx by lia. rewrite <- (nth_firstn m' n) by lia. rewrite E, ring_nth by lia. reflexivity.
Qed.

Lemma ensure_ok c (o : Z) (count : nat) (keep : bool) : c_wf c ->
  (- Z.of_nat (c_init c - c_used c) <= o)%Z ->
  (o + Z.of_nat count <= Z.of_nat (c_size c))%Z -> (o <= Z.of_nat (c_used c))%Z ->
  (if keep then (o + Z.of_nat count <= Z.of_nat (c_used c))%Z else (0 <= o)%Z) ->
  exists c' p, ensurecontiguous c o count keep = Ok (c', p) /\ c_wf c' /\ c_size c' = c_size c /\
    c_used c' = c_used c /\ c_queue c' = c_queue c /\
    (keep = true -> c_hist c' = c_hist c /\ c_init c' = c_init c) /\
    (keep = false -> suffix_of (c_hist c') (c_hist c)) /\
    (0 < count -> p + count <= c_size c) /\ p < c_size c /\
    p = zpos (c_size c) (hd c') o /\
    ((0 < c_used c \/ keep = false) -> c_norm c -> c_norm c').
Proof.
  intros W Ho1 Ho2 Ho3 Hk. pose proof W as (W1 & W2 & W3). pose proof (hd_lt c W) as Hhd. unfold ensurecontiguous.
  rewrite c_index_hd by (try assumption; lia). cbn [bind].
  pose proof (zpos_lt (c_size c) (hd c) o Hhd ltac:(lia)) as Hst. set (start := zpos _ _ _) in *.
  destruct (Nat.eqb_spec count 0) as [->|Hc]; cbn [negb andb].
  { exists c, start. repeat split; auto; lia. }
  destruct (Nat.ltb_spec (c_size c) (start + count)).
  2:{ exists c, start. repeat split; auto; lia. }
  set (init := if keep then c_init c else c_used c).
  set (b := (if keep then c_head c + c_size c - (c_init c - c_used c) else c_head c) mod c_size c).
  assert (Hinit : c_used c <= init <= c_init c) by (unfold init; destruct keep; lia).
  assert (Hb : b = if keep then c_base c else hd c).
  { unfold b. destruct keep.
    - unfold c_base. rewrite <- mod_idx by lia. rewrite <- hd_mod by assumption. f_equal. lia.
    - rewrite <- (Nat.add_0_r (c_head c)), hd_mod, Nat.add_0_r by assumption. apply Nat.mod_small. assumption. }
  assert (Hbl : b < c_size c) by (rewrite Hb; destruct keep; [apply base_lt|]; assumption).
  destruct (compact_ok (c_mem c) b init Hbl ltac:(unfold c_size in *; lia)) as (m' & E1 & E2 & E3).
  rewrite E1. cbn [bind].
  assert (Lm : length m' = c_size c) by exact E2.
  set (c' := Circ m' (init - c_used c) (c_used c) init).
  assert (Hs : c_size c' = c_size c) by exact E2.
  assert (W' : c_wf c').
  { unfold c_wf. rewrite Hs. cbn [c' c_mem c_head c_used c_init]. repeat split; lia. }
  pose proof (hd_lt c' W') as Hhd'. rewrite Hs in Hhd'.
  assert (Ei : c_index (init - c_used c) o (c_size c) = Ok (zpos (c_size c) (hd c') o)).
  { rewrite <- Hs. apply (c_index_hd c' o W'). rewrite Hs. lia. }
  rewrite Ei. cbn [bind]. exists c', (zpos (c_size c) (hd c') o). split; [reflexivity|].
  split; [assumption|]. split; [assumption|]. split; [reflexivity|].
  assert (Hq : c_queue c' = c_queue c).
  { destruct (Nat.eq_dec (c_used c) 0) as [E0|E0].
    { unfold c_queue. cbn [c' c_used]. rewrite E0. reflexivity. }
    assert (hd c' = init - c_used c) as Eh.
    { unfold hd. rewrite Hs. cbn [c' c_head]. destruct (Nat.eqb_spec (init - c_used c) (c_size c)); lia. }
    unfold c_queue. rewrite Eh. cbn [c' c_mem c_used].
    rewrite (ring_prefix m' (c_mem c) b init) by (try assumption; unfold c_size in *; lia).
    f_equal. fold (c_size c). rewrite Hb. unfold init. destruct keep.
    - apply base_head. assumption.
    - rewrite Nat.sub_diag. unfold idx. rewrite Nat.add_0_r.
      destruct (Nat.leb_spec (c_size c) (hd c)); lia. }
  split; [exact Hq|].
  assert (Hbase : 0 < init - c_used c -> c_base c' = 0).
  { intros Hi. unfold c_base. rewrite Hs. cbn [c' c_init c_used]. fold c'. unfold hd. rewrite Hs. cbn [c' c_head].
    unfold idx. destruct (Nat.eqb_spec (init - c_used c) (c_size c)).
    - destruct (Nat.leb_spec (c_size c) (0 + (c_size c - (init - c_used c)))); lia.
    - destruct (Nat.leb_spec (c_size c) (init - c_used c + (c_size c - (init - c_used c)))); lia. }
  split.
  { intros ->. split; [|reflexivity]. unfold init in *.
    destruct (Nat.eq_dec (c_init c - c_used c) 0) as [E0|E0].
    { unfold c_hist. cbn [c' c_init c_used]. rewrite E0. reflexivity. }
    unfold c_hist. rewrite Hbase by lia. cbn [c' c_mem c_init c_used].
    rewrite (ring_prefix m' (c_mem c) b (c_init c)) by (try assumption; unfold c_size in *; lia).
    f_equal. fold (c_size c). rewrite Hb. unfold idx. rewrite Nat.add_0_r.
    pose proof (base_lt c W). destruct (Nat.leb_spec (c_size c) (c_base c)); lia. }
  split.
  { intros ->. replace (c_hist c') with (@nil ascii); [auto|]. symmetry. apply length_zero_iff_nil. rewrite c_hist_length.
    cbn. unfold init. lia. }
  assert (Ez : hd c' = 0 \/ hd c' = init - c_used c).
  { unfold hd. destruct (c_head c' =? c_size c'); auto. }
  assert (Eh : hd c' = 0 -> init - c_used c = 0 \/ (init = c_size c /\ c_used c = 0)).
  { unfold hd. rewrite Hs. cbn [c' c_head]. destruct (Nat.eqb_spec (init - c_used c) (c_size c)); lia. }
  split; [|split; [apply zpos_lt; [assumption|lia]|split; [reflexivity|]]].
  - intros _. unfold zpos. destruct (Z.ltb_spec o 0) as [Ho|Ho].
    + destruct keep; [|lia]. unfold init, idx in *.
      destruct (Nat.leb_spec (c_size c) (hd c' + (c_size c - Z.to_nat (- o)))); lia.
    + unfold init, idx in *. destruct keep.
      * destruct (Nat.leb_spec (c_size c) (hd c' + Z.to_nat o)); lia.
      * assert (hd c' = 0) as -> by lia.
        destruct (Nat.leb_spec (c_size c) (0 + Z.to_nat o)); lia.
  - unfold c_norm. rewrite Hs. cbn [c' c_head]. intros [Hu|Hu] _; [lia|]. unfold init. rewrite Hu. lia.
Qed.

(** ** Reading and writing through pointers *)
Lemma nth_overwrite m p d j : p + length d <= length m ->
  nth j (overwrite m p d) nul = if (p <=? j) && (j <? p + length d) then nth (j - p) d nul else nth j m nul.
Proof.
  intros H. unfold overwrite. destruct (Nat.leb_spec p j); cbn [andb].
  - rewrite app_nth2 by (rewrite firstn_length; lia). rewrite firstn_length. replace (min p (length m)) with p by lia.
    destruct (Nat.ltb_spec j (p + length d)).
    + apply app_nth1. lia.
    + rewrite app_nth2 by lia. rewrite nth_skipn. f_equal. lia.
  - rewrite app_nth1 by (rewrite firstn_length; lia). apply nth_firstn. assumption.
Qed.

Lemma ring_write m h n k d : h < length m -> n <= length m -> k + length d <= n ->
  idx (length m) h k + length d <= length m ->
  ring (overwrite m (idx (length m) h k) d) h n = overwrite (ring m h n) k d.
Proof.
  intros Hh Hn Hk Hp. apply ring_eq.
  { rewrite overwrite_length; rewrite ring_length; lia. }
  intros i Hi. rewrite overwrite_length by lia.
  replace (max (length m) (idx (length m) h k + length d)) with (length m) by lia.
  rewrite !nth_overwrite by (rewrite ?ring_length; lia).
  rewrite ring_nth by assumption.
  destruct (Nat.leb_spec k i), (Nat.ltb_spec i (k + length d)); cbn [andb].
  - assert (idx (length m) h i = idx (length m) h k + (i - k)) as E.
    { unfold idx in *. destruct (Nat.leb_spec (length m) (h + k)), (Nat.leb_spec (length m) (h + i)); lia. }
    rewrite E. destruct (Nat.leb_spec (idx (length m) h k) (idx (length m) h k + (i - k))); [|lia].
    destruct (Nat.ltb_spec (idx (length m) h k + (i - k)) (idx (length m) h k + length d)); [|lia].
    cbn [andb]. f_equal. lia.
  - destruct (Nat.leb_spec (idx (length m) h k) (idx (length m) h i)); cbn [andb]; [|reflexivity].
    destruct (Nat.ltb_spec (idx (length m) h i) (idx (length m) h k + length d)); [|reflexivity].
    exfalso. unfold idx in *. destruct (Nat.leb_spec (length m) (h + k)), (Nat.leb_spec (length m) (h + i)); lia.
  - destruct (Nat.leb_spec (idx (length m) h k) (idx (length m) h i)); cbn [andb]; [|reflexivity].
    destruct (Nat.ltb_spec (idx (length m) h i) (idx (length m) h k + length d)); [|reflexivity].
    exfalso. unfold idx in *. destruct (Nat.leb_spec (length m) (h + k)), (Nat.leb_spec (length m) (h + i)); lia.
  - lia.
Qed.

Lemma c_wr_ok c k p d : c_wf c -> k + length d <= c_used c -> p + length d <= c_size c ->
  (d <> [] -> p = idx (c_size c) (hd c) k) ->
  exists c', c_wr c p d = Ok c' /\ c_wf c' /\ c_size c' = c_size c /\ c_head c' = c_head c /\ c_used c' = c_used c /\
    c_init c' = c_init c /\ c_hist c' = c_hist c /\ c_queue c' = overwrite (c_queue c) k d.
Proof.
  intros W Hk Hp Hd. pose proof (base_lt c W) as Hb. pose proof (hd_lt c W) as Hh. pose proof W as (W1 & W2 & W3).
  unfold c_wr. rewrite mwrite_ok by exact Hp. cbn [bind].
  set (c' := Circ (overwrite (c_mem c) p d) (c_head c) (c_used c) (c_init c)).
  exists c'. split; [reflexivity|].
  assert (Hs : c_size c' = c_size c).
  { unfold c_size. cbn [c' c_mem]. rewrite overwrite_length by (unfold c_size in *; lia). unfold c_size in *. lia. }
  assert (W' : c_wf c') by (unfold c_wf; rewrite Hs; cbn; auto).
  split; [assumption|]. split; [assumption|]. do 3 (split; [reflexivity|]).
  destruct (list_eq_dec Ascii.ascii_dec d []) as [->|Hne].
  { rewrite overwrite_nil. split.
    - unfold c_hist, c_base, hd. rewrite Hs. cbn [c' c_mem c_head c_used c_init]. rewrite overwrite_nil. reflexivity.
    - unfold c_queue, hd. rewrite Hs. cbn [c' c_mem c_head c_used c_init]. rewrite overwrite_nil. reflexivity. }
  specialize (Hd Hne).
  assert (Hb' : c_base c' = c_base c) by (unfold c_base, hd; rewrite Hs; reflexivity).
  set (k' := c_init c - c_used c + k).
  assert (Ep : p = idx (c_size c) (c_base c) k').
  { rewrite Hd, <- (base_head c W), idx_idx by lia. reflexivity. }
  assert (Ea : c_all c' = overwrite (c_all c) k' d).
  { unfold c_all. rewrite Hb'. cbn [c' c_mem c_init]. rewrite Ep. apply ring_write; unfold c_size, k' in *; lia. }
  rewrite !c_all_split in Ea by assumption.
  assert (Eo : overwrite (c_hist c ++ c_queue c) k' d = c_hist c ++ overwrite (c_queue c) k d).
  { unfold overwrite. rewrite firstn_app, skipn_app, c_hist_length.
    rewrite firstn_all2 by (rewrite c_hist_length; lia). rewrite skipn_all2 by (rewrite c_hist_length; lia).
    rewrite <- app_assoc. cbn [app]. unfold k'. f_equal. f_equal; [f_equal; lia|]. do 2 f_equal. lia. }
  rewrite Eo in Ea. apply app_eq_app_length; [|assumption]. rewrite !c_hist_length. reflexivity.
Qed.

(** ** The primitives *)
Lemma hist_all c : c_wf c -> c_hist c = firstn (c_init c - c_used c) (c_all c).
Proof.
  intros W. rewrite c_all_split by assumption. symmetry. apply firstn_app_len. symmetry. apply c_hist_length.
Qed.
Lemma queue_all c : c_wf c -> c_queue c = skipn (c_init c - c_used c) (c_all c).
Proof.
  intros W. rewrite c_all_split by assumption.
  rewrite (skipn_app_len (c_hist c) _ _ 0) by (rewrite c_hist_length; lia). reflexivity.
Qed.

Lemma c_rd_ok c k n p : c_wf c -> k + n <= c_init c -> p + n <= c_size c ->
  (0 < n -> p = idx (c_size c) (c_base c) k) -> c_rd c p n = Ok (firstn n (skipn k (c_all c))).
Proof.
  intros W Hk Hp He. pose proof (base_lt c W). pose proof W as (W1 & W2 & W3).
  unfold c_rd. rewrite mread_ok by exact Hp. f_equal.
  destruct (Nat.eq_dec n 0) as [->|Hn]; [reflexivity|]. rewrite <- ring_contig by exact Hp. rewrite (He ltac:(lia)).
  unfold c_all. rewrite ring_skipn by (unfold c_size in *; lia). fold (c_size c).
  rewrite ring_firstn; [reflexivity| |unfold c_size in *; lia]. fold (c_size c). apply idx_lt; lia.
Qed.

Lemma c_get_ok c n : c_wf c -> n <= c_used c ->
  exists c' p, c_get c n = Ok (c', p) /\ c_wf c' /\ c_norm c' /\ c_size c' = c_size c /\ c_used c' = c_used c - n /\
    c_queue c' = skipn n (c_queue c) /\ suffix_of (c_hist c') (c_hist c ++ firstn n (c_queue c)) /\
    n <= length (c_hist c') /\
    forall k j, k + j <= n -> c_rd c' (p + k) j = Ok (firstn j (skipn k (c_queue c))).
Proof.
  intros W Hn. pose proof W as (W1 & W2 & W3). unfold c_get. destruct (Nat.leb_spec n (c_used c)); [|lia].
  destruct (ensure_ok c 0 n false W) as (c1 & p & H1 & V & Hs & Hu & Hq & _ & Hh & Hp & Hp' & Ep & _); try lia.
  rewrite H1. cbn [bind]. pose proof V as (V1 & V2 & V3). pose proof (hd_lt c1 V) as Hd.
  set (c2 := Circ (c_mem c1) ((c_head c1 + n) mod c_size c1) (c_used c1 - n) (c_init c1)).
  exists c2, p. split; [reflexivity|].
  assert (S2 : c_size c2 = c_size c1) by reflexivity.
  assert (E2 : c_head c2 = idx (c_size c1) (hd c1) n).
  { cbn [c2 c_head]. rewrite hd_mod by assumption. apply mod_idx; lia. }
  assert (N2 : c_norm c2) by (unfold c_norm; rewrite E2, S2; apply idx_lt; lia).
  assert (W2' : c_wf c2).
  { unfold c_norm in N2. unfold c_wf. rewrite S2 in *. cbn [c2 c_used c_init] in *. repeat split; lia. }
  assert (Hb : c_base c2 = c_base c1).
  { unfold c_base. rewrite (hd_norm c2 N2), S2, E2. cbn [c2 c_init c_used]. unfold idx.
    destruct (Nat.leb_spec (c_size c1) (hd c1 + n));
    repeat match goal with |- context [?x <=? ?y] => destruct (Nat.leb_spec x y) end; lia. }
  assert (Ha : c_all c2 = c_hist c1 ++ c_queue c).
  { unfold c_all. rewrite Hb. cbn [c2 c_mem c_init]. fold (c_all c1). rewrite c_all_split, Hq by assumption. reflexivity. }
  assert (Lh : length (c_hist c1) = c_init c1 - c_used c1) by apply c_hist_length.
  split; [assumption|]. split; [assumption|]. split; [congruence|]. split; [cbn; lia|].
  assert (Eh : c_hist c2 = c_hist c1 ++ firstn n (c_queue c)).
  { rewrite hist_all, Ha by assumption. cbn [c2 c_init c_used]. rewrite firstn_app, Lh.
    rewrite firstn_all2 by lia. do 2 f_equal. lia. }
  split; [|split; [|split]].
  - rewrite queue_all, Ha by assumption. cbn [c2 c_init c_used]. rewrite (skipn_app_len _ _ _ n) by lia. reflexivity.
  - rewrite Eh. destruct (Hh eq_refl) as [x ->]. exists x. rewrite app_assoc. reflexivity.
  - rewrite Eh, app_length, firstn_length, c_queue_length. lia.
  - intros k j Hkj. destruct (Nat.eq_dec j 0) as [->|Hj].
    { unfold c_rd. cbn [c2 c_mem]. rewrite mread_ok; [reflexivity|]. fold (c_size c1).
      destruct (Nat.eq_dec n 0); [lia|]. specialize (Hp ltac:(lia)). lia. }
    specialize (Hp ltac:(lia)).
    rewrite (c_rd_ok c2 (c_init c1 - c_used c1 + k) j); try assumption.
    + rewrite Ha. rewrite (skipn_app_len (c_hist c1) _ _ k) by lia. reflexivity.
    + cbn. lia.
    + rewrite S2. lia.
    + intros _. rewrite Hb, S2. rewrite <- idx_idx, base_head by (try apply base_lt; try assumption; lia).
      rewrite Ep. unfold zpos. cbn [Z.ltb Z.compare Z.to_nat]. change (Z.to_nat 0) with 0.
      rewrite Ep in Hp. unfold zpos in Hp. cbn [Z.ltb Z.compare] in Hp. change (Z.to_nat 0) with 0 in Hp.
      rewrite <- Hs in Hp |- *. unfold idx in *.
      destruct (Nat.leb_spec (c_size c1) (hd c1 + 0)); [lia|].
      destruct (Nat.leb_spec (c_size c1) (hd c1 + k)); lia.
Qed.

Lemma c_unget_ok c n : c_wf c -> n <= c_init c - c_used c ->
  exists c', c_unget c n = Ok c' /\ c_wf c' /\ c_norm c' /\ c_size c' = c_size c /\ c_used c' = c_used c + n /\
    c_init c' = c_init c /\
    c_hist c' = firstn (length (c_hist c) - n) (c_hist c) /\
    c_queue c' = skipn (length (c_hist c) - n) (c_hist c) ++ c_queue c.
Proof.
  intros W Hn. pose proof W as (W1 & W2 & W3). pose proof (hd_lt c W) as Hd. unfold c_unget.
  destruct (Nat.leb_spec n (c_init c - c_used c)); [|lia]. destruct (Nat.eqb_spec (c_size c) 0); [lia|].
  set (c2 := Circ (c_mem c) ((c_head c + c_size c - n) mod c_size c) (c_used c + n) (c_init c)).
  exists c2. split; [reflexivity|].
  assert (S2 : c_size c2 = c_size c) by reflexivity.
  assert (E2 : c_head c2 = idx (c_size c) (hd c) (c_size c - n)).
  { cbn [c2 c_head]. rewrite <- Nat.add_sub_assoc by lia. rewrite hd_mod by assumption. apply mod_idx; lia. }
  assert (N2 : c_norm c2) by (unfold c_norm; rewrite E2, S2; apply idx_lt; lia).
  assert (W2' : c_wf c2).
  { unfold c_norm in N2. unfold c_wf. rewrite S2 in *. cbn [c2 c_used c_init] in *. repeat split; lia. }
  assert (Hb : c_base c2 = c_base c).
  { unfold c_base. rewrite (hd_norm c2 N2), S2, E2. cbn [c2 c_init c_used]. unfold idx.
    destruct (Nat.leb_spec (c_size c) (hd c + (c_size c - n)));
    repeat match goal with |- context [?x <=? ?y] => destruct (Nat.leb_spec x y) end; lia. }
  assert (Ha : c_all c2 = c_hist c ++ c_queue c).
  { unfold c_all. rewrite Hb. cbn [c2 c_mem c_init]. fold (c_all c). apply c_all_split. assumption. }
  assert (Lh : length (c_hist c) = c_init c - c_used c) by apply c_hist_length.
  split; [assumption|]. split; [assumption|]. split; [reflexivity|]. split; [reflexivity|]. split; [reflexivity|]. split.
  - rewrite hist_all, Ha by assumption. cbn [c2 c_init c_used]. rewrite firstn_app.
    replace (c_init c - (c_used c + n) - length (c_hist c)) with 0 by lia. rewrite firstn_O, app_nil_r. f_equal. lia.
  - rewrite queue_all, Ha by assumption. cbn [c2 c_init c_used]. rewrite skipn_app.
    replace (c_init c - (c_used c + n) - length (c_hist c)) with 0 by lia. cbn [skipn]. do 2 f_equal. lia.
Qed.

Lemma c_alloc_ok c n : c_wf c -> n <= c_size c - c_used c ->
  exists c' p J, c_alloc c n = Ok (c', p) /\ c_wf c' /\ (c_norm c -> c_norm c') /\ c_size c' = c_size c /\
    c_used c' = c_used c + n /\ c_queue c' = c_queue c ++ J /\ length J = n /\ c_hist c' = [] /\ c_region c' p n.
Proof.
  intros W Hn. pose proof W as (W1 & W2 & W3). unfold c_alloc.
  destruct (Nat.leb_spec n (c_size c - c_used c)); [|lia].
  set (c0 := Circ (c_mem c) (c_head c) (c_used c) (c_used c)).
  assert (W0 : c_wf c0) by (unfold c_wf, c_size in *; cbn; repeat split; lia).
  assert (Q0 : c_queue c0 = c_queue c) by reflexivity.
  destruct (ensure_ok c0 (Z.of_nat (c_used c)) n false W0) as (c1 & p & H1 & V & Hs & Hu & Hq & _ & Hh & Hp & Hp' & Ep & HN).
  1-4: unfold c_size in *; cbn; lia.
  fold c0. rewrite H1. cbn [bind]. pose proof V as (V1 & V2 & V3). pose proof (hd_lt c1 V) as Hd.
  change (c_size c0) with (c_size c) in *. cbn [c0 c_used] in Hu.
  assert (I1 : c_init c1 = c_used c1).
  { destruct (Hh eq_refl) as [x Hx]. apply (f_equal (@length _)) in Hx. rewrite app_length, !c_hist_length in Hx. cbn in Hx. lia. }
  set (c2 := Circ (c_mem c1) (c_head c1) (c_used c1 + n) (c_init c1 + n)).
  assert (W2' : c_wf c2) by (unfold c_wf; change (c_size c2) with (c_size c1); cbn; repeat split; lia).
  exists c2, p, (ring (c_mem c1) (idx (c_size c1) (hd c1) (c_used c1)) n). split; [reflexivity|].
  split; [assumption|]. split; [intros N; apply HN; auto|]. split; [exact Hs|]. split; [cbn; lia|].
  split; [|split; [apply ring_length|split]].
  - unfold c_queue at 1. change (hd c2) with (hd c1). cbn [c2 c_mem c_used].
    rewrite ring_app by (unfold c_size in *; lia). rewrite <- Q0, <- Hq. reflexivity.
  - apply length_zero_iff_nil. rewrite c_hist_length. cbn. lia.
  - unfold c_region. change (c_size c2) with (c_size c1). change (hd c2) with (hd c1). cbn [c2 c_used].
    split; [lia|]. split.
    + destruct (Nat.eq_dec n 0); [lia|]. specialize (Hp ltac:(lia)). lia.
    + intros _. rewrite Ep. unfold zpos. destruct (Z.ltb_spec (Z.of_nat (c_used c)) 0); [lia|].
      rewrite Hs. f_equal. lia.
Qed.

Lemma c_unalloc_ok c n : c_wf c -> n <= c_used c ->
  exists c', c_unalloc c n = Ok c' /\ c_wf c' /\ c_head c' = c_head c /\ c_size c' = c_size c /\ c_used c' = c_used c - n /\
    c_hist c' = c_hist c /\ c_queue c' = firstn (c_used c - n) (c_queue c).
Proof.
  intros W Hn. pose proof W as (W1 & W2 & W3). pose proof (hd_lt c W). unfold c_unalloc. destruct (Nat.leb_spec n (c_used c)); [|lia].
  eexists. split; [reflexivity|]. set (c2 := Circ _ _ _ _).
  change (c_size c2) with (c_size c).
  split; [unfold c_wf; change (c_size c2) with (c_size c); cbn; repeat split; lia|].
  split; [reflexivity|]. split; [reflexivity|]. split; [reflexivity|]. split.
  - unfold c_hist, c_base. change (hd c2) with (hd c). change (c_size c2) with (c_size c).
    cbn [c2 c_mem c_init c_used]. replace (c_init c - n - (c_used c - n)) with (c_init c - c_used c) by lia. reflexivity.
  - unfold c_queue. change (hd c2) with (hd c). cbn [c2 c_mem c_used]. symmetry. apply ring_firstn; [assumption|unfold c_size in *; lia].
Qed.

Lemma zpos_base c o : c_wf c -> (- Z.of_nat (c_init c - c_used c) <= o)%Z -> (o < Z.of_nat (c_used c))%Z ->
  zpos (c_size c) (hd c) o = idx (c_size c) (c_base c) (Z.to_nat (Z.of_nat (c_init c - c_used c) + o)).
Proof.
  intros W H1 H2. rewrite <- (base_head c W). pose proof (base_lt c W). pose proof W as (W1 & W2 & W3).
  generalize dependent (c_base c). intros b Hb. unfold zpos, idx.
  destruct (Z.ltb_spec o 0);
  repeat match goal with |- context [?x <=? ?y] => destruct (Nat.leb_spec x y) end; lia.
Qed.

Lemma c_mpeek_ok c o n : c_wf c -> 0 < n -> (- Z.of_nat (c_init c - c_used c) <= o)%Z ->
  (o + Z.of_nat n <= Z.of_nat (c_used c))%Z ->
  exists c' p, c_mpeek c o n = Ok (c', p) /\ c_wf c' /\ c_size c' = c_size c /\ c_hist c' = c_hist c /\
    c_queue c' = c_queue c /\ c_used c' = c_used c /\ c_init c' = c_init c /\
    ((0 < c_used c) -> c_norm c -> c_norm c') /\
    c_rd c' p n = Ok (window (c_hist c) (c_queue c) o n) /\
    forall d, length d = n -> (0 <= o)%Z ->
      exists c'', c_wr c' p d = Ok c'' /\ c_wf c'' /\ c_size c'' = c_size c /\ c_head c'' = c_head c' /\
        c_used c'' = c_used c /\ c_init c'' = c_init c /\ c_hist c'' = c_hist c /\ c_queue c'' = overwrite (c_queue c) (Z.to_nat o) d.
Proof.
  intros W Hn Ho1 Ho2. pose proof W as (W1 & W2 & W3). unfold c_mpeek. destruct (Nat.eqb_spec n 0); [lia|].
  assert (G : (if (o <=? 0)%Z then Z.to_nat (- o) <=? c_init c - c_used c else Z.to_nat o <? c_used c) = true).
  { destruct (Z.leb_spec o 0); [apply Nat.leb_le; lia|apply Nat.ltb_lt; lia]. }
  rewrite G.
  destruct (ensure_ok c o n true W) as (c1 & p & H1 & V & Hs & Hu & Hq & Hh & _ & Hp & Hp' & Ep & HN); try lia.
  destruct (Hh eq_refl) as [Hh1 Hi1]. specialize (Hp ltac:(lia)).
  exists c1, p. split; [assumption|]. repeat (split; [auto; fail|]). split.
  - rewrite (c_rd_ok c1 (Z.to_nat (Z.of_nat (c_init c1 - c_used c1) + o)) n); try assumption.
    + unfold window. rewrite c_all_split, Hh1, Hq, c_hist_length by assumption. rewrite Hi1, Hu. reflexivity.
    + lia.
    + lia.
    + intros _. rewrite Ep, <- Hs. apply zpos_base; [assumption|lia|lia].
  - intros d Ld Ho. destruct (c_wr_ok c1 (Z.to_nat o) p d V) as (c2 & G1 & G2 & G3 & G4 & G5 & G6 & G7 & G8); try lia.
    + intros _. rewrite Ep, Hs. unfold zpos. destruct (Z.ltb_spec o 0); [lia|reflexivity].
    + exists c2. rewrite G8, Hq. repeat split; try assumption; try congruence; apply G2.
Qed.

(** ** The instance *)
Definition c_room (c : circ) (n : nat) : Prop := n <= c_size c - c_used c.
(** [strict]: optgettable works in every state, but peeking into the history is
    not allowed. *)
Definition Circ_ok (strict : bool) (size : nat) : buffer_ok CircStore.
Proof.
  refine (BufferOk CircStore (fun c => c_wf c /\ c_size c = size /\ (strict = true -> c_norm c)) c_hist c_queue c_room c_region c_norm (negb strict)
            _ _ _ _ _ _ _ _ _ _ _ _ _ _ _ _ _ _ _ _ _);
  cbn [bT bP padd bused bfree bungettable bunallocable boptget boptalloc bpeekable boptpeek bget bunget balloc bunalloc bmpeek bzap brd bwr CircStore].
  - intros p. apply Nat.add_0_r.
  - intros p a b. symmetry. apply Nat.add_assoc.
  - intros c _. symmetry. apply c_queue_length.
  - intros c _. symmetry. apply c_hist_length.
  - intros c _. symmetry. apply c_queue_length.
  - intros c o _. unfold c_peekable. rewrite c_queue_length, c_hist_length. reflexivity.
  - intros c n _ H. exact H.
  - unfold c_room. intros. lia.
  - intros c _. rewrite c_queue_length. unfold c_optget. lia.
  - intros c [W _] N Hq. unfold c_optget, c_norm in *.
    assert (length (c_queue c) <> 0) by (rewrite length_zero_iff_nil; assumption).
    rewrite c_queue_length in *. lia.
  - intros c [W _]. unfold c_room, c_optalloc. destruct (Nat.leb_spec (c_size c) (c_head c + c_used c)); lia.
  - intros c n [W _] Hr Hn. unfold c_room, c_optalloc in *. destruct (Nat.leb_spec (c_size c) (c_head c + c_used c)); lia.
  - intros c o [W _]. unfold c_peekable, base_peekable, c_ungettable. rewrite c_queue_length, c_hist_length. intros H1 H2.
    destruct (Z.eqb_spec o 0) as [->|]; [lia|]. destruct (Z.ltb_spec o 0); [|lia].
    destruct (Nat.leb_spec (Z.to_nat (- o)) (c_init c - c_used c)); lia.
  - intros c n [W [Es Ns]] Hn. rewrite c_queue_length in Hn.
    destruct (c_get_ok c n W Hn) as (c' & p & H1 & H2 & H3 & H4 & H5 & H6 & H7 & H8 & H9).
    exists c', p. split; [assumption|]. split; [split; [assumption|split; [congruence|auto]]|]. auto 10.
  - intros c n [W [Es Ns]] Hn. rewrite c_hist_length in Hn.
    destruct (c_unget_ok c n W Hn) as (c' & H1 & H2 & H3 & H4 & H5 & H6 & H7 & H8).
    exists c'. split; [assumption|]. split; [split; [assumption|split; [congruence|auto]]|]. auto.
  - intros c n [W [Es Ns]] Hn.
    destruct (c_alloc_ok c n W Hn) as (c' & p & J & H1 & H2 & H3 & H4 & H5 & H6 & H7 & H8 & H9).
    exists c', p, J. split; [assumption|]. split; [split; [assumption|split; [congruence|auto]]|]. split; [assumption|]. split; [assumption|].
    split; [rewrite H8; auto|]. split; [assumption|]. split; [assumption|]. unfold c_room. rewrite H4, H5. intros. lia.
  - intros c p n Q J k d [W [Es Ns]] (R1 & R2 & R3) Hq LJ Hk.
    assert (LQ : length Q = c_used c - n) by (rewrite <- c_queue_length, Hq, app_length; lia).
    destruct (c_wr_ok c (c_used c - n + k) (p + k) d W) as (c' & H1 & H2 & H3 & H4 & H5 & H6 & H7 & H8); try lia.
    { intros Hd. assert (0 < length d) by (destruct d; [congruence|cbn; lia]).
      pose proof (hd_lt c W). pose proof W as (W1 & W2 & W3). specialize (R3 ltac:(lia)).
      unfold idx in *. destruct (Nat.leb_spec (c_size c) (hd c + (c_used c - n)));
      repeat match goal with |- context [?x <=? ?y] => destruct (Nat.leb_spec x y) end; lia. }
    assert (Eh : hd c' = hd c) by (unfold hd; rewrite H3, H4; reflexivity).
    exists c'. split; [assumption|]. split; [split; [assumption|split; [congruence|unfold c_norm in *; rewrite H3, H4; assumption]]|]. split; [assumption|]. split; [|split; [|split]].
    + rewrite H8, Hq, <- LQ. unfold overwrite. rewrite firstn_app, firstn_all2 by lia.
      rewrite skipn_app, skipn_all2 by lia. cbn [app]. rewrite <- app_assoc. do 2 f_equal; [f_equal; lia|].
      do 2 f_equal. lia.
    + unfold c_region. rewrite H3, H5, Eh. auto.
    + unfold c_norm. congruence.
    + unfold c_room. intros. lia.
  - intros c n [W [Es Ns]] Hn. rewrite c_queue_length in *.
    destruct (c_unalloc_ok c n W Hn) as (c' & H1 & H2 & H3 & H4 & H5 & H6 & H7).
    exists c'. split; [assumption|]. split; [split; [assumption|split; [congruence|unfold c_norm in *; rewrite H3, H4; assumption]]|]. rewrite H6. auto.
  - intros c o [W _]. exists 0. split; [reflexivity|]. reflexivity.
  - intros c o n [W [Es Ns]] Hop Hn Hp. rewrite c_hist_length, c_queue_length. intros H1 H2.
    unfold c_peekable, c_ungettable in Hp.
    destruct (c_mpeek_ok c o n W Hn H1) as (c' & p & G1 & G2 & G3 & G4 & G5 & G6 & G7 & G8 & G9 & G10).
    { unfold base_peekable in Hp. destruct (Z.eqb_spec o 0) as [->|]; [lia|]. destruct (Z.ltb_spec o 0); [|lia].
      destruct (Nat.leb_spec (Z.to_nat (- o)) (c_init c - c_used c)); lia. }
    exists c', p. split; [assumption|]. split; [split; [assumption|split; [congruence|intros ->; apply G8; [|auto]; destruct Hop as [Hop|Hop]; [discriminate|lia]]]|]. do 3 (split; [assumption|]).
    intros d Ld Ho. destruct (G10 d Ld Ho) as (c'' & F1 & F2 & F3 & F4 & F5 & F6 & F7 & F8).
    exists c''. split; [assumption|]. split; [split; [assumption|split; [congruence|intros ->; unfold c_norm; rewrite F3, F4, <- G3; apply G8; [|auto]; destruct Hop as [Hop|Hop]; [discriminate|lia]]]|]. auto.
  - intros c [W [Es Ns]]. pose proof W as (W1 & W2 & W3). split; [|split; reflexivity].
    unfold c_wf, c_norm, c_zap. change (c_size (Circ (c_mem c) 0 0 0)) with (c_size c). cbn. repeat split; lia.
Defined.

Lemma circ_new_ok strict size : 0 < size -> wf _ (Circ_ok strict size) (circ_new size).
Proof.
  intros H. assert (E : c_size (circ_new size) = size) by apply repeat_length.
  split; [unfold c_wf; rewrite E; cbn; lia|]. split; [assumption|]. unfold c_norm. rewrite E. cbn. lia.
Qed.

(** ** In-place buffers *)
Definition i_wf (size : nat) (s : inpl) : Prop :=
  length (i_mem s) = size /\ i_read s <= i_write s <= size.
Definition i_hist (s : inpl) : bytes := firstn (i_read s) (i_mem s).
Definition i_queue (s : inpl) : bytes := firstn (i_write s - i_read s) (skipn (i_read s) (i_mem s)).
Definition i_region (s : inpl) (p n : nat) : Prop := n <= i_write s - i_read s /\ p + n = i_write s.

Lemma i_queue_length size s : i_wf size s -> length (i_queue s) = i_write s - i_read s.
Proof. intros [H1 H2]. unfold i_queue. rewrite firstn_length, skipn_length. lia. Qed.
Lemma i_hist_length size s : i_wf size s -> length (i_hist s) = i_read s.
Proof. intros [H1 H2]. unfold i_hist. rewrite firstn_length. lia. Qed.
Lemma i_all size s : i_wf size s -> i_hist s ++ i_queue s = firstn (i_write s) (i_mem s).
Proof.
  intros [H1 H2]. unfold i_hist, i_queue. rewrite <- (firstn_skipn (i_read s) (firstn (i_write s) (i_mem s))).
  rewrite firstn_firstn, skipn_firstn_comm. f_equal; f_equal; lia.
Qed.
Lemma i_rd_ok size s k n : i_wf size s -> k + n <= i_write s ->
  mread (i_mem s) k n = Ok (firstn n (skipn k (i_hist s ++ i_queue s))).
Proof.
  intros W H. pose proof W as [H1 H2]. rewrite mread_ok by lia. rewrite (i_all size) by assumption.
  rewrite skipn_firstn_comm, firstn_firstn. do 2 f_equal. lia.
Qed.
Lemma i_wr_ok size s k d : i_wf size s -> i_read s + k + length d <= i_write s ->
  exists s', i_wr s (i_read s + k) d = Ok s' /\ i_wf size s' /\ i_read s' = i_read s /\ i_write s' = i_write s /\
    i_hist s' = i_hist s /\ i_queue s' = overwrite (i_queue s) k d.
Proof.
  intros W H. pose proof W as [H1 H2]. unfold i_wr. rewrite mwrite_ok by lia. cbn [bind].
  eexists. split; [reflexivity|]. split; [split; cbn; [rewrite overwrite_length; lia|lia]|].
  split; [reflexivity|]. split; [reflexivity|]. unfold i_hist, i_queue. cbn [i_mem i_read i_write].
  split.
  - unfold overwrite. rewrite firstn_app, firstn_firstn, firstn_length.
    replace (i_read s - min (i_read s + k) (length (i_mem s))) with 0 by lia. cbn [firstn].
    rewrite app_nil_r. f_equal. lia.
  - set (r := i_read s) in *. set (w := i_write s) in *. set (m := i_mem s) in *.
    apply nth_ext with (d := nul) (d' := nul).
    + rewrite overwrite_length; rewrite ?firstn_length, ?skipn_length, ?overwrite_length; lia.
    + intros i Hi. rewrite firstn_length, skipn_length, overwrite_length in Hi by lia.
      rewrite nth_firstn, nth_skipn, nth_overwrite by lia.
      rewrite nth_overwrite by (rewrite firstn_length, skipn_length; lia).
      rewrite nth_firstn, nth_skipn by lia.
      destruct (Nat.leb_spec (r + k) (r + i)), (Nat.leb_spec k i); try lia; cbn [andb]; [|reflexivity].
      destruct (Nat.ltb_spec (r + i) (r + k + length d)), (Nat.ltb_spec i (k + length d)); try lia; [|reflexivity].
      f_equal. lia.
Qed.

Definition InPlace_ok (size : nat) : buffer_ok InPlaceStore.
Proof.
  refine (BufferOk InPlaceStore (i_wf size) i_hist i_queue (fun s n => n <= size - i_write s) i_region (fun _ => True) true
            _ _ _ _ _ _ _ _ _ _ _ _ _ _ _ _ _ _ _ _ _);
  cbn [bT bP padd bused bfree bungettable bunallocable boptget boptalloc bpeekable boptpeek bget bunget balloc bunalloc bmpeek bzap brd bwr InPlaceStore].
  - intros p. apply Nat.add_0_r.
  - intros p a b. symmetry. apply Nat.add_assoc.
  - intros s W. symmetry. apply (i_queue_length size s W).
  - intros s W. symmetry. apply (i_hist_length size s W).
  - intros s W. symmetry. apply (i_queue_length size s W).
  - intros s o W. unfold i_peekable, i_used. rewrite (i_queue_length size s W), (i_hist_length size s W). reflexivity.
  - intros s n [H1 H2]. unfold i_free. rewrite H1. auto.
  - intros. lia.
  - intros s W. rewrite (i_queue_length size s W). unfold i_used. lia.
  - intros s W _ Hq. unfold i_used. rewrite <- (i_queue_length size s W). destruct (i_queue s); [congruence|cbn; lia].
  - intros s [H1 H2]. unfold i_free. lia.
  - intros s n [H1 H2] Hr Hn. unfold i_free. lia.
  - intros s o W. unfold i_peekable, base_peekable, i_used. rewrite (i_queue_length size s W), (i_hist_length size s W). intros H1 H2.
    destruct (Z.eqb_spec o 0) as [->|]; [lia|]. destruct (Z.ltb_spec o 0); [|lia].
    destruct (Nat.leb_spec (Z.to_nat (- o)) (i_read s)); lia.
  - intros s n W Hn. rewrite (i_queue_length size s W) in Hn. pose proof W as [H1 H2]. unfold i_get.
    destruct (Nat.leb_spec n (i_write s - i_read s)); [|lia]. eexists _, _. split; [reflexivity|].
    set (s' := Inpl _ _ _). assert (W' : i_wf size s') by (split; cbn; lia).
    assert (Ea : i_hist s' ++ i_queue s' = i_hist s ++ i_queue s) by (rewrite !(i_all size) by assumption; reflexivity).
    rewrite <- (firstn_skipn n (i_queue s)) in Ea. rewrite app_assoc in Ea.
    apply app_eq_app_length in Ea.
    2:{ rewrite app_length, firstn_length, (i_hist_length size s W), (i_hist_length size s' W'), (i_queue_length size s W). cbn. lia. }
    destruct Ea as [E1 E2]. split; [assumption|]. split; [assumption|]. split; [rewrite E1; auto|].
    split; [rewrite (i_hist_length size s' W'); cbn; lia|]. split; [trivial|].
    intros k j Hkj. change (mread (i_mem s') (i_read s + k) j = Ok (firstn j (skipn k (i_queue s)))).
    rewrite (i_rd_ok size s') by (try assumption; cbn; lia).
    assert (Ea : i_hist s' ++ i_queue s' = i_hist s ++ i_queue s) by (rewrite !(i_all size) by assumption; reflexivity).
    rewrite Ea. rewrite (skipn_app_len _ _ _ k) by (rewrite (i_hist_length size s W); lia). reflexivity.
  - intros s n W Hn. pose proof (i_hist_length size s W) as Lh. rewrite Lh in *. pose proof W as [H1 H2]. unfold i_unget.
    destruct (Nat.leb_spec n (i_read s)); [|lia]. eexists. split; [reflexivity|].
    set (s' := Inpl _ _ _). assert (W' : i_wf size s') by (split; cbn; lia). split; [assumption|].
    assert (Ea : i_hist s' ++ i_queue s' = i_hist s ++ i_queue s) by (rewrite !(i_all size) by assumption; reflexivity).
    rewrite <- (firstn_skipn (i_read s - n) (i_hist s)) in Ea. rewrite <- app_assoc in Ea.
    apply app_eq_app_length in Ea; [assumption|].
    rewrite firstn_length, (i_hist_length size s' W'), Lh. cbn. lia.
  - intros s n W Hn. pose proof W as [H1 H2]. unfold i_alloc. rewrite H1.
    destruct (Nat.leb_spec n (size - i_write s)); [|lia].
    set (s' := Inpl (i_mem s) (i_read s) (i_write s + n)). assert (W' : i_wf size s') by (split; cbn; lia).
    exists s', (i_write s), (skipn (i_write s - i_read s) (i_queue s')). split; [reflexivity|]. split; [assumption|].
    split; [|split; [|split; [|split; [|split]]]].
    + rewrite <- (firstn_skipn (i_write s - i_read s) (i_queue s')) at 1. f_equal.
      unfold i_queue. cbn. rewrite firstn_firstn. f_equal. lia.
    + rewrite skipn_length, (i_queue_length size s' W'). cbn. lia.
    + unfold i_hist. cbn. auto.
    + unfold i_region. cbn. lia.
    + trivial.
    + cbn. intros. lia.
  - intros s p n Q J k d W [R1 R2] Hq LJ Hk. pose proof (i_queue_length size s W) as Lq. pose proof W as [V1 V2].
    assert (LQ : length Q = i_write s - i_read s - n) by (rewrite <- Lq, Hq, app_length; lia).
    destruct (i_wr_ok size s (i_write s - i_read s - n + k) d W) as (s' & G1 & G2 & G3 & G4 & G5 & G6); [lia|].
    replace (i_read s + (i_write s - i_read s - n + k)) with (p + k) in G1 by lia.
    exists s'. split; [assumption|]. split; [assumption|]. split; [assumption|]. split; [|split; [|split; [trivial|]]].
    + rewrite G6, Hq, <- LQ. unfold overwrite. rewrite firstn_app, firstn_all2 by lia.
      rewrite skipn_app, skipn_all2 by lia. cbn [app]. rewrite <- app_assoc. do 2 f_equal; [f_equal; lia|].
      do 2 f_equal. lia.
    + unfold i_region. rewrite G3, G4. auto.
    + rewrite G4. auto.
  - intros s n W Hn. pose proof (i_queue_length size s W) as Lq. rewrite Lq in *. pose proof W as [H1 H2].
    unfold i_unalloc. destruct (Nat.leb_spec n (i_write s - i_read s)); [|lia].
    eexists. split; [reflexivity|]. split; [split; cbn; lia|]. split; [auto|]. unfold i_queue. cbn.
    rewrite firstn_firstn. f_equal. lia.
  - intros s o W. exists 0. split; reflexivity.
  - intros s o n W _ Hn Hp. pose proof (i_queue_length size s W) as Lq. pose proof (i_hist_length size s W) as Lh.
    rewrite Lq, Lh. intros H1 H2. unfold i_peekable, i_used in Hp. pose proof W as [V1 V2].
    assert (Hi : (o + Z.of_nat n <= Z.of_nat (i_write s - i_read s))%Z).
    { unfold base_peekable in Hp. destruct (Z.eqb_spec o 0) as [->|]; [lia|]. destruct (Z.ltb_spec o 0); [|lia].
      destruct (Nat.leb_spec (Z.to_nat (- o)) (i_read s)); lia. }
    unfold i_mpeek. destruct (Nat.eqb_spec n 0); [lia|].
    assert (G : (if (o <=? 0)%Z then Z.to_nat (- o) <=? i_read s else Z.to_nat o <? i_write s - i_read s) = true).
    { destruct (Z.leb_spec o 0); [apply Nat.leb_le; lia|apply Nat.ltb_lt; lia]. }
    rewrite G. exists s, (Z.to_nat (Z.of_nat (i_read s) + o)). repeat (split; [auto; fail|]). split.
    + rewrite (i_rd_ok size s) by (try assumption; lia). unfold window. rewrite Lh. reflexivity.
    + intros d Ld Ho. destruct (i_wr_ok size s (Z.to_nat o) d W) as (s' & G1 & G2 & G3 & G4 & G5 & G6); [lia|].
      exists s'. replace (Z.to_nat (Z.of_nat (i_read s) + o)) with (i_read s + Z.to_nat o) by lia. auto.
  - intros s [H1 H2]. split; [split; cbn; lia|]. split; reflexivity.
Defined.

Lemma inpl_new_ok size : wf _ (InPlace_ok size) (inpl_new size).
Proof. split; cbn; [apply repeat_length|lia]. Qed.
