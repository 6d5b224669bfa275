(** Facts about the helpers of WvBufStore for any storage class that implements
    the primitive operations correctly. *)
From Verif Require Import Base BaseFacts BufModel BufSpec.

(** A queue with history behind a storage class: [wf] invariant, [room t n]:
    n more bytes can be allocated, [region t p n]: p points to the last n bytes
    of the queue, [norm t]: optgettable works, [hpeek]: peeking at negative
    offsets keeps the invariant. *)
Record buffer_ok (S : bstore) := BufferOk
  { wf : bT S -> Prop;
    hist : bT S -> bytes;
    queue : bT S -> bytes;
    room : bT S -> nat -> Prop;
    region : bT S -> bP S -> nat -> Prop;
    norm : bT S -> Prop;
    hpeek : bool;
    ok_padd0 : forall p, padd S p 0 = p;
    ok_padd : forall p a b, padd S (padd S p a) b = padd S p (a + b);
    ok_used : forall t, wf t -> bused S t = length (queue t);
    ok_ungettable : forall t, wf t -> bungettable S t = length (hist t);
    ok_unallocable : forall t, wf t -> bunallocable S t = length (queue t);
    ok_peekable : forall t o, wf t -> bpeekable S t o = base_peekable (length (queue t)) (length (hist t)) o;
    ok_free : forall t n, wf t -> n <= bfree S t -> room t n;
    ok_room_le : forall t n m, room t n -> m <= n -> room t m;
    ok_optget_le : forall t, wf t -> boptget S t <= length (queue t);
    ok_optget_pos : forall t, wf t -> norm t -> queue t <> [] -> 0 < boptget S t;
    ok_optalloc : forall t, wf t -> room t (boptalloc S t);
    ok_optalloc_pos : forall t n, wf t -> room t n -> 0 < n -> 0 < boptalloc S t;
    ok_optpeek : forall t o, wf t -> (- Z.of_nat (length (hist t)) <= o)%Z ->
      (o < Z.of_nat (length (queue t)))%Z ->
      0 < boptpeek S t o /\ (o + Z.of_nat (boptpeek S t o) <= Z.of_nat (length (queue t)))%Z;
    ok_get : forall t n, wf t -> n <= length (queue t) ->
      exists t' p, bget S t n = Ok (t', p) /\ wf t' /\ queue t' = skipn n (queue t) /\
        suffix_of (hist t') (hist t ++ firstn n (queue t)) /\ n <= length (hist t') /\
        (norm t -> norm t') /\
        forall k j, k + j <= n -> brd S t' (padd S p k) j = Ok (firstn j (skipn k (queue t)));
    ok_unget : forall t n, wf t -> n <= length (hist t) ->
      exists t', bunget S t n = Ok t' /\ wf t' /\
        hist t' = firstn (length (hist t) - n) (hist t) /\
        queue t' = skipn (length (hist t) - n) (hist t) ++ queue t;
    ok_alloc : forall t n, wf t -> room t n ->
      exists t' p J, balloc S t n = Ok (t', p) /\ wf t' /\ queue t' = queue t ++ J /\ length J = n /\
        suffix_of (hist t') (hist t) /\ region t' p n /\ (norm t -> norm t') /\
        forall m, room t (n + m) -> room t' m;
    ok_wr : forall t p n Q J k d, wf t -> region t p n -> queue t = Q ++ J -> length J = n ->
      k + length d <= n ->
      exists t', bwr S t (padd S p k) d = Ok t' /\ wf t' /\ hist t' = hist t /\
        queue t' = Q ++ overwrite J k d /\ region t' p n /\ (norm t -> norm t') /\
        forall m, room t m -> room t' m;
    ok_unalloc : forall t n, wf t -> n <= length (queue t) ->
      exists t', bunalloc S t n = Ok t' /\ wf t' /\ suffix_of (hist t') (hist t) /\
        queue t' = firstn (length (queue t) - n) (queue t);
    ok_mpeek0 : forall t o, wf t -> exists p, bmpeek S t o 0 = Ok (t, p) /\ brd S t p 0 = Ok [];
    ok_mpeek : forall t o n, wf t -> (hpeek = true \/ (0 <= o)%Z) -> 0 < n -> n <= boptpeek S t o ->
      (- Z.of_nat (length (hist t)) <= o)%Z -> (o < Z.of_nat (length (queue t)))%Z ->
      exists t' p, bmpeek S t o n = Ok (t', p) /\ wf t' /\ hist t' = hist t /\ queue t' = queue t /\
        brd S t' p n = Ok (window (hist t) (queue t) o n) /\
        forall d, length d = n -> (0 <= o)%Z ->
          exists t'', bwr S t' p d = Ok t'' /\ wf t'' /\ hist t'' = hist t /\
            queue t'' = overwrite (queue t) (Z.to_nat o) d;
    ok_zap : forall t, wf t -> wf (bzap S t) /\ hist (bzap S t) = [] /\ queue (bzap S t) = [] }.

Lemma suffix_refl l : suffix_of l l.
Proof. exists []. reflexivity. Qed.
Lemma suffix_trans a b c : suffix_of a b -> suffix_of b c -> suffix_of a c.
Proof. intros [p ->] [q ->]. exists (q ++ p). apply app_assoc. Qed.
Lemma suffix_nil l : suffix_of [] l.
Proof. exists l. symmetry. apply app_nil_r. Qed.
Lemma suffix_length a b : suffix_of a b -> length a <= length b.
Proof. intros [p ->]. rewrite app_length. lia. Qed.
#[export] Hint Resolve suffix_refl suffix_nil : core.

Lemma overwrite_length q off d : off <= length q ->
  length (overwrite q off d) = max (length q) (off + length d).
Proof.
  intros H. unfold overwrite. rewrite !app_length, firstn_length, skipn_length. lia.
Qed.
Lemma overwrite_nil q off : overwrite q off [] = q.
Proof. unfold overwrite. cbn. rewrite Nat.add_0_r. apply firstn_skipn. Qed.
Lemma overwrite_0 q d : overwrite q 0 d = d ++ skipn (length d) q.
Proof. reflexivity. Qed.
Lemma overwrite_full q d : length q <= length d -> overwrite q 0 d = d.
Proof. intros H. rewrite overwrite_0, skipn_all2 by assumption. apply app_nil_r. Qed.
Lemma overwrite_over q off a b : off + length a <= length q ->
  overwrite (overwrite q off a) (off + length a) b = overwrite q off (a ++ b).
Proof.
  intros H. unfold overwrite at 1 3.
  assert (E : overwrite q off a = (firstn off q ++ a) ++ skipn (off + length a) q)
    by (unfold overwrite; rewrite app_assoc; reflexivity).
  assert (L : length (firstn off q ++ a) = off + length a) by (rewrite app_length, firstn_length; lia).
  rewrite E. rewrite <- L at 1. rewrite firstn_app, Nat.sub_diag, firstn_all, firstn_O, app_nil_r.
  rewrite skipn_app, skipn_all2 by lia. rewrite L, skipn_skipn_add. cbn [app].
  rewrite app_length, <- !app_assoc. do 4 f_equal. lia.
Qed.
Lemma overwrite_app q a off d : off + length d <= length q -> overwrite (q ++ a) off d = overwrite q off d ++ a.
Proof.
  intros H. unfold overwrite. rewrite firstn_app, skipn_app.
  replace (off - length q) with 0 by lia. replace (off + length d - length q) with 0 by lia.
  cbn [firstn skipn]. rewrite app_nil_r, !app_assoc. reflexivity.
Qed.

Lemma window_split h q o a b : in_window h q o (a + b) ->
  window h q o (a + b) = window h q o a ++ window h q (o + Z.of_nat a) b.
Proof.
  intros [H1 H2]. unfold window.
  replace (Z.to_nat (Z.of_nat (length h) + (o + Z.of_nat a))) with (a + Z.to_nat (Z.of_nat (length h) + o)) by lia.
  rewrite <- skipn_skipn_add. set (l := skipn _ (h ++ q)).
  rewrite <- (firstn_skipn a l) at 1. rewrite firstn_app.
  assert (Hl : a <= length l) by (unfold l; rewrite skipn_length, app_length; lia).
  rewrite firstn_all2 by (rewrite firstn_length; lia). rewrite firstn_length.
  do 2 f_equal. lia.
Qed.
Lemma window_0 h q o : window h q o 0 = [].
Proof. reflexivity. Qed.
Lemma window_q h q n k : window h q (Z.of_nat k) n = firstn n (skipn k q).
Proof.
  unfold window. rewrite skipn_app, skipn_all2 by lia. cbn. do 2 f_equal. lia.
Qed.

Lemma in_window_opt (h q : bytes) o n : base_peekable (length q) (length h) o = n -> 0 < n ->
  (- Z.of_nat (length h) <= o)%Z /\ (o < Z.of_nat (length q) \/ o <= 0)%Z /\ (Z.of_nat n = Z.of_nat (length q) - o)%Z.
Proof.
  unfold base_peekable. intros <-. destruct (Z.eqb_spec o 0) as [->|]; [cbn; lia|].
  destruct (Z.ltb_spec o 0); [|lia].
  destruct (Nat.leb_spec (Z.to_nat (- o)) (length h)); lia.
Qed.
Lemma peekable_in h q o n : 0 < n -> n <= base_peekable (length q) (length h) o -> in_window h q o n.
Proof.
  intros Hn H. destruct (in_window_opt h q o _ eq_refl ltac:(lia)) as (H1 & H2 & H3). split; lia.
Qed.
Lemma in_peekable h q o n : 0 < n -> in_window h q o n -> n <= base_peekable (length q) (length h) o.
Proof.
  intros Hn [H1 H2]. unfold base_peekable. destruct (Z.eqb_spec o 0) as [->|]; [lia|].
  destruct (Z.ltb_spec o 0); [|lia].
  destruct (Nat.leb_spec (Z.to_nat (- o)) (length h)); lia.
Qed.

Section Generic.
Variable S : bstore.
Variable K : buffer_ok S.
Notation wf := (wf S K). Notation hist := (hist S K). Notation queue := (queue S K).
Notation room := (room S K). Notation region := (region S K).
Notation okoff o := (hpeek S K = true \/ (0 <= o)%Z).

Lemma fastput_ok t d : wf t -> room t (length d) ->
  exists t', fastput S t d = Ok t' /\ wf t' /\ suffix_of (hist t') (hist t) /\ queue t' = queue t ++ d /\
    forall m, room t (length d + m) -> room t' m.
Proof.
  intros Hw Hr. destruct (ok_alloc S K t _ Hw Hr) as (t1 & p & J & H1 & H2 & H3 & H4 & H5 & H6 & _ & H7).
  destruct (ok_wr S K t1 p (length d) (queue t) J 0 d H2 H6 H3 H4) as (t2 & G1 & G2 & G3 & G4 & G5 & _ & G6); [lia|].
  rewrite (ok_padd0 S K) in G1. exists t2. unfold fastput. rewrite H1. cbn [bind]. rewrite G1.
  rewrite overwrite_full in G4 by lia. repeat split; auto. rewrite G3. assumption.
Qed.

Lemma b_put_ok d : forall fuel t, length d <= fuel -> wf t -> room t (length d) ->
  exists t', b_put S fuel t d = Ok t' /\ wf t' /\ suffix_of (hist t') (hist t) /\ queue t' = queue t ++ d.
Proof.
  remember (length d) as n eqn:Hn. revert d Hn.
  induction n as [n IH] using lt_wf_ind. intros d Hn fuel t Hf Hw Hr.
  destruct d as [|c d].
  - exists t. destruct fuel; cbn [b_put]; rewrite app_nil_r; auto.
  - destruct fuel as [|fuel]; [cbn in Hn; lia|]. cbn [b_put].
    pose proof (ok_optalloc_pos S K t n Hw Hr ltac:(cbn in Hn; lia)) as Hp.
    destruct (Nat.eqb_spec (boptalloc S t) 0); [lia|].
    set (amount := min (boptalloc S t) (length (c :: d))).
    set (d1 := firstn amount (c :: d)). set (d2 := skipn amount (c :: d)).
    assert (Ha : 0 < amount <= length (c :: d)) by (unfold amount; cbn [length]; lia).
    assert (L1 : length d1 = amount) by (unfold d1; rewrite firstn_length; lia).
    assert (L2 : length d2 = n - amount) by (unfold d2; rewrite skipn_length; lia).
    assert (Hra : room t (length d1)).
    { rewrite L1. apply (ok_room_le S K t (boptalloc S t)); [apply (ok_optalloc S K); assumption|unfold amount; lia]. }
    destruct (fastput_ok t d1 Hw Hra) as (t1 & H1 & H2 & H3 & H4 & H5).
    unfold fastput in H1. rewrite L1 in H1.
    destruct (balloc S t amount) as [[ta pa]| |]; cbn [bind] in *; try discriminate.
    rewrite H1. cbn [bind].
    destruct (IH (n - amount) ltac:(lia) d2 ltac:(lia) fuel t1 ltac:(lia) H2) as (t2 & G1 & G2 & G3 & G4).
    { apply H5. rewrite L1. replace (amount + (n - amount)) with n by lia. assumption. }
    exists t2. rewrite G1. repeat split; auto.
    + eapply suffix_trans; eassumption.
    + rewrite G4, H4, <- app_assoc. unfold d1, d2. rewrite firstn_skipn. reflexivity.
Qed.

Lemma put_ok t d : wf t -> room t (length d) ->
  exists t', put S t d = Ok t' /\ wf t' /\ suffix_of (hist t') (hist t) /\ queue t' = queue t ++ d.
Proof. intros. apply b_put_ok; auto. Qed.

Lemma get_read_ok t n : wf t -> n <= length (queue t) ->
  exists t', get_read S t n = Ok (t', firstn n (queue t)) /\ wf t' /\ queue t' = skipn n (queue t) /\
    suffix_of (hist t') (hist t ++ firstn n (queue t)) /\ n <= length (hist t').
Proof.
  intros Hw Hn. destruct (ok_get S K t n Hw Hn) as (t' & p & H1 & H2 & H3 & H4 & H5 & _ & H6).
  exists t'. unfold get_read. rewrite H1. cbn [bind]. specialize (H6 0 n ltac:(lia)).
  rewrite (ok_padd0 S K) in H6. rewrite H6. auto.
Qed.

Lemma move_ok t n : wf t -> n <= length (queue t) ->
  exists t', move S t n = Ok (t', firstn n (queue t)) /\ wf t' /\ queue t' = skipn n (queue t) /\
    suffix_of (hist t') (hist t ++ firstn n (queue t)).
Proof.
  intros Hw Hn. unfold move. destruct (Nat.eqb_spec n 0) as [->|].
  - exists t. cbn. rewrite app_nil_r. auto.
  - destruct (get_read_ok t n Hw Hn) as (t' & H1 & H2 & H3 & H4 & _). exists t'. auto.
Qed.

Lemma b_copy_ok n : forall fuel t o, n <= fuel -> wf t -> okoff o -> in_window (hist t) (queue t) o n ->
  exists t', b_copy S fuel t o n = Ok (t', window (hist t) (queue t) o n) /\ wf t' /\
    hist t' = hist t /\ queue t' = queue t.
Proof.
  induction n as [n IH] using lt_wf_ind. intros fuel t o Hf Hw Hoo [Hi1 Hi2].
  destruct (Nat.eqb_spec n 0) as [->|Hn].
  - exists t. destruct fuel; cbn; auto.
  - destruct fuel as [|fuel]; [lia|]. cbn [b_copy]. destruct (Nat.eqb_spec n 0); [lia|].
    destruct (ok_optpeek S K t o Hw Hi1 ltac:(lia)) as [P1 P2].
    destruct (Nat.eqb_spec (boptpeek S t o) 0); [lia|].
    set (amount := min (boptpeek S t o) n).
    destruct (ok_mpeek S K t o amount Hw Hoo ltac:(lia) ltac:(lia) Hi1 ltac:(lia))
      as (t1 & p & H1 & H2 & H3 & H4 & H5 & _).
    rewrite H1. cbn [bind]. rewrite H5. cbn [bind].
    destruct (IH (n - amount) ltac:(lia) fuel t1 (o + Z.of_nat amount)%Z) as (t2 & G1 & G2 & G3 & G4);
      [lia|assumption|destruct Hoo; [auto|right; lia]|rewrite H3, H4; split; lia|].
    rewrite G1. cbn [bind]. exists t2. rewrite G3, G4, H3, H4. repeat split; auto.
    do 2 f_equal. replace n with (amount + (n - amount)) at 2 by lia. symmetry. apply window_split. split; lia.
Qed.

Lemma b_poke_ok d : forall fuel t o, length d <= fuel -> wf t -> o + length d <= length (queue t) ->
  exists t', b_poke S fuel t d (Z.of_nat o) = Ok t' /\ wf t' /\ hist t' = hist t /\
    queue t' = overwrite (queue t) o d.
Proof.
  remember (length d) as n eqn:Hn. revert d Hn.
  induction n as [n IH] using lt_wf_ind. intros d Hn fuel t o Hf Hw Hi.
  destruct d as [|c d].
  - exists t. destruct fuel; cbn [b_poke]; rewrite overwrite_nil; auto.
  - destruct fuel as [|fuel]; [cbn in Hn; lia|]. cbn [b_poke].
    assert (Hl : 0 < length (c :: d)) by (cbn; lia).
    destruct (ok_optpeek S K t (Z.of_nat o) Hw ltac:(lia) ltac:(lia)) as [P1 P2].
    destruct (Nat.eqb_spec (boptpeek S t (Z.of_nat o)) 0); [lia|].
    set (amount := min (boptpeek S t (Z.of_nat o)) (length (c :: d))).
    set (d1 := firstn amount (c :: d)). set (d2 := skipn amount (c :: d)).
    assert (Ha : 0 < amount <= length (c :: d)) by (unfold amount; lia).
    assert (L1 : length d1 = amount) by (unfold d1; rewrite firstn_length; lia).
    assert (L2 : length d2 = n - amount) by (unfold d2; rewrite skipn_length; lia).
    destruct (ok_mpeek S K t (Z.of_nat o) amount Hw ltac:(right; lia) ltac:(lia) ltac:(lia) ltac:(lia) ltac:(lia))
      as (t1 & p & H1 & H2 & H3 & H4 & _ & H6).
    destruct (H6 d1 L1 ltac:(lia)) as (t2 & G1 & G2 & G3 & G4).
    rewrite H1. cbn [bind]. rewrite G1. cbn [bind]. rewrite Nat2Z.id in G4.
    rewrite <- Nat2Z.inj_add.
    destruct (IH (n - amount) ltac:(lia) d2 ltac:(lia) fuel t2 (o + amount) ltac:(lia) G2) as (t3 & F1 & F2 & F3 & F4).
    { rewrite G4, overwrite_length by lia. lia. }
    exists t3. rewrite F1. split; [reflexivity|]. split; [assumption|]. split; [congruence|].
    rewrite F4, G4. rewrite <- L1, overwrite_over by lia. unfold d1, d2. rewrite firstn_skipn. reflexivity.
Qed.

Lemma poke_ok t d o : wf t -> o <= length (queue t) -> room t (o + length d - length (queue t)) ->
  exists t', poke S t d (Z.of_nat o) = Ok t' /\ wf t' /\ suffix_of (hist t') (hist t) /\
    queue t' = overwrite (queue t) o d.
Proof.
  intros Hw Ho Hr. unfold poke. rewrite (ok_used S K) by assumption.
  destruct (Z.leb_spec (Z.of_nat o) (Z.of_nat (length (queue t)))); [|lia].
  destruct (Z.leb_spec (Z.of_nat (length (queue t))) (Z.of_nat o + Z.of_nat (length d))).
  - replace (Z.to_nat (Z.of_nat o + Z.of_nat (length d) - Z.of_nat (length (queue t))))
      with (o + length d - length (queue t)) by lia.
    set (tail := o + length d - length (queue t)) in *. set (count := length d - tail).
    assert (L2 : length (skipn count d) = tail) by (rewrite skipn_length; lia).
    destruct (put_ok t (skipn count d) Hw) as (t1 & H1 & H2 & H3 & H4); [rewrite L2; assumption|].
    rewrite H1. cbn [bind].
    assert (L1 : length (firstn count d) = count) by (rewrite firstn_length; lia).
    destruct (b_poke_ok (firstn count d) (length d) t1 o) as (t2 & G1 & G2 & G3 & G4);
      [lia|assumption|rewrite H4, app_length; lia|].
    exists t2. rewrite G1. repeat split; auto.
    + rewrite G3. assumption.
    + rewrite G4, H4. unfold overwrite. rewrite L1.
      rewrite firstn_app, skipn_app. replace (o - length (queue t)) with 0 by lia. cbn [firstn].
      rewrite app_nil_r. f_equal.
      rewrite (skipn_all2 (queue t)) by lia. rewrite (skipn_all2 (queue t)) by lia.
      replace (o + count - length (queue t)) with 0 by lia. cbn [app skipn].
      rewrite app_nil_r. apply firstn_skipn.
  - destruct (b_poke_ok d (length d) t o) as (t2 & G1 & G2 & G3 & G4); [lia|assumption|lia|].
    exists t2. rewrite G1. repeat split; auto. rewrite G3. auto.
Qed.

(** ** The client *)
Variable free_of : bytes -> bytes -> nat.
Hypothesis free_ok : forall t, wf t -> bfree S t = free_of (hist t) (queue t).
Definition op_ok (o : buf_op) : Prop :=
  match o with OPeek off n | OCopy off n => n = 0 \/ okoff off | _ => True end.

Lemma exec_ok t o : wf t -> op_ok o -> legal S t o = true ->
  exists t' out, exec S t o = Ok (t', out) /\ wf t' /\
    buf_step (hist t) (queue t) o out (hist t') (queue t').
Proof.
  intros Hw Hop Hl. destruct o as [n|n|d|d|n|off n|off n|off d|n|]; cbn [legal exec op_ok] in *.
  - rewrite (ok_used S K) in Hl by assumption. apply Nat.leb_le in Hl.
    destruct (get_read_ok t n Hw Hl) as (t' & H1 & H2 & H3 & H4 & H5).
    exists t', (firstn n (queue t)). rewrite H3. repeat split; auto. constructor; assumption.
  - rewrite (ok_ungettable S K) in Hl by assumption. apply Nat.leb_le in Hl.
    destruct (ok_unget S K t n Hw Hl) as (t' & H1 & H2 & H3 & H4).
    exists t', []. rewrite H1. repeat split; auto. rewrite H3, H4.
    rewrite <- (firstn_skipn (length (hist t) - n) (hist t)) at 1. constructor.
    rewrite skipn_length. lia.
  - apply Nat.leb_le in Hl. destruct (put_ok t d Hw) as (t' & H1 & H2 & H3 & H4); [apply (ok_free S K); assumption|].
    exists t', []. rewrite H1, H4. repeat split; auto. constructor. assumption.
  - apply Nat.leb_le in Hl. destruct (fastput_ok t d Hw) as (t' & H1 & H2 & H3 & H4 & _); [apply (ok_free S K); assumption|].
    exists t', []. rewrite H1, H4. repeat split; auto. constructor. assumption.
  - rewrite (ok_unallocable S K) in Hl by assumption. apply Nat.leb_le in Hl.
    destruct (ok_unalloc S K t n Hw Hl) as (t' & H1 & H2 & H3 & H4).
    exists t', []. rewrite H1. repeat split; auto. rewrite H4.
    rewrite <- (firstn_skipn (length (queue t) - n) (queue t)) at 1. constructor; [|assumption].
    rewrite skipn_length. lia.
  - apply andb_true_iff in Hl. destruct Hl as [Hl1 Hl2]. rewrite (ok_peekable S K) in Hl2 by assumption.
    apply Nat.leb_le in Hl1, Hl2. unfold peek_read. destruct (Nat.eq_dec n 0) as [->|Hn].
    + destruct (ok_mpeek0 S K t off Hw) as (p & H1 & H2). rewrite H1. cbn [bind]. rewrite H2. cbn [bind].
      exists t, []. repeat split; auto. constructor; auto.
    + pose proof (peekable_in (hist t) (queue t) off n ltac:(lia) Hl2) as [Hi1 Hi2].
      destruct (ok_mpeek S K t off n Hw ltac:(tauto) ltac:(lia) Hl1 Hi1 ltac:(lia)) as (t' & p & H1 & H2 & H3 & H4 & H5 & _).
      rewrite H1. cbn [bind]. rewrite H5. cbn [bind]. eexists t', _. split; [reflexivity|]. split; [assumption|].
      rewrite H3, H4. constructor; [left; split; assumption|auto].
  - rewrite (ok_peekable S K) in Hl by assumption. apply Nat.leb_le in Hl. unfold copy.
    destruct (Nat.eq_dec n 0) as [->|Hn].
    + cbn. exists t, []. repeat split; auto. constructor. auto.
    + pose proof (peekable_in (hist t) (queue t) off n ltac:(lia) Hl) as Hi.
      destruct (b_copy_ok n n t off ltac:(lia) Hw ltac:(tauto) Hi) as (t' & H1 & H2 & H3 & H4).
      rewrite H1. eexists t', _. split; [reflexivity|]. split; [assumption|]. rewrite H3, H4. constructor. auto.
  - apply andb_true_iff in Hl. destruct Hl as [Hl1 Hl2]. rewrite (ok_used S K) in * by assumption.
    apply Nat.leb_le in Hl1, Hl2.
    destruct (poke_ok t d off Hw Hl1) as (t' & H1 & H2 & H3 & H4); [apply (ok_free S K); assumption|].
    exists t', []. rewrite H1, H4. repeat split; auto. constructor; assumption.
  - rewrite (ok_used S K) in Hl by assumption. apply Nat.leb_le in Hl.
    destruct (move_ok t n Hw Hl) as (t' & H1 & H2 & H3 & H4).
    exists t', (firstn n (queue t)). rewrite H3. repeat split; auto. constructor; assumption.
  - destruct (ok_zap S K t Hw) as (H1 & H2 & H3). exists (bzap S t), []. rewrite H2, H3.
    repeat split; auto. constructor.
Qed.

Lemma refuse_ok t o : wf t -> legal S t o = false -> may_refuse (hist t) (queue t) (free_of (hist t) (queue t)) o.
Proof.
  intros Hw Hl. rewrite <- free_ok by assumption.
  destruct o as [n|n|d|d|n|off n|off n|off d|n|]; cbn [legal may_refuse] in *; auto; try discriminate.
  all: rewrite ?(ok_used S K), ?(ok_ungettable S K), ?(ok_unallocable S K), ?(ok_peekable S K) in Hl by assumption.
  all: try (apply Nat.leb_gt in Hl; assumption).
  - apply Nat.leb_gt in Hl. split; [lia|].
    intros Hi. apply in_peekable in Hi; [|lia]. apply Nat.lt_nge in Hl. contradiction.
  - apply andb_false_iff in Hl. destruct Hl as [Hl|Hl]; apply Nat.leb_gt in Hl; auto.
Qed.

Theorem client_ok ops : Forall op_ok ops -> forall t, wf t -> exists t' es, client S t ops = Ok (t', es) /\ wf t' /\
  buf_run free_of (hist t) (queue t) es (hist t') (queue t') /\
  map (fun e => match e with Done o _ => o | Skipped o => o end) es = ops.
Proof.
  induction 1 as [|o ops Ho Hops IH]; intros t Hw; cbn [client].
  - exists t, []. repeat split; auto. constructor.
  - destruct (legal S t o) eqn:El.
    + destruct (exec_ok t o Hw Ho El) as (t1 & out & H1 & H2 & H3). rewrite H1. cbn [bind].
      destruct (IH t1 H2) as (t2 & es & G1 & G2 & G3 & G4). rewrite G1. cbn [bind].
      exists t2, (Done o out :: es). repeat split; auto; [econstructor; eassumption|cbn; congruence].
    + destruct (IH t Hw) as (t2 & es & G1 & G2 & G3 & G4). rewrite G1. cbn [bind].
      exists t2, (Skipped o :: es). repeat split; auto; [|cbn; congruence].
      econstructor; [apply refuse_ok; assumption|assumption].
Qed.
End Generic.

(** ** basicmerge *)
Section MergeOk.
Variables A B : bstore.
Variable KA : buffer_ok A.
Variable KB : buffer_ok B.

Lemma bm_loop_ok : forall fuel a b ip ia op oa count Qa I J,
  count <= fuel -> 0 < count -> wf A KA a -> wf B KB b -> norm B KB b ->
  length I = ia -> ia <= count -> length J = oa -> oa <= count ->
  queue A KA a = Qa ++ J -> count <= length I + length (queue B KB b) ->
  room A KA a (count - oa) ->
  (0 < ia -> exists p, ip = Some p /\ forall k j, k + j <= ia -> brd B b (padd B p k) j = Ok (firstn j (skipn k I))) ->
  (0 < oa -> exists p k, op = Some (padd A p k) /\ exists J0, region A KA a p (length (J0 ++ J)) /\
       k = length J0 /\ exists Q0, Qa = Q0 ++ J0) ->
  exists a' b', bm_loop A B fuel a b ip ia op oa count = Ok (a', b') /\ wf A KA a' /\ wf B KB b' /\
    (norm A KA a -> norm A KA a') /\ norm B KB b' /\
    suffix_of (hist A KA a') (hist A KA a) /\
    queue A KA a' = Qa ++ firstn count (I ++ queue B KB b) /\
    queue B KB b' = skipn count (I ++ queue B KB b).
Proof.
  induction fuel as [|fuel IH]; intros a b ip ia op oa count Qa I J Hf Hc Wa Wb Nb LI Hia LJ Hoa HQ Hav Hroom Hin Hout; [lia|].
  cbn [bm_loop].
  (* the input side *)
  assert (HI : exists b1 p I1, 
     (if ia =? 0 then if boptget B b =? 0 then Fault else
        let! (b', p) := bget B b (min (boptget B b) count) in Ok (b', Some p, min (boptget B b) count)
      else Ok (b, ip, ia)) = Ok (b1, Some p, length I1) /\ wf B KB b1 /\ norm B KB b1 /\ 0 < length I1 <= count /\
     I1 ++ queue B KB b1 = I ++ queue B KB b /\
     (forall k j, k + j <= length I1 -> brd B b1 (padd B p k) j = Ok (firstn j (skipn k I1)))).
  { destruct (Nat.eqb_spec ia 0) as [Hz|Hz].
    - assert (I = []) as -> by (destruct I; [reflexivity|cbn in *; lia]). cbn [length app] in *.
      pose proof (ok_optget_le B KB b Wb).
      pose proof (ok_optget_pos B KB b Wb Nb ltac:(intros E; rewrite E in *; cbn in *; lia)).
      destruct (Nat.eqb_spec (boptget B b) 0) as [|_]; [lia|]. cbn [bind].
      set (n := min (boptget B b) count).
      destruct (ok_get B KB b n Wb ltac:(lia)) as (b1 & p & H1 & H2 & H3 & _ & _ & H5 & H6).
      exists b1, p, (firstn n (queue B KB b)). rewrite H1. cbn [bind].
      assert (Ln : length (firstn n (queue B KB b)) = n) by (rewrite firstn_length; lia).
      rewrite Ln. split; [reflexivity|]. split; [assumption|]. split; [auto|]. split; [lia|]. split.
      + rewrite H3. apply firstn_skipn.
      + intros k j Hkj. rewrite H6 by assumption. rewrite skipn_firstn_comm, firstn_firstn.
        do 2 f_equal. lia.
    - destruct Hin as (p & -> & Hp); [lia|]. exists b, p, I. rewrite LI. repeat split; auto; lia. }
  destruct HI as (b1 & p1 & I1 & E1 & Wb1 & Nb1 & HI1 & HIq & Hrd). rewrite E1. clear E1. cbn [bind].
  (* the output side *)
  assert (HO : exists a1 p J0 J1 Q0,
     (if oa =? 0 then if boptalloc A a =? 0 then Fault else
        let! (a', p) := balloc A a (min (boptalloc A a) count) in Ok (a', Some p, min (boptalloc A a) count)
      else Ok (a, op, oa)) = Ok (a1, Some (padd A p (length J0)), length J1) /\ wf A KA a1 /\ (norm A KA a -> norm A KA a1) /\
     0 < length J1 <= count /\ suffix_of (hist A KA a1) (hist A KA a) /\
     queue A KA a1 = Qa ++ J1 /\ Qa = Q0 ++ J0 /\ region A KA a1 p (length (J0 ++ J1)) /\
     room A KA a1 (count - length J1)).
  { destruct (Nat.eqb_spec oa 0) as [Hz|Hz].
    - assert (J = []) as -> by (destruct J; [reflexivity|cbn in *; lia]). rewrite app_nil_r in HQ.
      rewrite Hz, Nat.sub_0_r in Hroom.
      pose proof (ok_optalloc_pos A KA a count Wa Hroom Hc).
      destruct (Nat.eqb_spec (boptalloc A a) 0) as [|_]; [lia|]. cbn [bind].
      set (n := min (boptalloc A a) count).
      destruct (ok_alloc A KA a n Wa) as (a1 & p & J1 & H1 & H2 & H3 & H4 & H5 & H6 & HN & H7).
      { apply (ok_room_le A KA a count); [assumption|unfold n; lia]. }
      exists a1, p, [], J1, Qa. rewrite H1. cbn [bind length app]. rewrite (ok_padd0 A KA). rewrite H4.
      split; [reflexivity|]. split; [assumption|]. split; [assumption|]. split; [lia|]. split; [assumption|].
      split; [congruence|]. split; [rewrite app_nil_r; reflexivity|]. split; [assumption|].
      apply H7. replace (n + (count - n)) with count by lia. assumption.
    - destruct Hout as (p & k & -> & J0 & H1 & -> & Q0 & ->); [lia|].
      exists a, p, J0, J, Q0. rewrite LJ. repeat split; auto; try lia. }
  destruct HO as (a1 & p & J0 & J1 & Q0 & E1 & Wa1 & Na1 & HJ1 & Hs & HQ1 & HQ0 & Hreg & Hroom1). rewrite E1. clear E1. cbn [bind of_opt].
  clear Hin Hout Hroom.
  destruct (Nat.ltb_spec (length I1) (length J1)) as [Hlt|Hge].
  - specialize (Hrd 0 (length I1) ltac:(lia)) as Hr0. rewrite (ok_padd0 B KB) in Hr0. rewrite Hr0.
    cbn [bind skipn]. rewrite firstn_all.
    destruct (ok_wr A KA a1 p (length (J0 ++ J1)) Q0 (J0 ++ J1) (length J0) I1) as (a2 & G1 & G2 & G3 & G4 & G5 & GN & G6);
      [assumption|assumption|rewrite HQ1, HQ0, app_assoc; reflexivity|reflexivity|rewrite app_length; lia|].
    rewrite G1. cbn [bind].
    assert (E : overwrite (J0 ++ J1) (length J0) I1 = (J0 ++ I1) ++ skipn (length I1) J1).
    { unfold overwrite. rewrite firstn_app, Nat.sub_diag, firstn_all, firstn_O, app_nil_r.
      rewrite skipn_app, skipn_all2 by lia. rewrite <- app_assoc. cbn [app]. do 3 f_equal. lia. }
    destruct (Nat.eqb_spec (count - length I1) 0); [lia|].
    rewrite (ok_padd A KA).
    destruct (IH a2 b1 None 0 (Some (padd A p (length J0 + length I1))) (length J1 - length I1) (count - length I1)
                (Qa ++ I1) [] (skipn (length I1) J1)) as (a3 & b3 & F1 & F2 & F3 & FN & FM & F4 & F5 & F6); try assumption; try lia.
    + reflexivity.
    + apply skipn_length.
    + rewrite G4, E, HQ0, !app_assoc. reflexivity.
    + cbn [length]. rewrite <- (app_length I (queue B KB b)) in Hav. rewrite <- HIq, app_length in Hav. lia.
    + apply G6. replace (count - length I1 - (length J1 - length I1)) with (count - length J1) by lia. assumption.
    + intros _. exists p, (length J0 + length I1). split; [reflexivity|]. exists (J0 ++ I1).
      split; [|split; [rewrite app_length; reflexivity|exists Q0; rewrite HQ0, app_assoc; reflexivity]].
      replace (length ((J0 ++ I1) ++ skipn (length I1) J1)) with (length (J0 ++ J1)); [assumption|].
      rewrite !app_length, skipn_length. lia.
    + exists a3, b3. rewrite F1. split; [reflexivity|]. split; [assumption|]. split; [assumption|]. split; [auto|]. split; [assumption|].
      split; [rewrite G3 in F4; eapply suffix_trans; eassumption|].
      rewrite <- HIq. cbn [app] in F5, F6. rewrite firstn_app, skipn_app.
      rewrite (firstn_all2 I1), (skipn_all2 I1) by lia. cbn [app]. rewrite F5, F6, app_assoc. auto.
  - specialize (Hrd 0 (length J1) ltac:(lia)) as Hr0. rewrite (ok_padd0 B KB) in Hr0. rewrite Hr0.
    cbn [bind skipn].
    set (d := firstn (length J1) I1). assert (Ld : length d = length J1) by (unfold d; rewrite firstn_length; lia).
    destruct (ok_wr A KA a1 p (length (J0 ++ J1)) Q0 (J0 ++ J1) (length J0) d) as (a2 & G1 & G2 & G3 & G4 & G5 & GN & G6);
      [assumption|assumption|rewrite HQ1, HQ0, app_assoc; reflexivity|reflexivity|rewrite app_length; lia|].
    rewrite G1. cbn [bind].
    assert (E : overwrite (J0 ++ J1) (length J0) d = J0 ++ d).
    { unfold overwrite. rewrite firstn_app, Nat.sub_diag, firstn_all, firstn_O, app_nil_r.
      rewrite (skipn_all2 (J0 ++ J1)) by (rewrite app_length; lia). rewrite app_nil_r. reflexivity. }
    assert (Hsplit : forall m, I1 ++ m = d ++ skipn (length J1) I1 ++ m).
    { intros m. unfold d. rewrite app_assoc, firstn_skipn. reflexivity. }
    destruct (Nat.eqb_spec (count - length J1) 0) as [Hz|Hz].
    + exists a2, b1. split; [reflexivity|]. split; [assumption|]. split; [assumption|]. split; [auto|]. split; [assumption|].
      split; [rewrite G3; assumption|]. rewrite <- HIq.
      assert (length I1 = count) by lia. assert (count = length J1) by lia.
      split.
      * rewrite G4, E, HQ0, <- app_assoc. do 2 f_equal. rewrite firstn_app.
        replace (count - length I1) with 0 by lia. rewrite firstn_O, app_nil_r. unfold d. f_equal. lia.
      * rewrite skipn_app, skipn_all2 by lia. replace (count - length I1) with 0 by lia. reflexivity.
    + destruct (IH a2 b1 (Some (padd B p1 (length J1))) (length I1 - length J1) None 0 (count - length J1)
                (Qa ++ d) (skipn (length J1) I1) []) as (a3 & b3 & F1 & F2 & F3 & FN & FM & F4 & F5 & F6); try assumption; try lia.
      * apply skipn_length.
      * reflexivity.
      * rewrite G4, E, HQ0, app_nil_r, app_assoc. reflexivity.
      * rewrite skipn_length. rewrite <- (app_length I (queue B KB b)) in Hav. rewrite <- HIq, app_length in Hav. lia.
      * apply G6. rewrite Nat.sub_0_r. assumption.
      * intros _. exists (padd B p1 (length J1)). split; [reflexivity|]. intros k j Hkj.
        rewrite (ok_padd B KB). rewrite Hrd by lia. rewrite skipn_skipn_add. do 3 f_equal. lia.
      * exists a3, b3. rewrite F1. split; [reflexivity|]. split; [assumption|]. split; [assumption|]. split; [auto|]. split; [assumption|].
        split; [rewrite G3 in F4; eapply suffix_trans; eassumption|].
        rewrite <- HIq, Hsplit. rewrite firstn_app, skipn_app.
        rewrite (firstn_all2 d), (skipn_all2 d) by lia. rewrite Ld. cbn [app].
        rewrite F5, F6, app_assoc. auto.
Qed.

Theorem basicmerge_ok a b count : wf A KA a -> wf B KB b -> norm B KB b -> count <= length (queue B KB b) ->
  room A KA a count ->
  exists a' b', basicmerge A B a b count = Ok (a', b') /\ wf A KA a' /\ wf B KB b' /\
    (norm A KA a -> norm A KA a') /\ norm B KB b' /\
    suffix_of (hist A KA a') (hist A KA a) /\
    queue A KA a' = queue A KA a ++ firstn count (queue B KB b) /\
    queue B KB b' = skipn count (queue B KB b).
Proof.
  intros Wa Wb Nb Hc Hr. unfold basicmerge. destruct (Nat.eqb_spec count 0) as [->|].
  - exists a, b. cbn. rewrite app_nil_r. auto 10.
  - apply (bm_loop_ok count a b None 0 None 0 count (queue A KA a) [] []); auto; try lia.
    + rewrite app_nil_r. reflexivity.
    + rewrite Nat.sub_0_r. assumption.
Qed.
End MergeOk.
