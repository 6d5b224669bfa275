(** The three kinds of buffer in use. *)
From Verif Require Import Base BaseFacts BufModel BufSpec BufGeneric BufCirc BufDyn.

Definition K_ok (k : kind) : kind_ok k -> buffer_ok (store_of k) :=
  match k as k return kind_ok k -> buffer_ok (store_of k) with
  | KCirc n => fun _ => Circ_ok true n
  | KInPlace n => fun _ => InPlace_ok n
  | KDyn p => fun H => DynP_ok p H
  end.

Lemma start_ok k (H : kind_ok k) : wf _ (K_ok k H) (start k) /\ hist _ (K_ok k H) (start k) = [] /\
  queue _ (K_ok k H) (start k) = [].
Proof.
  destruct k; cbn.
  - split; [apply (circ_new_ok true size H)|split; reflexivity].
  - split; [apply (inpl_new_ok size)|split; reflexivity].
  - split; [apply (dyn_new_ok (p_gran p) (p_minalloc p) (p_maxalloc p) (p_unlimited p) (proj1 H) (proj2 H))|split; reflexivity].
Qed.
Lemma free_room k (H : kind_ok k) t : wf _ (K_ok k H) t ->
  bfree (store_of k) t = room_of k (hist _ (K_ok k H) t) (queue _ (K_ok k H) t).
Proof.
  destruct k; cbn [store_of room_of K_ok].
  - intros (W & Es & _). cbn. unfold c_free. rewrite Es, c_queue_length. reflexivity.
  - intros W. cbn. unfold i_free. rewrite (i_hist_length size), (i_queue_length size) by exact W.
    destruct W as [W1 W2]. lia.
  - reflexivity.
Qed.
Lemma forward_ok k (H : kind_ok k) o : forward o -> op_ok _ (K_ok k H) o.
Proof. destruct o; cbn; tauto. Qed.
Lemma norm_all k (H : kind_ok k) t : wf _ (K_ok k H) t -> norm _ (K_ok k H) t.
Proof. destruct k; cbn; auto. intros (_ & _ & N). auto. Qed.

Lemma observes_ok S (K : buffer_ok S) free t : wf S K t -> bfree S t = free ->
  observes S t free (hist S K t) (queue S K t).
Proof.
  intros W Hf. unfold observes. rewrite (ok_used S K), (ok_ungettable S K), (ok_unallocable S K) by assumption.
  repeat (split; [auto; fail|]). intros off n Hn. rewrite (ok_peekable S K) by assumption. split.
  - apply peekable_in. assumption.
  - apply in_peekable. assumption.
Qed.
Lemma holds_ok S (K : buffer_ok S) t : wf S K t -> holds S t (queue S K t).
Proof.
  intros W. split; [apply (ok_used S K); assumption|]. rewrite (ok_used S K) by assumption.
  unfold copy. destruct (Nat.eq_dec (length (queue S K t)) 0) as [E|E].
  { rewrite E. cbn. exists t. apply length_zero_iff_nil in E. rewrite E. reflexivity. }
  destruct (b_copy_ok S K (length (queue S K t)) (length (queue S K t)) t 0) as (t' & E1 & _).
  - lia.
  - assumption.
  - right. lia.
  - split; lia.
  - exists t'. rewrite E1. do 2 f_equal. change 0%Z with (Z.of_nat 0). rewrite window_q. apply firstn_all.
Qed.
Lemma holds_fun S t q q' : holds S t q -> holds S t q' -> q = q'.
Proof. intros [_ [t1 E1]] [_ [t2 E2]]. congruence. Qed.

Lemma merge_ok ka kb (Ha : kind_ok ka) (Hb : kind_ok kb) a b n :
  wf _ (K_ok ka Ha) a -> wf _ (K_ok kb Hb) b -> n <= bused (store_of kb) b -> n <= bfree (store_of ka) a ->
  exists a' b', merge ka kb a b n = Ok (a', b') /\ wf _ (K_ok ka Ha) a' /\ wf _ (K_ok kb Hb) b' /\
    suffix_of (hist _ (K_ok ka Ha) a') (hist _ (K_ok ka Ha) a) /\
    queue _ (K_ok ka Ha) a' = queue _ (K_ok ka Ha) a ++ firstn n (queue _ (K_ok kb Hb) b) /\
    queue _ (K_ok kb Hb) b' = skipn n (queue _ (K_ok kb Hb) b).
Proof.
  intros Wa Wb H1 H2.
  assert (Basic : exists a' b', basicmerge (store_of ka) (store_of kb) a b n = Ok (a', b') /\
    wf _ (K_ok ka Ha) a' /\ wf _ (K_ok kb Hb) b' /\ suffix_of (hist _ (K_ok ka Ha) a') (hist _ (K_ok ka Ha) a) /\
    queue _ (K_ok ka Ha) a' = queue _ (K_ok ka Ha) a ++ firstn n (queue _ (K_ok kb Hb) b) /\
    queue _ (K_ok kb Hb) b' = skipn n (queue _ (K_ok kb Hb) b)).
  { destruct (basicmerge_ok _ _ (K_ok ka Ha) (K_ok kb Hb) a b n) as (a' & b' & E & F1 & F2 & _ & _ & F3 & F4 & F5).
    - assumption.
    - assumption.
    - apply norm_all. assumption.
    - rewrite <- (ok_used _ (K_ok kb Hb)); assumption.
    - apply (ok_free _ (K_ok ka Ha)); assumption.
    - exists a', b'. auto 10. }
  destruct ka as [| |pa], kb as [| |pb]; try exact Basic.
  apply (dyn_merge_ok pa pb Ha Hb a b n Wa Wb). rewrite <- total_queue by exact Wb. exact H1.
Qed.

Theorem reach_ok k t : reach k t -> exists H, wf _ (K_ok k H) t.
Proof.
  induction 1 as [k H|k t o t' out R [H W] Hf Hl He|ka kb a b n a' b' Ra [Ha Wa] Rb [Hb Wb] H1 H2 E
                 |ka kb a b n a' b' Ra [Ha Wa] Rb [Hb Wb] H1 H2 E].
  - exists H. apply (start_ok k H).
  - exists H. destruct (exec_ok _ (K_ok k H) t o W (forward_ok k H o Hf) Hl) as (t1 & out1 & E & W1 & _).
    rewrite He in E. inversion E. subst. assumption.
  - exists Ha. destruct (merge_ok ka kb Ha Hb a b n Wa Wb H1 H2) as (a1 & b1 & E1 & W1 & _).
    rewrite E in E1. inversion E1. subst. assumption.
  - exists Hb. destruct (merge_ok ka kb Ha Hb a b n Wa Wb H1 H2) as (a1 & b1 & E1 & _ & W1 & _).
    rewrite E in E1. inversion E1. subst. assumption.
Qed.

(** Any buffer that has been used legally goes on behaving like a queue. *)
Theorem reach_queue k t : reach k t -> exists h q, holds (store_of k) t q /\
  observes (store_of k) t (room_of k h q) h q /\
  boptget (store_of k) t <= length q /\ (0 < length q -> 0 < boptget (store_of k) t) /\
  forall ops, Forall forward ops -> exists t' es h' q', client (store_of k) t ops = Ok (t', es) /\
    map op_of es = ops /\ buf_run (room_of k) h q es h' q' /\ holds (store_of k) t' q' /\
    observes (store_of k) t' (room_of k h' q') h' q'.
Proof.
  intros R. destruct (reach_ok k t R) as [H W].
  exists (hist _ (K_ok k H) t), (queue _ (K_ok k H) t). split; [apply holds_ok; assumption|].
  split; [apply observes_ok; [assumption|apply free_room; assumption]|].
  split; [apply (ok_optget_le _ (K_ok k H)); assumption|]. split.
  { intros Hq. apply (ok_optget_pos _ (K_ok k H)); [assumption|apply norm_all; assumption|].
    destruct (queue _ (K_ok k H) t); [cbn in Hq; lia|discriminate]. }
  intros ops Hops.
  destruct (client_ok _ (K_ok k H) (room_of k) (free_room k H) ops) with (t := t) as (t' & es & E & W' & Rn & Em).
  - eapply Forall_impl; [|exact Hops]. intros o. apply forward_ok.
  - assumption.
  - exists t', es, (hist _ (K_ok k H) t'), (queue _ (K_ok k H) t'). split; [assumption|]. split; [assumption|].
    split; [assumption|]. split; [apply holds_ok; assumption|]. apply observes_ok; [assumption|apply free_room; assumption].
Qed.

Theorem merge_holds ka kb a b n qa qb : reach ka a -> reach kb b -> holds _ a qa -> holds _ b qb ->
  n <= bused (store_of kb) b -> n <= bfree (store_of ka) a ->
  exists a' b', merge ka kb a b n = Ok (a', b') /\ holds _ a' (qa ++ firstn n qb) /\ holds _ b' (skipn n qb).
Proof.
  intros Ra Rb Qa Qb H1 H2. destruct (reach_ok ka a Ra) as [Ha Wa]. destruct (reach_ok kb b Rb) as [Hb Wb].
  destruct (merge_ok ka kb Ha Hb a b n Wa Wb H1 H2) as (a' & b' & E & W1 & W2 & _ & Q1 & Q2).
  exists a', b'. split; [assumption|].
  rewrite (holds_fun _ a _ _ Qa (holds_ok _ _ a Wa)), (holds_fun _ b _ _ Qb (holds_ok _ _ b Wb)), <- Q1, <- Q2.
  split; apply holds_ok; assumption.
Qed.

(** Circular and in-place buffers with any operations. *)
Theorem circ_client size ops : 0 < size -> exists c es h q,
  client CircStore (circ_new size) ops = Ok (c, es) /\ map op_of es = ops /\
  buf_run (fun _ q => size - length q) [] [] es h q /\
  observes CircStore c (size - length q) h q.
Proof.
  intros H. destruct (client_ok _ (Circ_ok false size) (fun _ q => size - length q)) with (ops := ops) (t := circ_new size)
    as (t' & es & E & W' & Rn & Em).
  - intros t (W & Es & _). cbn. unfold c_free. rewrite Es, c_queue_length. reflexivity.
  - apply Forall_forall. intros o _. destruct o; cbn; auto.
  - apply circ_new_ok. assumption.
  - exists t', es, (c_hist t'), (c_queue t'). split; [assumption|]. split; [assumption|].
    split; [exact Rn|]. apply (observes_ok _ (Circ_ok false size)); [assumption|].
    destruct W' as (W & Es & _). cbn. unfold c_free. rewrite Es, c_queue_length. reflexivity.
Qed.
Theorem inplace_client size ops : exists s es h q,
  client InPlaceStore (inpl_new size) ops = Ok (s, es) /\ map op_of es = ops /\
  buf_run (fun h q => size - (length h + length q)) [] [] es h q /\
  observes InPlaceStore s (size - (length h + length q)) h q.
Proof.
  assert (F : forall t, wf _ (InPlace_ok size) t -> bfree InPlaceStore t =
     size - (length (hist _ (InPlace_ok size) t) + length (queue _ (InPlace_ok size) t))).
  { intros W. apply (free_room (KInPlace size) I W). }
  destruct (client_ok _ (InPlace_ok size) (fun h q => size - (length h + length q)) F) with (ops := ops) (t := inpl_new size)
    as (t' & es & E & W' & Rn & Em).
  - apply Forall_forall. intros o _. destruct o; cbn; auto.
  - apply inpl_new_ok.
  - exists t', es, (i_hist t'), (i_queue t'). split; [assumption|]. split; [assumption|].
    split; [exact Rn|]. apply (observes_ok _ (InPlace_ok size)); [assumption|]. apply F. assumption.
Qed.

Theorem dyn_peek0 p t n : reach (KDyn p) t -> n <= d_total t ->
  exists q t', holds (DynStoreP p) t q /\ peek_read (DynStoreP p) t 0 n = Ok (t', firstn n q) /\ holds (DynStoreP p) t' q.
Proof.
  intros R Hn. destruct (reach_ok _ t R) as [H W]. pose proof (total_queue t W) as Tq.
  destruct (peek0_ok (p_gran p) (p_minalloc p) (p_maxalloc p) (p_unlimited p) (proj1 H) (proj2 H) t n W) as (t' & E & W' & Q & _); [lia|].
  exists (d_queue t), t'. split; [apply (holds_ok _ (DynP_ok p H) t W)|]. split; [exact E|].
  rewrite <- Q. apply (holds_ok _ (DynP_ok p H) t' W').
Qed.

Theorem dyn_client p ops : 0 < p_gran p -> 0 < p_unlimited p -> Forall forward ops ->
  exists t es h q, client (DynStoreP p) dyn_new ops = Ok (t, es) /\ map op_of es = ops /\
    buf_run (fun _ _ => p_unlimited p) [] [] es h q /\ holds (DynStoreP p) t q /\
    observes (DynStoreP p) t (p_unlimited p) h q.
Proof.
  intros H1 H2 Hf. set (H := conj H1 H2 : kind_ok (KDyn p)).
  destruct (client_ok _ (K_ok (KDyn p) H) (room_of (KDyn p)) (free_room (KDyn p) H) ops) with (t := dyn_new)
    as (t' & es & E & W' & Rn & Em).
  - eapply Forall_impl; [|exact Hf]. intros o. apply (forward_ok (KDyn p) H).
  - apply (start_ok (KDyn p) H).
  - exists t', es, (d_hist t'), (d_queue t'). split; [assumption|]. split; [assumption|]. split; [exact Rn|].
    split; [apply (holds_ok _ (K_ok (KDyn p) H) t' W')|].
    apply (observes_ok _ (K_ok (KDyn p) H)); [assumption|reflexivity].
Qed.
