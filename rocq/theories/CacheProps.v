(** C59: the cache. *)
From Verif Require Import Base BaseFacts Ctype KeyModel KeySpec KeyProofs TempModel TempSpec TreeProofs TempProofs TempProps WatchModel RecModel RecProofs FeedProofs CacheModel CacheProofs.
Local Open Scope nat_scope.

(** A cache made for a generator with any history, and used in any way *)
Definition cached (hs : list (key * option bytes)) (es : list cevent) (ns : list notif) (c : cache) : Prop :=
  exists g ns0, history tinit hs ns0 g /\ canonical_history hs /\ chistory (cache_new g) es ns c /\ Forall cevent_ok es.
Lemma cached_ok hs es ns c : cached hs es ns c -> cok c /\ (In CRefresh es -> refreshed c = true) /\ same_contents (replay ns nothing) (has (mine c)) /\
  same_contents (has (inner c)) (sets (hs ++ csets es)).
Proof.
  intros (g & ns0 & H & Ch & Hc & E). destruct (reach _ _ _ H Ch) as (W & _). destruct (chistory_ok _ _ _ _ Hc (new_cok g W) E) as (O & R & M).
  split; [exact O|]. split; [auto|]. split; [apply M; intros k _; reflexivity|]. destruct (chistory_inner _ _ _ _ Hc) as (ns' & Hi). pose proof (history_app _ _ _ _ H _ _ _ Hi) as Ha.
  assert (Ca : canonical_history (hs ++ csets es)).
  { apply Forall_app. split; [exact Ch|]. apply Forall_forall. intros x Hx. apply in_flat_map in Hx. destruct Hx as ([k v|] & He & Hx); [|destruct Hx]. destruct Hx as [<-|[]]. rewrite Forall_forall in E. apply (E _ He). }
  apply (reach _ _ _ Ha Ca).
Qed.
(** Once refresh() was called, every key but the root reads as what was set, before or
    after, through the cache or not, except that keys with an empty value may be
    missing. *)
Theorem C59_get hs es ns c k : cached hs es ns c -> In CRefresh es -> canonical k -> named k <> [] ->
  let v := if slashed k then None else sets (hs ++ csets es) k in
  tget (inner c) k = v /\ (cget c k = v \/ (v = Some [] /\ cget c k = None)).
Proof.
  intros H R C N. destruct (cached_ok _ _ _ _ H) as ((_ & _ & _ & K) & Rf & _ & S). specialize (K (Rf R)). unfold cget. rewrite !tget_has by exact C. destruct (slashed k) eqn:Es; [auto|].
  assert (P : Forall plain k) by (destruct C as [P|(k' & _ & P & ->)]; [exact P|]; destruct (trailing_slashed k' P); congruence).
  assert (Nk : k <> []) by (intros ->; apply N; reflexivity). rewrite <- (S k P). split; [reflexivity|]. exact (K k P Nk).
Qed.
(** Before that, only keys that are there are found. *)
Theorem C59_before hs es ns c k : cached hs es ns c -> canonical k -> cget c k <> None -> tget (inner c) k <> None.
Proof.
  intros H C X. destruct (cached_ok _ _ _ _ H) as ((_ & _ & J & _) & _). unfold cget in X. rewrite tget_has in * by exact C. destruct (slashed k) eqn:Es; [congruence|].
  assert (P : Forall plain k) by (destruct C as [P|(k' & _ & P & ->)]; [exact P|]; destruct (trailing_slashed k' P); congruence). apply (J k P), X.
Qed.
(** Someone who applies all notifications of the cache knows what it returns. *)
Theorem C59_mirror hs es ns c k : cached hs es ns c -> Forall plain k -> replay ns nothing k = cget c k.
Proof. intros H P. destruct (cached_ok _ _ _ _ H) as (_ & _ & M & _). unfold cget. rewrite tget_has by (left; exact P). destruct (plain_slashed _ P) as [-> _]. apply M, P. Qed.
(** refresh() loads the first time, and then does nothing and returns false, without
    refreshing the inner generator. *)
Theorem C59_refresh hs es ns c : cached hs es ns c -> exists c' n, crefresh c = Ok (c', negb (refreshed c), n) /\ refreshed c' = true /\ crefresh c' = Ok (c', false, []).
Proof.
  intros H. destruct (cached_ok _ _ _ _ H) as (O & _). destruct (crefresh_ok c O) as (c' & b & n & E & -> & R & _). exists c', n. split; [exact E|]. split; [exact R|]. unfold crefresh. rewrite R. reflexivity.
Qed.

Definition seg1 (k : list bytes) : Prop := Forall (fun s => In s [B "a"; B "b"]) k.
Lemma seg1_plain k : seg1 k -> Forall plain k.
Proof. apply Forall_impl. intros s H. cbn [In] in H. repeat (destruct H as [<-|H]; [split; [discriminate|]; split; intros [X|[]]; discriminate|]). contradiction. Qed.
Ltac segs := left; apply seg1_plain; repeat (constructor; [cbn [In]; auto|]); constructor.
(** Keys with empty values, and the value of the root, are not loaded. *)
Theorem C59_empty_refuted : exists hs ns c, cached hs [CRefresh] ns c /\ tget (inner c) [B "a"] = Some [] /\ cget c [B "a"] = None.
Proof.
  destruct (tset tinit [B "a"] (Some [])) as [g n] eqn:E. destruct (crefresh (cache_new g)) as [[[c b] o]| |] eqn:Er; [|vm_compute in E; injection E as <- <-; vm_compute in Er; discriminate..].
  exists [([B "a"], Some [])], (o ++ []), c. split.
  - exists g, (n ++ []). split; [eapply H_set; [exact E|apply H_end]|]. split; [constructor; [segs|constructor]|]. split; [eapply CH_refresh; [exact Er|apply CH_end]|]. repeat constructor.
  - vm_compute in E. injection E as <- <-. vm_compute in Er. injection Er as <- <- <-. split; reflexivity.
Qed.
Theorem C59_root_refuted : exists hs ns c, cached hs [CRefresh] ns c /\ tget (inner c) [] = Some (B "v") /\ cget c [] = None.
Proof.
  destruct (tset tinit [] (Some (B "v"))) as [g n] eqn:E. destruct (crefresh (cache_new g)) as [[[c b] o]| |] eqn:Er; [|vm_compute in E; injection E as <- <-; vm_compute in Er; discriminate..].
  exists [([], Some (B "v"))], (o ++ []), c. split.
  - exists g, (n ++ []). split; [eapply H_set; [exact E|apply H_end]|]. split; [constructor; [left; constructor|constructor]|]. split; [eapply CH_refresh; [exact Er|apply CH_end]|]. repeat constructor.
  - vm_compute in E. injection E as <- <-. vm_compute in Er. injection Er as <- <- <-. split; reflexivity.
Qed.
(** Before refresh() a key may read as another value than it has. *)
Theorem C59_before_refuted : exists hs es ns c, cached hs es ns c /\ tget (inner c) [B "a"] = Some (B "1") /\ cget c [B "a"] = Some [].
Proof.
  destruct (tset tinit [B "a"] (Some (B "1"))) as [g n] eqn:E. destruct (cset (cache_new g) [B "a"; B "b"] (Some (B "2"))) as [c o] eqn:Ec.
  exists [([B "a"], Some (B "1"))], [CSet [B "a"; B "b"] (Some (B "2"))], (o ++ []), c. split.
  - exists g, (n ++ []). split; [eapply H_set; [exact E|apply H_end]|]. split; [constructor; [segs|constructor]|]. split; [eapply CH_set; [exact Ec|apply CH_end]|]. constructor; [segs|constructor].
  - vm_compute in E. injection E as <- <-. vm_compute in Ec. injection Ec as <- <-. split; reflexivity.
Qed.
(** A cache that was refreshed, and changed after that *)
Example ex_cached : exists hs es ns c, cached hs es ns c /\ In CRefresh es /\ cget c [B "a"] = Some (B "1") /\ cget c [B "A"; B "b"] = Some (B "3") /\ cget c [B "b"] = None /\
  ns = [([], Some []); ([B "a"], Some (B "1")); ([B "a"; B "b"], Some (B "2")); ([B "b"], Some (B "x")); ([B "a"; B "b"], Some (B "3")); ([B "b"], None)].
Proof.
  destruct (tset tinit [B "a"] (Some (B "1"))) as [g0 n0] eqn:E0. destruct (tset g0 [B "a"; B "b"] (Some (B "2"))) as [g1 n1] eqn:E1. destruct (tset g1 [B "b"] (Some (B "x"))) as [g n] eqn:E.
  destruct (crefresh (cache_new g)) as [[[c b] o]| |] eqn:Er; [|vm_compute in E0; injection E0 as <- <-; vm_compute in E1; injection E1 as <- <-; vm_compute in E; injection E as <- <-; vm_compute in Er; discriminate..].
  destruct (cset c [B "a"; B "b"] (Some (B "3"))) as [c1 o1] eqn:Ec. destruct (cset c1 [B "b"] None) as [c2 o2] eqn:Ec2.
  exists [([B "a"], Some (B "1")); ([B "a"; B "b"], Some (B "2")); ([B "b"], Some (B "x"))], [CRefresh; CSet [B "a"; B "b"] (Some (B "3")); CSet [B "b"] None], (o ++ o1 ++ o2 ++ []), c2. split.
  - exists g, (n0 ++ n1 ++ n ++ []). split; [eapply H_set; [exact E0|]; eapply H_set; [exact E1|]; eapply H_set; [exact E|apply H_end]|]. split; [repeat (constructor; [segs|]); constructor|].
    split; [eapply CH_refresh; [exact Er|]; eapply CH_set; [exact Ec|]; eapply CH_set; [exact Ec2|apply CH_end]|]. constructor; [exact I|]. repeat (constructor; [segs|]). constructor.
  - split; [left; reflexivity|]. vm_compute in E0. injection E0 as <- <-. vm_compute in E1. injection E1 as <- <-. vm_compute in E. injection E as <- <-. vm_compute in Er. injection Er as <- <- <-.
    vm_compute in Ec. injection Ec as <- <-. vm_compute in Ec2. injection Ec2 as <- <-. repeat split; reflexivity.
Qed.
Print Assumptions C59_get.
Print Assumptions C59_before.
Print Assumptions C59_mirror.
Print Assumptions C59_refresh.
