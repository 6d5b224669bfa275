(** C81: the pool of connections that fetches URLs. *)
From Verif Require Import Base PoolModel PoolProofs PoolRuns PoolEnds.
Local Open Scope list_scope.

(** The resolver always says the same. *)
Definition steady (e : env) (D : bytes -> found) : Prop := forall n h, dns e n h = D h.

(** The URL cannot be fetched: no port, or the name is unknown. *)
Definition bad_url (q : req) : Prop := q_port q = 0%nat \/ q_resolving q = false /\ q_addr q = None.

Lemma bad_url_ok q : bad_url q <-> url_ok q = false.
Proof.
  unfold bad_url, url_ok. destruct (Nat.eqb_spec (q_port q) 0); cbn [negb andb]; [tauto|].
  destruct (q_resolving q), (q_addr q); cbn; intuition congruence.
Qed.

(** Whatever the resolver, the connections and the user do: no request points
    to a connection that is gone, and no connection to a request that is gone. *)
Theorem C81_safe : forall e acts, let p := run e acts in
  (forall q s, In q (p_urls p) -> q_in q = Some s -> exists c, In c (p_conns p) /\ c_id c = s) /\
  (forall c i, In c (p_conns p) -> In i (c_held c) ->
     exists q, In q (p_urls p) /\ q_id q = i /\ q_in q = Some (c_id c)) /\
  NoDup (map q_id (p_urls p)) /\ NoDup (map c_id (p_conns p)).
Proof.
  intros e acts p. pose proof (inv_run e acts) as H. fold p in H.
  split; [|split; [|split]].
  - intros q s A C. destruct (iE _ _ H q s A C) as (c & X & Y & _). eauto.
  - intros c i A C. destruct (iD _ _ H c i A C) as (q & X & Y & Z & _). eauto.
  - apply (iA _ _ H).
  - apply (iB _ _ H).
Qed.

(** One connection for each server and user, and each request is in the hands
    of at most one of them, and there once. *)
Theorem C81_one_connection : forall e acts, let p := run e acts in
  NoDup (map c_to (p_conns p)) /\
  (forall c, In c (p_conns p) -> NoDup (c_held c)) /\
  (forall c d i, In c (p_conns p) -> In d (p_conns p) -> In i (c_held c) -> In i (c_held d) -> c = d).
Proof.
  intros e acts p. pose proof (inv_run e acts) as H. fold p in H.
  split; [apply (iC _ _ H)|]. split; [apply (iN _ _ H)|]. intros. eapply held_one; eauto.
Qed.

(** The stream that addurl gave is ended at most once while the pool lives,
    it is ended as soon as the pool is through with the request, and when the
    pool is destroyed every one has been ended exactly once. *)
Theorem C81_ended_once : forall e acts, let p := run e acts in p_crash p = false ->
  NoDup (p_eofs p) /\
  (forall i, In i (p_eofs p) <-> (i < adds acts)%nat /\ ~ exists q, In q (p_urls p) /\ q_id q = i /\ q_out q = true) /\
  NoDup (p_eofs (destroy e p)) /\ (forall i, In i (p_eofs (destroy e p)) <-> (i < adds acts)%nat).
Proof.
  intros e acts p C. pose proof (inv_run e acts) as H. fold p in H.
  assert (N : p_next p = adds acts) by (unfold p, run in *; rewrite (next_run e acts empty inv_empty C); reflexivity).
  rewrite <- N. split; [apply (iG _ _ H)|]. split; [apply (iG' _ _ H)|]. apply destroyed. exact H.
Qed.

(** After execute every request whose name is known is in the hands of a
    working connection to its server, even if the one before had died. *)
Theorem C81_progress : forall e D acts, steady e D -> let p := run e (acts ++ [Exec]) in p_crash p = false ->
  forall q ip, In q (p_urls p) -> q_out q = true -> q_port q <> 0%nat -> D (q_host q) = Got ip ->
  exists c, In c (p_conns p) /\ c_ok c = true /\ c_to c = ((ip, q_port q), q_user q) /\
    q_in q = Some (c_id c) /\ In (q_id q) (c_held c).
Proof.
  intros e D acts S p C q ip A O P G.
  pose proof (inv_run e (acts ++ [Exec])) as H. fold p in H.
  assert (E : p = step e (run e acts) Exec) by (unfold p, run; rewrite fold_left_app; reflexivity).
  pose proof (inv_run e acts) as H0. pose proof (fit_run D e S acts) as F0.
  assert (C0 : p_crash (run e acts) = false).
  { destruct (p_crash (run e acts)) eqn:X; [|reflexivity]. rewrite E in C. unfold step in C. rewrite X in C. congruence. }
  unfold step in E. rewrite C0 in E.
  destruct (fit_execute D e S (run e acts) H0 F0) as [F1 S1]. rewrite <- E in F1, S1.
  destruct (exec_next e (run e acts) H0) as (_ & I & _). rewrite <- E in I.
  assert (J : In (q_id q) (ids (run e acts))) by (rewrite <- I; apply in_map; exact A).
  destruct (S1 _ J) as [X|X]; [congruence|].
  destruct (X q ip A eq_refl O G P) as (c & X1 & X2 & X3).
  destruct (F1 q ip A G P) as [_ F2]. exists c. split; [exact X1|]. split; [exact X2|]. split; [auto|]. split; [exact X3|].
  destruct (iE _ _ H q _ A X3) as (d & D1 & D2 & D3). assert (d = c) by exact (same_cid H D1 X1 D2). subst d.
  apply D3; auto. discriminate.
Qed.

(** A finished request, and one that cannot be fetched, leaves the pool at
    the next post_select, and there only. *)
Theorem C81_removed : forall e acts, let p := run e acts in p_crash p = false ->
  forall q, In q (p_urls p) ->
  (q_out q = false \/ bad_url q -> ~ In (q_id q) (map q_id (p_urls (step e p Post)))) /\
  (q_out q = true -> ~ bad_url q ->
     (forall c, In c (p_conns p) -> q_in q = Some (c_id c) -> c_ok c = true) ->
     exists q', In q' (p_urls (step e p Post)) /\ q_id q' = q_id q /\ q_out q' = true) /\
  (forall a, a <> Post -> In (q_id q) (map q_id (p_urls (step e p a)))).
Proof.
  intros e acts p C q A. pose proof (inv_run e acts) as H. fold p in H. split; [|split].
  - intros N. unfold step. rewrite C. apply (post_removed e p q H A). rewrite bad_url_ok in N. exact N.
  - intros O B K. unfold step. rewrite C. rewrite bad_url_ok in B. apply not_false_is_true in B.
    destruct (post_stays e p q H A O B K) as (q' & X & Y & Z). exists q'. destruct (about_parts _ _ Y). auto.
  - intros a N. apply (ids_step e p a _ H N). apply in_map. exact A.
Qed.

(** Nothing but the missing case for other protocols can crash the pool. *)
Theorem C81_no_crash_partial : forall e acts,
  Forall (fun a => match a with Add Other _ _ n => n = 0%nat | _ => True end) acts ->
  p_crash (run e acts) = false.
Proof.
  intros e acts F. unfold run. apply plain_run; auto; [apply inv_empty|]. intros q [].
Qed.

Definition here : env := Env (fun _ _ => Got (B "10.0.0.1")) (fun _ _ => []).

(** A URL of a protocol that WvUrl accepts and the pool cannot fetch (sip,
    sips, ldap, ldaps): conns.add(NULL). *)
Theorem C81_crash_refuted : exists e acts, p_crash (run e acts) = true.
Proof. exists here, [Add Other [] (B "h") 60; Exec]. reflexivity. Qed.

(** The first answers "10.0.0.1", the next ones "10.0.0.2". *)
Definition moving : env := Env (fun n _ => if Nat.leb n 1 then Got (B "10.0.0.1") else Got (B "10.0.0.2")) (fun _ _ => []).

(** A connection is opened for a request that another one works on, if the
    resolver says something else meanwhile. *)
Theorem C81_extra_refuted : exists e acts c q, let p := run e acts in
  p_urls p = [q] /\ In c (p_conns p) /\ c_ok c = true /\ c_held c = [] /\ c_to c = target_of q /\
  q_out q = true /\ exists d, In d (p_conns p) /\ c_ok d = true /\ q_in q = Some (c_id d) /\ c_held d = [q_id q] /\ c <> d.
Proof.
  exists moving, [Add Http [] (B "h") 80; Exec; Exec].
  exists (Conn 1 ((B "10.0.0.2", 80%nat), []) true []).
  exists (Req 0 Http [] (B "h") 80 false (Some (B "10.0.0.2", 80%nat)) (Some 0%nat) true false).
  cbn zeta. split; [reflexivity|]. split; [right; left; reflexivity|]. split; [reflexivity|]. split; [reflexivity|].
  split; [reflexivity|]. split; [reflexivity|].
  exists (Conn 0 ((B "10.0.0.1", 80%nat), []) true [0%nat]). split; [left; reflexivity|].
  repeat split. discriminate.
Qed.

(** Three requests, two for one server; a connection dies with one of them
    finished, the other is given to a new connection. *)
Definition story : list act :=
  [Add Http [] (B "h") 80; Add Http [] (B "h") 80; Add Ftp (B "u") (B "h") 21; Pre; Post; Exec;
   Deal (Use 0 0); Deal (Finish 0 0); Deal (Die 0 []); Post; Exec].

Example C81_ex : let p := run here story in
  p_crash p = false /\ steady here (fun _ => Got (B "10.0.0.1")) /\
  map q_id (p_urls p) = [1; 2]%nat /\ map q_in (p_urls p) = [Some 2; Some 1]%nat /\
  map c_id (p_conns p) = [1; 2]%nat /\ map c_held (p_conns p) = [[2]; [1]]%nat /\
  p_eofs p = [0%nat] /\ p_eofs (destroy here p) = [1; 2; 0]%nat /\ adds story = 3%nat /\
  story = removelast story ++ [Exec] /\
  Forall (fun a => match a with Add Other _ _ n => n = 0%nat | _ => True end) story.
Proof.
  cbn zeta. split; [reflexivity|]. split; [intros n h; reflexivity|].
  repeat (split; [reflexivity|]). repeat constructor.
Qed.

Print Assumptions C81_safe.
Print Assumptions C81_one_connection.
Print Assumptions C81_ended_once.
Print Assumptions C81_progress.
Print Assumptions C81_removed.
Print Assumptions C81_no_crash_partial.
Print Assumptions C81_crash_refuted.
Print Assumptions C81_extra_refuted.
