(** The D-Bus server routes messages by name *)
From Verif Require Import Base Ctype DecSpec UrlModel IntFmtModel IntFmtProofs DbusServModel DbusServSpec DbusServProofs.
Local Open Scope Z_scope.
Local Arguments owner : simpl never.
Local Arguments members : simpl never.
Local Arguments gone : simpl never.

(** As long as names are released only by their owners, the server goes on, and each message is
    followed by exactly what is to be sent for it, given who owns its destination *)
Theorem C77_served (w : world) (l : list event) : polite w init l -> connections l < 2 ^ 31 -> exists s, run w init l = Ok s /\ explained w (past s).
Proof.
  intros P C. destruct (run_ok w l init (init_ok w) P) as (s & E & K); [cbn; lia|]. exists s. split; [exact E|apply (o_expl w s K)].
Qed.
Print Assumptions C77_served.

(** The names of connections are ":n.0", and different *)
Theorem C77_unique (n : Z) : 0 < n < 2 ^ 31 -> (exists d, is_signed_decimal n d /\ uname n = B ":" ++ d ++ B ".0") /\ unique n = Ok (uname n) /\
  forall k, 0 < k < 2 ^ 31 -> uname k = uname n -> k = n.
Proof.
  intros H. split; [exists (sdec n); split; [apply sdec_is; unfold big; lia|reflexivity]|]. split; [apply unique_is; lia|].
  intros k Hk E. unfold uname in E. apply app_inv_head in E.
  assert (A : forall i, 0 < i < 2 ^ 31 -> atoi (sdec i ++ B ".0") = Ok i) by (intros i Hi; apply atoi_signed; [unfold int_min, int_max; lia|reflexivity]).
  pose proof (A n H) as An. rewrite <- E, (A k Hk) in An. congruence.
Qed.
Print Assumptions C77_unique.

Lemma got_split w l : explained w l -> forall l1 e m l2, l = l1 ++ Out e m :: l2 -> exists l0 c m0 outs, l1 = l0 ++ Got c m0 :: outs /\ (forall o, In o outs -> exists d x, o = Out d x) /\ In (e, m) (addressed w l0 c m0) /\ gone l0 e = false /\ explained w l0 /\ here l0 c = true.
Proof.
  assert (One : forall (l : list obs) o l1 e m l2, (forall d x, o <> Out d x) -> l ++ [o] = l1 ++ Out e m :: l2 -> exists l3, l = l1 ++ Out e m :: l3).
  { clear. intros l o l1 e m l2 N E. destruct l2 as [|y l2 _] using rev_ind.
    - change (l ++ [o] = l1 ++ [Out e m]) in E. apply app_inj_tail in E. destruct E as [_ E]. elim (N e m E).
    - exists l2. change (l1 ++ Out e m :: l2 ++ [y]) with (l1 ++ (Out e m :: l2) ++ [y]) in E. rewrite app_assoc in E. apply app_inj_tail in E. apply E. }
  intros X. induction X as [|l c u X IH B N|l c m0 X IH Hh Hg|l c X IH Hh Hg|l c X IH Hh Hg]; intros l1 e m l2 E.
  - destruct l1; discriminate.
  - destruct (One l (Joined c u) l1 e m l2 ltac:(intros; discriminate) E) as (l3 & E3). eapply IH; eauto.
  - assert (Q : (exists l3, l = l1 ++ Out e m :: l3) \/ exists o1 o2, l1 = l ++ Got c m0 :: o1 /\ out l (addressed w l c m0) = o1 ++ Out e m :: o2).
    { clear - E. revert l1 E. induction l as [|a l IH]; intros l1 E.
      - destruct l1 as [|b l1]; [discriminate|]. cbn in E. injection E as <- E. right. exists l1, l2. split; [reflexivity|exact E].
      - destruct l1 as [|b l1]; [injection E as -> E; left; exists l; reflexivity|]. cbn in E. injection E as -> E.
        assert (G : l ++ Got c m0 :: out (b :: l) (addressed w (b :: l) c m0) = l1 ++ Out e m :: l2) by exact E. clear E IH.
        generalize dependent (out (b :: l) (addressed w (b :: l) c m0)). intros os E. revert l1 E. induction l as [|a l IH]; intros l1 E.
        + destruct l1 as [|a l1]; [discriminate|]. cbn in E. injection E as <- E. right. exists l1, l2. split; [reflexivity|exact E].
        + destruct l1 as [|d l1]; [injection E as -> E; left; exists l; reflexivity|]. cbn in E. injection E as -> E. destruct (IH l1 E) as [(l3 & E3)|(o1 & o2 & E3 & E4)]; [left; exists l3; cbn; injection E3 as E3; rewrite E3; reflexivity|]. right. exists o1, o2. cbn in *. injection E3 as E3. rewrite E3. auto. }
    destruct Q as [(l3 & E3)|(o1 & o2 & E3 & E4)]; [eapply IH; eauto|]. exists l, c, m0, o1. split; [exact E3|].
    assert (I : forall o, In o (out l (addressed w l c m0)) -> exists d x, o = Out d x /\ In (d, x) (addressed w l c m0) /\ gone l d = false).
    { intros o H. unfold out in H. apply in_map_iff in H. destruct H as ([d x] & Eo & H). apply filter_In in H. destruct H as [H1 H2]. exists d, x. split; [auto|]. split; [exact H1|]. cbn in H2. destruct (gone l d); [discriminate|reflexivity]. }
    split; [intros o H; destruct (I o) as (d & x & Eo & _); [rewrite E4; apply in_app_iff; auto|eauto]|].
    destruct (I (Out e m)) as (d & x & Eo & H1 & H2); [rewrite E4; apply in_app_iff; right; left; reflexivity|]. injection Eo as <- <-. auto.
  - destruct (One l (HungUp c) l1 e m l2 ltac:(intros; discriminate) E) as (l3 & E3). eapply IH; eauto.
  - destruct (One l (Left c) l1 e m l2 ltac:(intros; discriminate) E) as (l3 & E3). eapply IH; eauto.
Qed.
(** Nobody gets a message other than an answer to one of its own, a message to everybody, or one
    for a name that it owns, with the true sender *)
Theorem C77_private (w : world) (l : list event) (s : st) : polite w init l -> connections l < 2 ^ 31 -> run w init l = Ok s ->
  forall l1 e m l2, past s = l1 ++ Out e m :: l2 ->
  exists l0 c m0 outs, l1 = l0 ++ Got c m0 :: outs /\ (forall o, In o outs -> exists d x, o = Out d x) /\ gone l0 e = false /\
    (e = c /\ answers m = serial m0 \/ blank (dest m0) = true /\ m = m0 /\ here l0 e = true \/ owner l0 (dest m0) = Some e /\ m = set_sender m0 (uname c)).
Proof.
  intros P C E l1 e m l2 Ep. destruct (C77_served w l P C) as (s' & E' & X). assert (s' = s) by congruence. subst s'.
  destruct (got_split w _ X l1 e m l2 Ep) as (l0 & c & m0 & outs & -> & Ho & Hi & Hg & _). exists l0, c, m0, outs. split; [reflexivity|]. split; [exact Ho|]. split; [exact Hg|].
  unfold addressed in Hi. destruct (idle m0); [contradiction|]. destruct (is (dest m0) bus); [destruct Hi as [Hi|[]]; injection Hi as <- <-; left; auto|].
  destruct (blank (dest m0)).
  - apply in_map_iff in Hi. destruct Hi as (x & Ex & Hx). injection Ex as <- <-. right. left. split; [reflexivity|]. split; [reflexivity|]. unfold here. apply existsb_exists. exists x. rewrite Z.eqb_refl. auto.
  - destruct (owner l0 (dest m0)) as [d|]; destruct Hi as [Hi|[]]; injection Hi as <- <-; [right; right; auto|left; auto].
Qed.
Print Assumptions C77_private.

Lemma joined_here w l c : explained w l -> (here l c = true -> exists u, In (Joined c u) l) /\ (forall u, In (Joined c u) l -> 0 < c < 2 ^ 31).
Proof.
  assert (H1 : forall l o, here (l ++ [o]) c = true -> here l c = true \/ exists u, o = Joined c u).
  { intros l0 o H. unfold here in *. rewrite members_app in H. destruct o; cbn in H; auto.
    - rewrite existsb_app in H. apply orb_prop in H. destruct H as [H|H]; [auto|]. cbn in H. rewrite orb_false_r in H. apply Z.eqb_eq in H. subst. right. eauto.
    - left. apply existsb_exists in H. destruct H as (x & Hx & E). apply filter_In in Hx. apply existsb_exists. exists x. tauto. }
  intros X. induction X as [|l d u X [IH1 IH2] B N|l d m0 X [IH1 IH2] Hh Hg|l d X [IH1 IH2] Hh Hg|l d X [IH1 IH2] Hh Hg].
  - split; [discriminate|intros u []].
  - split; [intros H; apply H1 in H; destruct H as [H|(v & H)]; [destruct (IH1 H) as (v & Hv); exists v; apply in_app_iff; auto|exists v; apply in_app_iff; right; left; exact H]|].
    intros v H. apply in_app_iff in H. destruct H as [H|[H|[]]]; [eauto|injection H as <- _; exact B].
  - assert (M : here (l ++ Got d m0 :: out l (addressed w l d m0)) c = here l c).
    { unfold here, out. change (?a ++ ?b :: ?r) with (a ++ [b] ++ r). rewrite app_assoc, members_outs, members_app. reflexivity. }
    rewrite M. split; [intros H; destruct (IH1 H) as (v & Hv); exists v; apply in_app_iff; auto|]. intros v H. apply in_app_iff in H. destruct H as [H|[H|H]]; [eauto|discriminate|]. unfold out in H. apply in_map_iff in H. destruct H as (p & Ep & _). discriminate.
  - split; [intros H; apply H1 in H; destruct H as [H|(v & H)]; [destruct (IH1 H) as (v & Hv); exists v; apply in_app_iff; auto|discriminate]|].
    intros v H. apply in_app_iff in H. destruct H as [H|[H|[]]]; [eauto|discriminate].
  - split; [intros H; apply H1 in H; destruct H as [H|(v & H)]; [destruct (IH1 H) as (v & Hv); exists v; apply in_app_iff; auto|discriminate]|].
    intros v H. apply in_app_iff in H. destruct H as [H|[H|[]]]; [eauto|discriminate].
Qed.
Lemma keeps_name w l c : explained w l -> here l c = true -> (forall d m, In (Got d m) l -> asks m (B "RequestName") (Some (uname c)) = false /\ asks m (B "ReleaseName") (Some (uname c)) = false) -> owner l (Some (uname c)) = Some c.
Proof.
  intros X. induction X as [|l d u X IH B N|l d m0 X IH Hh Hg|l d X IH Hh Hg|l d X IH Hh Hg]; intros H T.
  - discriminate.
  - rewrite owner_app. cbn [own1]. destruct (same (Some (uname d)) (Some (uname c))) eqn:Es.
    + apply same_eq in Es. assert (Eu : uname d = uname c) by congruence. clear Es. assert (Bc : 0 < c < 2 ^ 31) by (destruct (joined_here w _ c (ex_joined w l d u X B N)) as [Q1 Q2]; destruct (Q1 H) as (v & Hv); eapply Q2; eauto). f_equal. exact (proj2 (proj2 (C77_unique c Bc)) d B Eu).
    + apply IH; [|intros e m Hi; apply (T e); apply in_app_iff; auto]. unfold here in *. rewrite members_app in H. cbn [memb1] in H. rewrite existsb_app in H. apply orb_prop in H. destruct H as [H|H]; [exact H|]. cbn in H. rewrite orb_false_r in H. apply Z.eqb_eq in H. subst d. rewrite same_refl in Es. discriminate.
  - unfold out in *. change (?a ++ ?b :: ?r) with (a ++ [b] ++ r) in *. rewrite app_assoc in *. rewrite owner_outs, owner_app. unfold here in H. rewrite members_outs, members_app in H. cbn [own1].
    destruct (T d m0) as [T1 T2]; [rewrite !in_app_iff; left; right; left; reflexivity|]. rewrite T1, T2. apply IH; [exact H|]. intros e m Hi. apply (T e). rewrite !in_app_iff. auto.
  - rewrite owner_app. unfold here in H. rewrite members_app in H. apply IH; [exact H|]. intros e m Hi. apply (T e). apply in_app_iff. auto.
  - rewrite owner_app. unfold here in H. rewrite members_app in H. cbn [memb1] in H. apply existsb_exists in H. destruct H as (x & Hx & Ex). apply filter_In in Hx. destruct Hx as [Hx Hd]. apply Z.eqb_eq in Ex. subst c. cbn [own1]. rewrite IH.
    + destruct (num x =? d); [discriminate|reflexivity].
    + unfold here. apply existsb_exists. exists x. rewrite Z.eqb_refl. auto.
    + intros e m Hi. apply (T e). apply in_app_iff. auto.
Qed.
(** An answer to the sender that a message names reaches the connection the message came from,
    with the true sender, as long as nobody asks for the name of that connection *)
Theorem C77_reply (w : world) (l : list event) (s : st) (c : Z) : polite w init l -> connections l < 2 ^ 31 -> run w init l = Ok s ->
  here (past s) c = true -> gone (past s) c = false ->
  (forall d m, In (Got d m) (past s) -> asks m (B "RequestName") (Some (uname c)) = false /\ asks m (B "ReleaseName") (Some (uname c)) = false) ->
  forall d r, dest r = Some (uname c) -> idle r = false -> here (past s) d = true -> gone (past s) d = false ->
  exists s', step w s (Recv d r) = Ok s' /\ past s' = past s ++ [Got d r; Out c (set_sender r (uname d))].
Proof.
  intros P C E Hc Gc T d r Ed Ei Hd Gd. destruct (run_ok w l init (init_ok w) P) as (s0 & E0 & K); [cbn; lia|]. assert (s0 = s) by congruence. subst s0.
  pose proof (keeps_name w (past s) c (o_expl w s K) Hc T) as W.
  cbn [step]. rewrite (here_conn w s d K), (o_dead w s K), Hd, Gd. cbn [andb negb].
  assert (Nb : is (dest r) bus = false). { rewrite Ed. apply same_neq. unfold uname, bus. cbn. congruence. }
  destruct (serve w s d r K Hd Gd) as (s' & E' & (s1 & (A1 & A2 & A3 & A4 & _) & (_ & _ & _ & _ & F))); [intros n A; unfold asks in A; rewrite Nb in A; discriminate|].
  exists s'. split; [exact E'|]. rewrite F. cbn [past note]. rewrite A4. unfold addressed. rewrite Ei, Nb. rewrite Ed at 1. cbn [blank uname app B list_ascii_of_string]. rewrite Ed, W. cbn [filter fst snd map]. unfold is_dead. cbn [dead note]. rewrite A3. fold (is_dead s c). rewrite (o_dead w s K), Gc. cbn. rewrite <- app_assoc. reflexivity.
Qed.
Print Assumptions C77_reply.

(** *** What goes wrong *)
Definition plain : world := World (fun _ => None) (fun _ => None) (fun x => x).
Definition to (d : bytes) (method : bytes) (n : Z) (a : option bytes) : msg := Msg None (Some d) (Some (B "/")) (Some method) n 0 a (Own []).
Definition to_bus (method : bytes) (n : Z) (a : option bytes) : msg := to bus method n a.
(** Any client ends the server, by releasing a name that it does not own: one of another, or none *)
Theorem C77_release_refuted :
  run plain init [Connect None; Connect None; Recv 1 (to_bus (B "RequestName") 1 (Some (B "com.shop"))); Recv 2 (to_bus (B "ReleaseName") 1 (Some (B "com.shop")))] = Fault /\
  (forall w s c m, is_conn s c = true -> is_dead s c = false -> dest m = Some bus -> member m = Some (B "ReleaseName") -> value (arg m) (names s) <> Some c -> step w s (Recv c m) = Fault).
Proof.
  split; [vm_compute; reflexivity|]. intros w s c m H1 H2 Ed Em V. cbn [step]. rewrite H1, H2. cbn [andb negb]. unfold filter_func, do_server_msg. rewrite Ed, Em.
  replace (is (path m) _ && is (Some (B "ReleaseName")) (B "Disconnected")) with false by (rewrite andb_false_r; reflexivity).
  change (is (Some bus) bus) with true. change (is (Some (B "ReleaseName")) (B "Hello")) with false. change (is (Some (B "ReleaseName")) (B "RequestName")) with false. change (is (Some (B "ReleaseName")) (B "ReleaseName")) with true. cbn [negb]. unfold unregister_name. cbn [names note].
  destruct (value (arg m) (names s)) as [d|]; [|reflexivity]. destruct (Z.eqb_spec d c) as [->|]; [elim V; reflexivity|reflexivity].
Qed.
Print Assumptions C77_release_refuted.
(** A client takes the name of another's connection, and gets the answers meant for that *)
Theorem C77_unique_refuted : exists s, run plain init [Connect None; Connect None; Connect None; Recv 3 (to_bus (B "RequestName") 1 (Some (B ":1.0")));
    Recv 1 (to (B ":2.0") (B "Ask") 7 None); Recv 2 (Msg None (Some (B ":1.0")) None None 8 7 None (Own (B "secret")))] = Ok s /\
  In (Out 3 (Msg (Some (B ":2.0")) (Some (B ":1.0")) None None 8 7 None (Own (B "secret")))) (past s) /\ forall m, In (Out 1 m) (past s) -> False.
Proof.
  eexists. split; [vm_compute; reflexivity|]. split; [cbn; tauto|]. cbn. intros m H. repeat (destruct H as [H|H]; [discriminate|]). exact H.
Qed.
Print Assumptions C77_unique_refuted.
(** A message to everybody goes out with the sender that the client wrote into it *)
Theorem C77_sender_refuted : exists s, run plain init [Connect None; Connect None; Recv 2 (Msg (Some (B ":1.0")) None (Some (B "/")) (Some (B "Stop")) 1 0 None (Own []))] = Ok s /\
  In (Out 1 (Msg (Some (B ":1.0")) None (Some (B "/")) (Some (B "Stop")) 1 0 None (Own []))) (past s).
Proof. eexists. split; [vm_compute; reflexivity|]. cbn. tauto. Qed.
Print Assumptions C77_sender_refuted.
(** A message to a connection that has closed is lost, without an error to its sender, until the
    delayed callback runs *)
Theorem C77_lost_refuted : exists s, run plain init [Connect None; Connect None; Hangup 1; Recv 2 (to (B ":1.0") (B "Ask") 1 None)] = Ok s /\
  past s = [Joined 1 None; Joined 2 None; HungUp 1; Got 2 (to (B ":1.0") (B "Ask") 1 None)].
Proof. eexists. split; vm_compute; reflexivity. Qed.
Print Assumptions C77_lost_refuted.

(** *** Examples *)
(** Two services, a client that asks one of them, gets its answer, asks who is there, sends to
    everybody; the service leaves, and the client is told *)
Definition story : list event :=
  [Connect (Some 1000); Other; Connect None; Recv 1 (to_bus (B "RequestName") 1 (Some (B "com.shop"))); Recv 3 (to (B "com.shop") (B "Buy") 5 (Some (B "tea")));
   Recv 1 (Msg None (Some (B ":3.0")) None None 2 5 None (Own (B "ok"))); Recv 3 (to_bus (B "GetNameOwner") 6 (Some (B "com.shop")));
   Recv 3 (Msg None None (Some (B "/")) (Some (B "Bye")) 7 0 None (Own [])); Recv 1 (to_bus (B "ReleaseName") 3 (Some (B "com.shop"))); Recv 1 (to_bus (B "RequestName") 4 (Some (B "com.shop")));
   Hangup 1; Delayed 1; Recv 3 (to (B "com.shop") (B "Buy") 8 None)].
Example C77_served_ex : polite plain init story /\ connections story = 3 /\ exists s, run plain init story = Ok s /\ last (past s) (Left 0) = Out 3 (reply (set_sender (to (B "com.shop") (B "Buy") 8 None) (B ":3.0")) (Failure no_owner)) /\ length (past s) = 21%nat /\ owner (past s) (Some (B "com.shop")) = None /\ here (past s) 3 = true.
Proof.
  split; [|split; [reflexivity|eexists; split; [vm_compute; reflexivity|split; [vm_compute; reflexivity|split; [reflexivity|split; vm_compute; reflexivity]]]]].
  unfold story. repeat (cbn [polite]; match goal with |- _ /\ match ?x with _ => _ end => split; [|let y := eval vm_compute in x in change x with y; cbv iota] | |- True => exact I end); try exact I.
  all: intros n A; unfold asks in A; try (cbn in A; discriminate). all: apply andb_prop in A; destruct A as [A1 A2]; try (vm_compute in A1; discriminate); apply same_eq in A2; subst n; vm_compute; reflexivity.
Qed.
