(** Proofs about the D-Bus server *)
From Verif Require Import Base Ctype DecSpec UrlModel IntFmtModel IntFmtProofs DbusServModel DbusServSpec.
Local Open Scope Z_scope.
Local Arguments owner : simpl never.
Local Arguments members : simpl never.
Local Arguments gone : simpl never.
Local Arguments value : simpl never.

Lemma same_eq a b : same a b = true <-> a = b.
Proof.
  destruct a as [a|], b as [b|]; cbn; try (split; [discriminate|discriminate]); [|tauto]. destruct (list_eq_dec ascii_dec a b); split; try congruence; discriminate.
Qed.
Lemma same_neq a b : same a b = false <-> a <> b.
Proof. rewrite <- same_eq. destruct (same a b); split; congruence. Qed.
Lemma same_refl a : same a a = true.
Proof. apply same_eq. reflexivity. Qed.
Lemma unique_is n : 0 <= n < 2 ^ 31 -> unique n = Ok (uname n).
Proof. intros H. unfold unique. rewrite signed_ok by (cbn; lia). reflexivity. Qed.

(** ** The map *)
Definition keys (l : list (option bytes * option Z)) := map fst l.
Lemma find_none n l : find n l = None <-> ~ In n (keys l).
Proof.
  induction l as [|[k v] l IH]; cbn; [tauto|]. destruct (same k n) eqn:E.
  - apply same_eq in E. split; [discriminate|intros H; elim H; auto].
  - apply same_neq in E. rewrite IH. tauto.
Qed.
Lemma erase_keys n l k : In k (keys (erase n l)) <-> In k (keys l) /\ k <> n.
Proof.
  induction l as [|[k' v] l IH]; cbn; [tauto|]. destruct (same k' n) eqn:E.
  - apply same_eq in E. subst k'. rewrite IH. split; [tauto|]. intros [[H|H] N]; [congruence|tauto].
  - apply same_neq in E. cbn. rewrite IH. split; [intros [<-|[H N]]; auto|intros [[H|H] N]; auto].
Qed.
Lemma erase_nodup n l : NoDup (keys l) -> NoDup (keys (erase n l)).
Proof.
  induction l as [|[k v] l IH]; intros H; cbn in *; [exact H|]. inversion H as [|? ? N D]; subst. destruct (same k n); [auto|]. cbn. constructor; [|auto]. rewrite erase_keys. tauto.
Qed.
Lemma value_erase n k l : value k (erase n l) = if same n k then None else value k l.
Proof.
  unfold value. induction l as [|[k' v] l IH]; cbn; [destruct (same n k); reflexivity|]. destruct (same k' n) eqn:E.
  - apply same_eq in E. subst k'. rewrite IH. destruct (same n k); reflexivity.
  - cbn. destruct (same k' k) eqn:Ek; [|exact IH]. apply same_eq in Ek. subst k'. destruct (same n k) eqn:En; [|reflexivity]. apply same_eq in En. apply same_neq in E. congruence.
Qed.
Lemma value_put n c k l : value k (put n c l) = if same n k then c else value k l.
Proof. pose proof (value_erase n k l) as H. unfold value, put in *. cbn. destruct (same n k); [reflexivity|exact H]. Qed.
Lemma value_touch n k l : value k (touch n l) = value k l.
Proof.
  unfold touch. destruct (find n l) eqn:F; [reflexivity|]. unfold value. cbn. destruct (same n k) eqn:E; [|reflexivity]. apply same_eq in E. subst k. rewrite F. reflexivity.
Qed.
Lemma put_nodup n c l : NoDup (keys l) -> NoDup (keys (put n c l)).
Proof. intros H. cbn. constructor; [rewrite erase_keys; tauto|apply erase_nodup; exact H]. Qed.
Lemma touch_nodup n l : NoDup (keys l) -> NoDup (keys (touch n l)).
Proof. intros H. unfold touch. destruct (find n l) eqn:F; [exact H|]. cbn. constructor; [apply find_none; exact F|exact H]. Qed.
Definition not_of (c : Z) (kv : option bytes * option Z) : bool := match snd kv with Some d => negb (d =? c) | None => true end.
Lemma value_filter c k l : NoDup (keys l) -> value k (filter (not_of c) l) = match value k l with Some d => if d =? c then None else Some d | None => None end.
Proof.
  unfold value. induction l as [|[k' v] l IH]; intros H; [reflexivity|]. cbn in H. inversion H as [|? ? N D]; subst. specialize (IH D). cbn [filter]. unfold not_of at 1. cbn [snd find].
  destruct (same k' k) eqn:E.
  - apply same_eq in E. subst k'. destruct v as [d|]; [|cbn [find]; rewrite same_refl; reflexivity]. destruct (d =? c) eqn:Ed; cbn [negb]; [|cbn [find]; rewrite same_refl; reflexivity].
    assert (F : find k l = None) by (apply find_none; exact N). rewrite F in IH. exact IH.
  - assert (Q : find k (if match v with Some d => negb (d =? c) | None => true end then (k', v) :: filter (not_of c) l else filter (not_of c) l) = find k (filter (not_of c) l)) by (destruct v as [d|]; [destruct (d =? c)|]; cbn; rewrite ?E; reflexivity).
    rewrite Q. exact IH.
Qed.
Lemma filter_nodup c l : NoDup (keys l) -> NoDup (keys (filter (not_of c) l)).
Proof.
  induction l as [|[k v] l IH]; intros H; [exact H|]. cbn in H. inversion H as [|? ? N D]; subst. cbn [filter]. destruct (not_of c (k, v)); [|auto]. cbn. constructor; [|auto]. intros I. apply N. unfold keys in *. apply in_map_iff in I. destruct I as (x & E & I). apply filter_In in I. apply in_map_iff. exists x. tauto.
Qed.

(** ** The table is what was seen *)
Record ok (w : world) (s : st) : Prop := {
  o_value : forall n, value n (names s) = owner (past s) n;
  o_keys : NoDup (keys (names s));
  o_conns : conns s = members (past s);
  o_dead : forall c, is_dead s c = gone (past s) c;
  o_count : 0 <= count s < 2 ^ 31;
  o_old : forall c u, In (Joined c u) (past s) -> 0 < c <= count s;
  o_owner : forall n c, owner (past s) n = Some c -> 0 < c <= count s;
  o_memb : forall x, In x (members (past s)) -> 0 < num x <= count s;
  o_expl : explained w (past s) }.
Lemma owner_app l o n : owner (l ++ [o]) n = own1 n (owner l n) o.
Proof. unfold owner. rewrite fold_left_app. reflexivity. Qed.
Lemma members_app l o : members (l ++ [o]) = memb1 (members l) o.
Proof. unfold members. rewrite fold_left_app. reflexivity. Qed.
Lemma gone_app l o c : gone (l ++ [o]) c = gone l c || match o with HungUp d => d =? c | _ => false end.
Proof. unfold gone. rewrite existsb_app. cbn. rewrite orb_false_r. reflexivity. Qed.
(** [s'] is [s] with some messages sent *)
Definition sent (s s' : st) (x : list (Z * msg)) : Prop :=
  count s' = count s /\ conns s' = conns s /\ names s' = names s /\ dead s' = dead s /\
  past s' = past s ++ map (fun p => Out (fst p) (snd p)) (filter (fun p => negb (is_dead s (fst p))) x).
Lemma sent_one s c m : sent s (send s c m) [(c, m)].
Proof.
  unfold sent, send. cbn [filter fst snd map]. destruct (is_dead s c); cbn; rewrite ?app_nil_r; auto 6.
Qed.
Lemma sent_nil s : sent s s [].
Proof. unfold sent. cbn. rewrite app_nil_r. auto 6. Qed.
Lemma sent_app s s1 s2 x y : sent s s1 x -> sent s1 s2 y -> sent s s2 (x ++ y).
Proof.
  intros (A1 & A2 & A3 & A4 & A5) (B1 & B2 & B3 & B4 & B5). unfold sent. rewrite B1, B2, B3, B4, B5, A5. do 4 (split; [assumption|]).
  rewrite filter_app, map_app, app_assoc. f_equal. f_equal. apply filter_ext. intros p. unfold is_dead. rewrite A4. reflexivity.
Qed.
Lemma sent_all m : forall l s, sent s (fold_left (fun s x => send s (num x) m) l s) (map (fun x => (num x, m)) l).
Proof.
  induction l as [|x l IH]; intros s; [apply sent_nil|]. cbn [fold_left map]. change ((num x, m) :: ?r) with ([(num x, m)] ++ r). eapply sent_app; [apply sent_one|apply IH].
Qed.
Lemma owner_outs l x n : owner (l ++ map (fun p => Out (fst p) (snd p)) x) n = owner l n.
Proof. revert l. induction x as [|p x IH]; intros l; cbn [map]; [rewrite app_nil_r; reflexivity|]. change (l ++ ?a :: ?r) with (l ++ [a] ++ r). rewrite app_assoc, IH, owner_app. reflexivity. Qed.
Lemma members_outs l (x : list (Z * msg)) : members (l ++ map (fun p => Out (fst p) (snd p)) x) = members l.
Proof. revert l. induction x as [|p x IH]; intros l; cbn [map]; [rewrite app_nil_r; reflexivity|]. change (l ++ ?a :: ?r) with (l ++ [a] ++ r). rewrite app_assoc, IH, members_app. reflexivity. Qed.
Lemma gone_outs l (x : list (Z * msg)) c : gone (l ++ map (fun p => Out (fst p) (snd p)) x) c = gone l c.
Proof. revert l. induction x as [|p x IH]; intros l; cbn [map]; [rewrite app_nil_r; reflexivity|]. change (l ++ ?a :: ?r) with (l ++ [a] ++ r). rewrite app_assoc, IH, gone_app. apply orb_false_r. Qed.
Lemma joined_outs l (x : list (Z * msg)) c u : In (Joined c u) (l ++ map (fun p => Out (fst p) (snd p)) x) -> In (Joined c u) l.
Proof. rewrite in_app_iff. intros [H|H]; [exact H|]. apply in_map_iff in H. destruct H as (p & E & _). discriminate. Qed.

(** The names after a message *)
Definition named_after (s : st) (c : Z) (m : msg) (s' : st) : Prop :=
  count s' = count s /\ conns s' = conns s /\ dead s' = dead s /\ past s' = past s /\ NoDup (keys (names s')) /\
  forall n, value n (names s') = own1 n (value n (names s)) (Got c m).
Lemma named_same s c m s' : NoDup (keys (names s)) -> count s' = count s -> conns s' = conns s -> dead s' = dead s -> past s' = past s -> NoDup (keys (names s')) -> (forall n, value n (names s') = value n (names s)) ->
  (forall n, asks m (B "RequestName") n = false /\ asks m (B "ReleaseName") n = false) -> named_after s c m s'.
Proof. intros D E1 E2 E3 E4 D' V N. unfold named_after. do 5 (split; [assumption|]). intros n. destruct (N n) as [N1 N2]. unfold own1. rewrite N1, N2. apply V. Qed.
Lemma uid_here s c : conns s = members (past s) -> uid_of s c = claimed (past s) c.
Proof. intros E. unfold uid_of, claimed. rewrite E. reflexivity. Qed.

Definition served (w : world) (s : st) (c : Z) (m : msg) (s' : st) (x : list (Z * msg)) : Prop :=
  exists s1, named_after s c m s1 /\ sent (note s1 (Got c m)) s' x.
Lemma served_ok w s c m s' : ok w s -> here (past s) c = true -> gone (past s) c = false -> 0 < c <= count s -> served w s c m s' (addressed w (past s) c m) -> ok w s'.
Proof.
  intros K Hh Hg Hc (s1 & (E1 & E2 & E3 & E4 & D & V) & (F1 & F2 & F3 & F4 & F5)). cbn in F1, F2, F3, F4. rewrite E1 in F1. rewrite E2 in F2. rewrite E3 in F4.
  assert (X : past s' = (past s ++ [Got c m]) ++ map (fun p => Out (fst p) (snd p)) (filter (fun p => negb (gone (past s) (fst p))) (addressed w (past s) c m))).
  { rewrite F5. cbn. rewrite E4. f_equal. f_equal. apply filter_ext. intros p. rewrite <- (o_dead w s K). unfold is_dead. cbn. rewrite E3. reflexivity. }
  assert (W : forall n, owner (past s') n = own1 n (owner (past s) n) (Got c m)) by (intros n; rewrite X, owner_outs, owner_app; reflexivity).
  assert (M : members (past s') = members (past s)) by (rewrite X, members_outs, members_app; reflexivity).
  constructor.
  - intros n. rewrite F3, V, W, (o_value w s K). reflexivity.
  - rewrite F3. exact D.
  - rewrite F2, M. apply (o_conns w s K).
  - intros d. rewrite X, gone_outs, gone_app, orb_false_r. unfold is_dead. rewrite F4. apply (o_dead w s K).
  - rewrite F1. apply (o_count w s K).
  - intros d u H. rewrite X in H. apply joined_outs in H. apply in_app_iff in H. destruct H as [H|[H|[]]]; [|discriminate]. rewrite F1. eapply (o_old w s K); eauto.
  - intros n d H. rewrite W in H. rewrite F1. cbn [own1] in H. destruct (asks m (B "RequestName") n); [injection H as <-; exact Hc|]. destruct (asks m (B "ReleaseName") n); [discriminate|]. eapply (o_owner w s K); eauto.
  - intros x H. rewrite M in H. rewrite F1. apply (o_memb w s K); exact H.
  - rewrite X, <- app_assoc. apply (ex_got w); [apply (o_expl w s K)|exact Hh|exact Hg].
Qed.
Lemma served_send w s c m s1 d x y : named_after s c m s1 -> x = [(d, y)] -> served w s c m (send (note s1 (Got c m)) d y) x.
Proof. intros N ->. exists s1. split; [exact N|apply sent_one]. Qed.
Lemma touched s c m : NoDup (keys (names s)) -> (forall n, asks m (B "RequestName") n = false /\ asks m (B "ReleaseName") n = false) -> named_after s c m (set_names s (touch (arg m) (names s))).
Proof. intros D N. apply named_same; auto; cbn; [apply touch_nodup; exact D|intros n; apply value_touch]. Qed.
Lemma unchanged s c m : NoDup (keys (names s)) -> (forall n, asks m (B "RequestName") n = false /\ asks m (B "ReleaseName") n = false) -> named_after s c m s.
Proof. intros D N. apply named_same; auto. Qed.

Lemma serve w s c m : ok w s -> here (past s) c = true -> gone (past s) c = false -> (forall n, asks m (B "ReleaseName") n = true -> owner (past s) n = Some c) ->
  exists s', filter_func w (note s (Got c m)) c m = Ok s' /\ served w s c m s' (addressed w (past s) c m).
Proof.
  intros K Hh Hg P. pose proof (o_keys w s K) as D. assert (Hc : 0 < c <= count s).
  { unfold here in Hh. apply existsb_exists in Hh. destruct Hh as (x & Hx & E). apply Z.eqb_eq in E. subst c. apply (o_memb w s K). exact Hx. }
  pose proof (o_count w s K) as Hn. assert (U : forall d, 0 < d <= count s -> unique d = Ok (uname d)) by (intros d Hd; apply unique_is; lia).
  assert (UO : forall n d, owner (past s) n = Some d -> unique d = Ok (uname d)) by (intros n d E; apply U; eapply (o_owner w s K); eauto).
  assert (UI : forall d, uid_of (note s (Got c m)) d = claimed (past s) d).
  { intros d. unfold uid_of, claimed. cbn. rewrite (o_conns w s K). reflexivity. }
  unfold filter_func, do_server_msg, addressed. cbn [names note]. rewrite (o_value w s K). fold (idle m).
  destruct (idle m) eqn:Ei.
  { unfold idle in Ei. apply andb_prop in Ei. destruct Ei as [_ Em]. apply same_eq in Em. cbn [bind]. eexists. split; [reflexivity|]. exists s. split; [|apply sent_nil]. apply unchanged; [exact D|]. intros n. unfold asks. rewrite Em. cbn. rewrite ?andb_false_r. auto. }
  destruct (is (dest m) bus) eqn:Ed; cbn [negb].
  2: { assert (N : forall n, asks m (B "RequestName") n = false /\ asks m (B "ReleaseName") n = false) by (intros n; unfold asks; rewrite Ed; auto).
       cbn [bind]. unfold do_bridge_msg, do_broadcast_msg. destruct (blank (dest m)) eqn:Eb; cbn [bind].
       - rewrite Eb. eexists. split; [reflexivity|]. exists s. split; [apply unchanged; auto|]. cbn [conns note]. rewrite <- (o_conns w s K). apply sent_all.
       - rewrite U by exact Hc. cbn [bind]. change (dest (set_sender m (uname c))) with (dest m). cbn [names note]. rewrite (o_value w s K). destruct (owner (past s) (dest m)) as [d|] eqn:Eo; cbn [bind].
         + eexists. split; [reflexivity|]. apply served_send; [apply unchanged; auto|reflexivity].
         + change (dest (set_sender m (uname c))) with (dest m). rewrite Eb. eexists. split; [reflexivity|]. unfold do_gaveup_msg. apply served_send; [apply unchanged; auto|reflexivity]. }
  unfold bus_answer.
  Local Ltac known Em D := let n := fresh "n" in intros n; unfold asks; rewrite Em; cbn [is same]; split; [|]; destruct (is _ _); reflexivity.
  destruct (is (member m) (B "Hello")) eqn:E1.
  { apply same_eq in E1. rewrite U by exact Hc. cbn [bind]. eexists. split; [reflexivity|]. apply served_send; [apply unchanged; [exact D|]|reflexivity]. intros n. unfold asks. rewrite E1. cbn. rewrite ?andb_false_r. auto. }
  destruct (is (member m) (B "RequestName")) eqn:E2.
  { cbn [bind]. eexists. split; [reflexivity|]. apply (served_send w s c m (register_name s (arg m) c)); [|reflexivity]. unfold named_after. do 4 (split; [reflexivity|]). split; [apply (put_nodup (arg m) (Some c)); exact D|].
    intros n. cbn [names register_name set_names own1]. rewrite value_put. unfold asks. rewrite Ed, E2. cbn [andb]. destruct (same (arg m) n) eqn:En; [reflexivity|]. rewrite ?andb_false_r. reflexivity. }
  destruct (is (member m) (B "ReleaseName")) eqn:E3.
  { unfold unregister_name. cbn [names note]. rewrite (o_value w s K). assert (A : asks m (B "ReleaseName") (arg m) = true) by (unfold asks; rewrite Ed, E3, same_refl; reflexivity). rewrite (P _ A). rewrite Z.eqb_refl. cbn [bind].
    eexists. split; [reflexivity|]. apply (served_send w s c m (set_names s (erase (arg m) (names s)))); [|reflexivity]. unfold named_after. do 4 (split; [reflexivity|]). split; [apply erase_nodup; exact D|].
    intros n. cbn [names set_names own1]. rewrite value_erase. unfold asks. rewrite Ed, E2, E3. cbn [andb]. reflexivity. }
  assert (N : forall n, asks m (B "RequestName") n = false /\ asks m (B "ReleaseName") n = false) by (intros n; unfold asks; rewrite E2, E3, ?andb_false_r; auto).
  assert (TT : named_after s c m (set_names s (touch (arg m) (names s)))) by (apply touched; auto).
  assert (SS : named_after s c m s) by (apply unchanged; auto).
  assert (FT : forall y x, x = [(c, reply m y)] -> exists s', (let! r := Ok (Some (send (set_names (note s (Got c m)) (touch (arg m) (names s))) c (reply m y))) in match r with Some s => Ok s | None => Fault end) = Ok s' /\ served w s c m s' x).
  { intros y x Ex. eexists. split; [reflexivity|]. apply (served_send w s c m (set_names s (touch (arg m) (names s)))); auto. }
  destruct (is (member m) (B "NameHasOwner")).
  { cbn [bind]. eexists. split; [reflexivity|]. apply (served_send w s c m _ c _ _ TT). reflexivity. }
  destruct (is (member m) (B "GetNameOwner")).
  { destruct (owner (past s) (arg m)) as [d|] eqn:Eo; [rewrite (UO _ _ Eo)|]; cbn [bind]; (eexists; split; [reflexivity|]; apply (served_send w s c m _ c _ _ TT); reflexivity). }
  destruct (is (member m) (B "AddMatch") || is (member m) (B "StartServiceByName")).
  { cbn [bind]. eexists. split; [reflexivity|]. apply (served_send w s c m _ c _ _ SS). reflexivity. }
  destruct (is (member m) (B "GetConnectionUnixUser")).
  { destruct (owner (past s) (arg m)) as [d|] eqn:Eo; [rewrite UI; destruct (claimed (past s) d)|]; cbn [bind]; (eexists; split; [reflexivity|]; apply (served_send w s c m _ c _ _ TT); reflexivity). }
  destruct (is (member m) (B "GetConnectionUnixUserName")).
  { destruct (owner (past s) (arg m)) as [d|] eqn:Eo; [rewrite UI; destruct (claimed (past s) d) as [u|]; [destruct (blank (user w u))|]|]; cbn [bind]; (eexists; split; [reflexivity|]; apply (served_send w s c m _ c _ _ TT); reflexivity). }
  destruct (is (member m) (B "GetConnectionCert")) eqn:E4; cbn [orb].
  { apply same_eq in E4. rewrite E4. destruct (owner (past s) (arg m)) as [d|] eqn:Eo; [destruct (cert w d)|]; cbn [bind]; (eexists; split; [reflexivity|]; apply (served_send w s c m _ c _ _ TT); reflexivity). }
  destruct (is (member m) (B "GetConnectionCertFingerprint")).
  { destruct (owner (past s) (arg m)) as [d|] eqn:Eo; [destruct (cert w d)|]; cbn [bind]; (eexists; split; [reflexivity|]; apply (served_send w s c m _ c _ _ TT); reflexivity). }
  cbn [bind]. eexists. split; [reflexivity|]. apply (served_send w s c m _ c _ _ SS). reflexivity.
Qed.

Lemma here_conn w s c : ok w s -> is_conn s c = here (past s) c.
Proof. intros K. unfold is_conn, here. rewrite (o_conns w s K). reflexivity. Qed.
Lemma here_count w s c : ok w s -> here (past s) c = true -> 0 < c <= count s.
Proof. intros K H. unfold here in H. apply existsb_exists in H. destruct H as (x & Hx & E). apply Z.eqb_eq in E. subst c. apply (o_memb w s K). exact Hx. Qed.

Lemma step_ok w s e : ok w s ->
  match e with Recv c m => forall n, asks m (B "ReleaseName") n = true -> owner (past s) n = Some c | Connect _ | Other => count s + 1 < 2 ^ 31 | _ => True end ->
  exists s', step w s e = Ok s' /\ ok w s' /\ count s' = count s + match e with Connect _ | Other => 1 | _ => 0 end.
Proof.
  intros K C. pose proof (o_count w s K) as Hn. destruct e as [u| |c m|c|c]; cbn [step].
  - unfold new_connection. rewrite (proj2 (Z.ltb_lt _ _) C). rewrite unique_is by lia. cbn [bind]. eexists. split; [reflexivity|]. split; [|reflexivity].
    assert (Fr : forall v, ~ In (Joined (count s + 1) v) (past s)) by (intros v H; apply (o_old w s K) in H; lia).
    constructor; cbn.
    + intros n. change ((Some (uname (count s + 1)), Some (count s + 1)) :: erase (Some (uname (count s + 1))) (names s)) with (put (Some (uname (count s + 1))) (Some (count s + 1)) (names s)). rewrite value_put, owner_app, (o_value w s K). reflexivity.
    + apply (put_nodup (Some (uname (count s + 1))) (Some (count s + 1))). apply (o_keys w s K).
    + rewrite members_app, (o_conns w s K). reflexivity.
    + intros c. rewrite gone_app, orb_false_r. apply (o_dead w s K).
    + lia.
    + intros c v H. apply in_app_iff in H. destruct H as [H|[H|[]]]; [apply (o_old w s K) in H; lia|injection H as <- _; lia].
    + intros n c H. rewrite owner_app in H. cbn [own1] in H. destruct (same (Some (uname (count s + 1))) n); [injection H as <-; lia|]. apply (o_owner w s K) in H. lia.
    + intros x H. rewrite members_app in H. cbn in H. apply in_app_iff in H. destruct H as [H|[<-|[]]]; [apply (o_memb w s K) in H; lia|cbn; lia].
    + apply ex_joined; [apply (o_expl w s K)|lia|exact Fr].
  - rewrite (proj2 (Z.ltb_lt _ _) C). eexists. split; [reflexivity|]. split; [|reflexivity]. destruct K. constructor; cbn; auto; try lia.
  - rewrite (here_conn w s c K), (o_dead w s K). destruct (here (past s) c) eqn:Eh, (gone (past s) c) eqn:Eg; cbn [andb negb]; try (eexists; split; [reflexivity|]; split; [exact K|lia]).
    destruct (serve w s c m K Eh Eg C) as (s' & E & S). exists s'. split; [exact E|]. split; [eapply served_ok; eauto; eapply here_count; eauto|]. destruct S as (s1 & (E1 & _) & (E2 & _)). cbn in E2. lia.
  - rewrite (here_conn w s c K), (o_dead w s K). destruct (here (past s) c) eqn:Eh, (gone (past s) c) eqn:Eg; cbn [andb negb]; try (eexists; split; [reflexivity|]; split; [exact K|lia]).
    eexists. split; [reflexivity|]. split; [|cbn; lia]. constructor; cbn.
    + intros n. rewrite owner_app. apply (o_value w s K).
    + apply (o_keys w s K).
    + rewrite members_app. apply (o_conns w s K).
    + intros d. rewrite gone_app. unfold is_dead. cbn. rewrite orb_comm, (Z.eqb_sym d c). f_equal. apply (o_dead w s K).
    + exact Hn.
    + intros d v H. apply in_app_iff in H. destruct H as [H|[H|[]]]; [eapply (o_old w s K); eauto|discriminate].
    + intros n d H. rewrite owner_app in H. eapply (o_owner w s K); eauto.
    + intros x H. rewrite members_app in H. apply (o_memb w s K); exact H.
    + apply ex_hung; [apply (o_expl w s K)|exact Eh|exact Eg].
  - rewrite (here_conn w s c K), (o_dead w s K). destruct (here (past s) c) eqn:Eh, (gone (past s) c) eqn:Eg; cbn [andb negb]; try (eexists; split; [reflexivity|]; split; [exact K|lia]).
    eexists. split; [reflexivity|]. split; [|cbn; lia]. constructor; cbn.
    + intros n. rewrite owner_app. fold (not_of c). change (filter (fun kv => match snd kv with Some d => negb (d =? c) | None => true end) (names s)) with (filter (not_of c) (names s)). rewrite value_filter by apply (o_keys w s K). rewrite (o_value w s K). reflexivity.
    + apply (filter_nodup c). apply (o_keys w s K).
    + rewrite members_app. cbn. rewrite (o_conns w s K). reflexivity.
    + intros d. rewrite gone_app, orb_false_r. apply (o_dead w s K).
    + exact Hn.
    + intros d v H. apply in_app_iff in H. destruct H as [H|[H|[]]]; [eapply (o_old w s K); eauto|discriminate].
    + intros n d H. rewrite owner_app in H. cbn in H. destruct (owner (past s) n) as [e|] eqn:Eo; [|discriminate]. destruct (e =? c); [discriminate|]. injection H as <-. eapply (o_owner w s K); eauto.
    + intros x H. rewrite members_app in H. cbn in H. apply filter_In in H. apply (o_memb w s K). apply H.
    + apply ex_left; [apply (o_expl w s K)|exact Eh|exact Eg].
Qed.
Lemma init_ok w : ok w init.
Proof.
  constructor; cbn; auto; try (intros; contradiction); try lia; try constructor. all: intros; discriminate.
Qed.
Lemma run_ok w : forall l s, ok w s -> polite w s l -> count s + connections l < 2 ^ 31 -> exists s', run w s l = Ok s' /\ ok w s'.
Proof.
  induction l as [|e l IH]; intros s K P C; [exists s; auto|]. cbn [polite] in P. destruct P as [P1 P2]. cbn [run].
  assert (Cn : connections (e :: l) = match e with Connect _ | Other => 1 | _ => 0 end + connections l) by (unfold connections; destruct e; cbn [filter length]; lia).
  assert (N0 : 0 <= connections l) by (unfold connections; lia). rewrite Cn in C. clear Cn.
  destruct (step_ok w s e K) as (s' & E & K' & Ec); [destruct e; auto; lia|]. rewrite E in *. cbn [bind]. apply IH; auto. lia.
Qed.
