(** C54: watches are told of exactly the changes they cover. *)
From Coq Require Import Permutation.
From Verif Require Import Base BaseFacts Ctype KeyModel KeySpec KeyProofs TempModel TempSpec TreeProofs TempProofs WatchModel WatchSpec WatchProofs WatchProofs2.
Local Open Scope nat_scope.

Definition canonical_ops (os : list wop) : Prop := Forall (fun o => canonical (op_key o)) os.

(** A change at a key calls, once each and in order, the callbacks of the watches
    that cover it, whatever watches were added and removed before and in whatever
    order the hash tables enumerate. *)
Theorem C54_change os t k v : whistory wempty os t -> canonical_ops os -> Forall plain k -> short k ->
  gen_callback t k (Some v) = told_above (watches (map req os)) k.
Proof. intros H C P S. destruct (WatchProofs.reach os t H C) as [HR _]. rewrite (gen_callback_ok t _ k (Some v) HR P S). apply app_nil_r. Qed.
(** A removal also calls those of the watches strictly below, in some order. *)
Theorem C54_removal os t k : whistory wempty os t -> canonical_ops os -> Forall plain k -> short k ->
  exists below, gen_callback t k None = told_above (watches (map req os)) k ++ below /\
    Permutation (map folded below) (map folded (told_below (watches (map req os)) k)).
Proof.
  intros H C P S. destruct (WatchProofs.reach os t H C) as [HR _]. rewrite (gen_callback_ok t _ k None HR P S). eexists. split; [reflexivity|].
  unfold told_below. rewrite map_map. destruct (find t k) as [n|] eqn:F; cbn [down].
  - pose proof (find_R k t n _ HR P F) as HRn. eapply perm_trans; [apply deletion_ok; [exact HRn|exact P]|].
    pose proof (subs_below k (watches (map req os)) []) as E. cbn [app] in E. rewrite E. reflexivity.
  - rewrite (no_node_below k t _ HR P F). constructor.
Qed.
(** Once every watch is removed nothing is left. *)
Theorem C54_clean os t : whistory wempty os t -> canonical_ops os -> watches (map req os) = [] -> tval t = [] /\ tch t = [].
Proof.
  intros H C E. destruct (WatchProofs.reach os t H C) as [(W & _ & A) Pr]. rewrite E in A. destruct (essential t) eqn:Es.
  - destruct (pruned_used t W Pr Es) as (k & P & Hk). elim Hk. apply A, P.
  - unfold essential in Es. destruct (tch t); [|discriminate]. destruct (tval t); [auto|discriminate].
Qed.
(** Destroying the tree fails its assertion exactly if a key other than the root is
    still watched; so watches of the root key that are left over go unnoticed. *)
Theorem C54_destroy os t : whistory wempty os t -> canonical_ops os ->
  destroy t = if forallb (fun e => match e_key e with [] => true | _ => false end) (watches (map req os)) then Ok tt else Fault.
Proof.
  intros H C. destruct (WatchProofs.reach os t H C) as [HR _]. pose proof HR as (W & P & A). unfold destroy.
  destruct (watchout t) eqn:E.
  - apply watchout_ok in E; [|exact W]. destruct E as (s & k & Pk & N). rewrite A in N by exact Pk.
    destruct (forallb _ _) eqn:F; [|reflexivity]. exfalso. apply N. rewrite forallb_forall in F.
    assert (Z : filter (fun e => same (e_key e) (s :: k)) (watches (map req os)) = []).
    { clear - F. induction (watches (map req os)) as [|e r IH]; [reflexivity|]. cbn [filter]. pose proof (F e (or_introl eq_refl)) as Fe. destruct (e_key e) eqn:Ek; [|discriminate].
      cbn. apply IH. intros x Hx. apply F. right. exact Hx. }
    rewrite Z. reflexivity.
  - destruct (forallb _ _) eqn:F; [reflexivity|]. exfalso.
    assert (X : exists e, In e (watches (map req os)) /\ e_key e <> []).
    { clear - F. induction (watches (map req os)) as [|e r IH]; [discriminate|]. cbn [forallb] in F. destruct (e_key e) eqn:Ek.
      - destruct (IH F) as (x & H1 & H2). exists x. split; [right|]; assumption.
      - exists e. split; [left; reflexivity|]. rewrite Ek. discriminate. }
    destruct X as (e & He & Hk). destruct (e_key e) as [|s k] eqn:Ek; [congruence|].
    assert (Pk : Forall plain (s :: k)) by (rewrite Forall_forall in P; rewrite <- Ek; apply P, He).
    assert (watchout t = true); [|congruence]. apply watchout_ok; [exact W|]. exists s, k. split; [exact Pk|]. intros N.
    pose proof (at_nil_none _ _ _ HR Pk N e He) as Hs. rewrite Ek, same_refl in Hs. discriminate.
Qed.
Theorem C54_destroy_refuted : exists os t, whistory wempty os t /\ canonical_ops os /\ watches (map req os) <> [] /\ destroy t = Ok tt.
Proof.
  exists [Add [] {| cookie := 1; recurse := true; what := 7 |}]. eexists. split; [eapply W_op, W_end|]. split; [|split; [discriminate|reflexivity]].
  constructor; [left; constructor|constructor].
Qed.
(** A change reported for a key with a trailing slash calls the one callback
    twice. *)
Theorem C54_trailing_refuted : exists os t k, whistory wempty os t /\ canonical_ops os /\ canonical k /\ short k /\
  length (watches (map req os)) = 1 /\ exists q rest q' rest', gen_callback t k (Some []) = [(7, q, rest); (7, q', rest')].
Proof.
  exists [Add [B "a"] {| cookie := 1; recurse := true; what := 7 |}]. eexists. exists [B "a"; []]. split; [eapply W_op, W_end|].
  assert (Pa : plain (B "a")) by (repeat split; try discriminate; intros Hi; repeat (destruct Hi as [Hi|Hi]; [discriminate|]); destruct Hi).
  split; [constructor; [left; constructor; [exact Pa|constructor]|constructor]|]. split; [right; exists [B "a"]; split; [discriminate|]; split; [constructor; [exact Pa|constructor]|reflexivity]|].
  split; [cbv; discriminate|]. split; [reflexivity|]. do 4 eexists. vm_compute. reflexivity.
Qed.

(** With a memory generator mounted at the root: as long as the callback of a watch
    is not called, nothing that the watch covers has changed. *)
Theorem C54_complete os t h0 n0 g hs ns g' e :
  whistory wempty os t -> canonical_ops os -> In e (watches (map req os)) ->
  history tinit h0 n0 g -> Forall (fun h => canonical (fst h)) h0 ->
  history g hs ns g' -> Forall (fun h => canonical (fst h)) hs -> Forall (fun n => short (fst n)) ns ->
  (forall n q rest, In n ns -> ~ In (e_what e, q, rest) (gen_callback t (fst n) (snd n))) ->
  forall q, Forall plain q -> (if e_below e then under (e_key e) q else same (e_key e) q) = true -> tget g' q = tget g q.
Proof.
  intros H C He H0 C0 H1 C1 Sh Q q P U. destruct (WatchProofs.reach os t H C) as [HR _]. destruct (TempProofs.reach _ _ _ H0 C0) as (W & _).
  rewrite !tget_has by (left; exact P). destruct (plain_slashed _ P) as [-> _].
  destruct (history_ok _ _ _ _ H1 W C1) as (W' & _ & Rp & _).
  assert (Pn : Forall (fun n => Forall plain (fst n)) ns).
  { clear - H1 W C1. induction H1 as [g|g k v g1 n hs ns g' Hs Hh IH|d t t' hs ns g' Hs Hh IH]; [constructor| |].
    - destruct (tset_ok g k v g1 n W (Forall_inv C1) Hs) as (W1 & _ & [T _ _] & _). apply Forall_app. split; [|apply IH; [exact (Forall_inv_tail C1)|exact W1]].
      rewrite Forall_forall. intros [k0 v0] Hi. destruct (T k0 v0 Hi) as (X & _). exact X.
    - apply IH; [exact C1|]. destruct (shuffle_ok t t' Hs W) as (W1 & _). exact W1. }
  rewrite <- (Rp (has g) (fun k _ => eq_refl) q P).
  destruct (option_eq_dec (list_eq_dec ascii_dec) (replay ns (has g) q) (has g q)) as [E|N]; [exact E|]. exfalso.
  destruct (replay_cause _ _ _ N) as (n & Hn & Sn). rewrite Forall_forall in Pn, Sh.
  assert (U' : (if e_below e then under (e_key e) (fst n) else same (e_key e) (fst n)) = true).
  { rewrite <- U. destruct (e_below e); [|apply same_trans, Sn]. apply same_lows in Sn.
    destruct (under (e_key e) q) eqn:E1; [apply under_lows in E1; apply under_lows; rewrite Sn; exact E1|discriminate]. }
  destruct (told_in _ e (fst n) He U') as (k' & rest & Hi). apply (Q n k' rest Hn).
  refine (eq_ind_r (fun l => In (e_what e, k', rest) l) _ (gen_callback_ok t _ (fst n) (snd n) HR (Pn n Hn) (Sh n Hn))). apply in_app_iff. left. exact Hi.
Qed.

Definition ex_ops : list wop :=
  [Add [B "a"] {| cookie := 1; recurse := true; what := 10 |}; Add [B "A"; B "b"; []] {| cookie := 2; recurse := false; what := 11 |};
   Add [] {| cookie := 3; recurse := true; what := 12 |}; Add [B "a"] {| cookie := 4; recurse := false; what := 13 |};
   Add [B "a"; B "b"; B "c"] {| cookie := 5; recurse := true; what := 14 |}; Add [B "z"] {| cookie := 6; recurse := true; what := 15 |}; Del [B "Z"] 6 true].
Example C54_ex : exists t, whistory wempty ex_ops t /\ canonical_ops ex_ops /\
  length (watches (map req ex_ops)) = 5 /\
  gen_callback t [B "a"; B "b"] (Some (B "x")) = [(12, [], [B "a"; B "b"]); (10, [B "a"], [B "b"]); (11, [B "a"; B "b"], [])] /\
  gen_callback t [B "a"; B "b"] None = [(12, [], [B "a"; B "b"]); (10, [B "a"], [B "b"]); (11, [B "a"; B "b"], []); (14, [B "a"; B "b"; B "c"], [])] /\
  told_below (watches (map req ex_ops)) [B "a"; B "b"] = [(14, [B "a"; B "b"; B "c"], [])] /\ destroy t = Fault.
Proof.
  eexists. split; [repeat apply W_op; apply W_end|]. split.
  { assert (Q : forall s, In s [B "a"; B "A"; B "b"; B "c"; B "z"; B "Z"] -> plain s).
    { intros s Hs. repeat (destruct Hs as [<-|Hs]; [repeat split; try discriminate; intros Hi; repeat (destruct Hi as [Hi|Hi]; [discriminate|]); destruct Hi|]). destruct Hs. }
    unfold canonical_ops, ex_ops. repeat (apply Forall_cons; [cbn [op_key]|]); try apply Forall_nil.
    all: try (left; repeat constructor; apply Q; cbn; tauto).
    right. exists [B "A"; B "b"]. split; [discriminate|]. split; [|reflexivity]. repeat constructor; apply Q; cbn; tauto. }
  vm_compute. repeat split; reflexivity.
Qed.
(** A flag on /a that stays quiet while /b changes, and is raised when /a/b does. *)
Example C54_complete_ex : exists t g ns g', whistory wempty [Add [B "a"] {| cookie := 1; recurse := true; what := 10 |}] t /\
  history tinit [([B "a"], Some (B "x"))] [([], Some []); ([B "a"], Some (B "x"))] g /\ history g [([B "b"], Some (B "y"))] ns g' /\ ns <> [] /\
  flat_map (fun n => gen_callback t (fst n) (snd n)) ns = [] /\
  gen_callback t [B "a"; B "b"] (Some (B "y")) = [(10, [B "a"], [B "b"])].
Proof.
  do 4 eexists. split; [eapply W_op, W_end|]. split; [eapply (H_set _ _ _ _ [_; _]); [vm_compute; reflexivity|apply H_end]|].
  split; [eapply (H_set _ _ _ _ [_]); [vm_compute; reflexivity|apply H_end]|]. split; [discriminate|]. split; vm_compute; reflexivity.
Qed.

Print Assumptions C54_change.
Print Assumptions C54_removal.
Print Assumptions C54_clean.
Print Assumptions C54_destroy.
Print Assumptions C54_destroy_refuted.
Print Assumptions C54_trailing_refuted.
Print Assumptions C54_complete.
