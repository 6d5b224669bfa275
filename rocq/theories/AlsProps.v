(** C102: addresses that several aliasers share. *)
From Verif Require Import Base BaseFacts AlsSpec AlsModel AlsProofs.
From Coq Require Import NArith ZArith Lia.
Local Open Scope N_scope.

(** For every history of calls to [n] aliasers, in any order and from any state of the
    kernel's interfaces: no alias is used after it is gone, and the answers are whether an
    alias was made or given up, given what the aliasers want. *)
Theorem C102_history n k0 l : Forall (uses n) l -> exists s, run (boot k0) l = Ok (s, snd (expect n nothing l)) /\ map ip_of (all s) = live (fst (expect n nothing l)).
Proof. intros F. destruct (run_ok n k0 l _ _ (boot_inv n k0) F) as (s & E & I). exists s. split; [exact E|apply (i_live _ _ _ _ I)]. Qed.
(** An interface that has an address keeps it as long as that address is wanted, or was
    never an alias. *)
Theorem C102_stays n k0 l o s r i v : Forall (uses n) l -> uses n o -> run (boot k0) l = Ok (s, r) -> kern s i = Some v ->
  let w := fst (expect n nothing l) in (In v (live w) -> In v (live (fst (next n w o)))) -> exists s' b, step s o = Ok (s', b) /\ kern s' i = Some v.
Proof.
  intros F U R K w H. destruct (run_ok n k0 l _ _ (boot_inv n k0) F) as (s1 & E & I). rewrite R in E. injection E as <- _. destruct (step_ok n k0 s _ o I U) as (s' & E & _ & P). eexists _, _. split; [exact E|]. apply P; [exact K|exact H].
Qed.
(** What else is up is an alias that is wanted, or was at the last done_edit; no address twice. *)
Theorem C102_only n l s r : Forall (uses n) l -> run (boot (fun _ => None)) l = Ok (s, r) ->
  (forall i v, kern s i = Some v -> In v (live (fst (expect n nothing l)))) /\ (forall i j v, kern s i = Some v -> kern s j = Some v -> i = j).
Proof.
  intros F R. destruct (run_ok n (fun _ => None) l _ _ (boot_inv n _) F) as (s1 & E & I). rewrite R in E. injection E as <- _. split.
  - intros i v K. destruct (i_else _ _ _ _ I i v K) as [X|(x & Hx & _ & <-)]; [discriminate|]. rewrite <- (i_live _ _ _ _ I). apply in_map, Hx.
  - intros i j v Ki Kj. destruct (i_else _ _ _ _ I i v Ki) as [X|(x & Hx & X & V)]; [discriminate|]. destruct (i_else _ _ _ _ I j v Kj) as [Y|(y & Hy & Y & V')]; [discriminate|]. assert (x = y) by (apply (nodup_inj ip_of (all s)); auto; [apply (i_ips _ _ _ _ I)|congruence]). congruence.
Qed.
(** A new alias is up, if the kernel grants it and one of the 256 names is free. *)
Theorem C102_up_partial n k0 l s r a ip : Forall (uses n) l -> (a < n)%nat -> run (boot k0) l = Ok (s, r) -> (exists j, (j < 256)%nat /\ kern s j = None) ->
  exists s' b, step s (Add a ip true) = Ok (s', b) /\ (b = true -> exists j, (j < 256)%nat /\ kern s' j = Some ip).
Proof.
  intros F U R J. destruct (run_ok n k0 l _ _ (boot_inv n k0) F) as (s1 & E & I). rewrite R in E. injection E as <- _. destruct (add_ok n k0 s _ a ip true I U) as (s' & E & _ & _ & P). eexists _, _. split; [exact E|]. intros B. apply P; auto.
Qed.
(** Editing an aliaser's addresses, if no other done_edit comes between: an address that was
    live and is added again is never given up, whatever else is added. *)
Definition adds (a : nat) (l : list (N * bool)) : list op := map (fun p => Add a (fst p) (snd p)) l.
Lemma adds_live n a : forall l w v, In v (live w) -> In v (live (fst (expect n w (adds a l)))).
Proof.
  induction l as [|(p & g) l IH]; intros w v I; [exact I|]. cbn [adds map expect next fst snd]. destruct (fresh w a p).
  - specialize (IH (Want (real_of w) (upd (wants w) a (wants w a ++ [p])) (if mem p (live w) then live w else live w ++ [p])) v). cbn [live] in IH. fold (adds a l). destruct (expect n _ (adds a l)). apply IH. destruct (mem p (live w)); [exact I|apply in_or_app; left; exact I].
  - specialize (IH w v I). fold (adds a l). destruct (expect n w (adds a l)). exact IH.
Qed.
Lemma adds_wants n a v : forall l w, v <> 0 -> real_of w a v = false -> In v (wants w a) \/ In v (map fst l) -> In v (wants (fst (expect n w (adds a l))) a).
Proof.
  induction l as [|(p & g) l IH]; intros w N R I; cbn [adds map expect next fst snd] in *; [destruct I as [I|[]]; exact I|]. fold (adds a l). destruct (fresh w a p) eqn:Fr.
  - specialize (IH (Want (real_of w) (upd (wants w) a (wants w a ++ [p])) (if mem p (live w) then live w else live w ++ [p])) N R). cbn [wants] in IH. rewrite upd_same in IH. destruct (expect n _ (adds a l)). apply IH. destruct I as [I|[->|I]]; [left; apply in_or_app; left; exact I|left; apply in_or_app; right; left; reflexivity|right; exact I].
  - assert (J : In v (wants w a) \/ In v (map fst l)). { destruct I as [I|[->|I]]; auto. left. unfold fresh in Fr. rewrite R in Fr. destruct (N.eqb_spec v 0); [contradiction|]. destruct (mem v (wants w a)) eqn:M; [apply mem_in; exact M|discriminate]. }
    specialize (IH w N R J). destruct (expect n w (adds a l)). exact IH.
Qed.
Lemma expect_app n : forall l m w, fst (expect n w (l ++ m)) = fst (expect n (fst (expect n w l)) m).
Proof. induction l as [|o l IH]; intros m w; cbn [app expect]; [reflexivity|]. destruct (next n w o) as (w1 & b). specialize (IH m w1). destruct (expect n w1 (l ++ m)), (expect n w1 l). exact IH. Qed.
Theorem C102_session n h a real l v : (a < n)%nat -> In v (live (fst (expect n nothing h))) -> v <> 0 -> real v = false -> In v (map fst l) ->
  forall p q, Start a real :: adds a l ++ [Finish a] = p ++ q -> In v (live (fst (expect n nothing (h ++ p)))).
Proof.
  intros L I N R Il p q E. rewrite expect_app. set (w := fst (expect n nothing h)) in *. destruct p as [|o p]; [exact I|]. injection E as <- E. cbn [expect next]. set (w1 := Want _ _ _).
  assert (X : In v (live (fst (expect n w1 p)))); [|destruct (expect n w1 p); exact X].
  assert (Q : (exists m, p = adds a m) \/ p = adds a l ++ [Finish a]).
  { assert (D : q = [] \/ q <> []) by (destruct q; [left; reflexivity|right; discriminate]). destruct D as [->|Hq]; [right; rewrite app_nil_r in E; congruence|]. left. destruct (exists_last Hq) as (q' & z & ->). rewrite app_assoc in E. apply app_inj_tail in E as (E & _). exists (firstn (length p) l). unfold adds. rewrite <- firstn_map. fold (adds a l). rewrite E, firstn_app, Nat.sub_diag, firstn_all, app_nil_r. reflexivity. }
  destruct Q as [(m & ->)| ->]; [apply adds_live; exact I|]. rewrite expect_app. set (w2 := fst (expect n w1 (adds a l))). cbn [expect next fst live]. apply filter_In. split; [apply adds_live; exact I|].
  unfold wanted. apply existsb_exists. exists a. split; [apply in_seq; lia|]. apply mem_in. apply adds_wants; [exact N|unfold w1; cbn [real_of]; rewrite upd_same; exact R|right; exact Il].
Qed.

Example C102_ex : exists s, run (boot (fun i => if Nat.eqb i 0 then Some 99 else None)) [Start 0 (fun _ => false); Add 0 5 true; Add 0 6 true; Finish 0; Start 1 (fun p => p =? 7); Add 1 5 true; Add 1 7 true; Finish 1; Start 0 (fun _ => false); Add 0 6 true; Finish 0; Start 1 (fun _ => false); Finish 1] =
    Ok (s, [false; true; true; false; false; false; false; false; false; false; false; false; true]) /\ kern s 0%nat = Some 99 /\ kern s 1%nat = None /\ kern s 2%nat = Some 6.
Proof. eexists. split; [vm_compute; reflexivity|]. repeat split. Qed.
Example C102_meets : Forall (uses 2) [Start 0 (fun _ => false); Add 0 5 true; Finish 1] /\ exists s r, run (boot (fun _ => None)) [Start 0 (fun _ => false); Add 0 5 true; Finish 1] = Ok (s, r) /\ kern s 0%nat = Some 5 /\ kern s 1%nat = None /\ In 5 (live (fst (expect 2 nothing [Start 0 (fun _ => false); Add 0 5 true; Finish 1]))).
Proof. split; [repeat constructor|]. eexists _, _. split; [vm_compute; reflexivity|]. repeat split. left. reflexivity. Qed.

(** add() says that an interface was made even if there was no permission. *)
Theorem C102_permission_refuted : exists s, run (boot (fun _ => None)) [Start 0 (fun _ => false); Add 0 5 false] = Ok (s, [false; true]) /\ forall i, kern s i = None.
Proof. eexists. split; [reflexivity|]. intros i. reflexivity. Qed.
(** If another aliaser finishes its edit meanwhile, an address goes down for a while. *)
Theorem C102_between_refuted : let l := [Start 0 (fun _ => false); Add 0 5 true; Finish 0; Start 0 (fun _ => false); Finish 1] in
  exists s s' r r', run (boot (fun _ => None)) l = Ok (s, r) /\ kern s 0%nat = None /\ run (boot (fun _ => None)) (l ++ [Add 0 5 true; Finish 0]) = Ok (s', r') /\ kern s' 0%nat = Some 5.
Proof. eexists _, _, _, _. split; [vm_compute; reflexivity|]. split; [reflexivity|]. split; vm_compute; reflexivity. Qed.

Print Assumptions C102_history.
Print Assumptions C102_stays.
Print Assumptions C102_only.
Print Assumptions C102_up_partial.
Print Assumptions C102_session.
Print Assumptions C102_permission_refuted.
Print Assumptions C102_between_refuted.
