(** C94: copying and moving keys. *)
From Verif Require Import Base BaseFacts Ctype KeyModel KeySpec TempModel TempSpec TreeProofs TempProofs TempProps WatchModel RecModel RecProps CopySpec CopyModel CopyProofs.
Local Open Scope nat_scope.

Lemma start g hs ns : history tinit hs ns g -> canonical_history hs -> holds g (tget g).
Proof. intros H C. exists hs, ns. split; [exact H|]. split; [exact C|]. intros k P. rewrite (C26_get hs ns g k H C (or_introl P)), slashed_plain by exact P. reflexivity. Qed.

(** Whatever has been stored: copying with force makes what is below the destination what
    "cp -r" makes it, and changes nothing else but that the keys above it then exist. *)
Theorem C94_force_partial hs ns g src dst : history tinit hs ns g -> canonical_history hs -> Forall plain src -> Forall plain dst -> apart src dst -> tget g src <> None ->
  exists n, forall fuel, n < fuel -> exists g', copy fuel g src dst true = Ok g' /\ forall k, Forall plain k -> tget g' k = copied (tget g) src dst true k.
Proof.
  intros H C Ps Pd AP X. pose proof (start g hs ns H C) as G. destruct (copy_ok g _ src dst true G Ps Pd AP) as (n & L). exists n. intros fuel Lf. destruct (L fuel Lf) as (g' & E & G'). exists g'. split; [exact E|].
  intros k Pk. rewrite (holds_get _ _ k G' Pk). unfold result. destruct (tget g src) as [v|] eqn:M0; [|congruence]. destruct (same dst k) eqn:S; [|reflexivity].
  unfold copied. rewrite M0. assert (U : under dst k = true) by (unfold same in S; apply andb_prop in S; tauto). rewrite U.
  assert (R : rest dst k = []) by (apply same_lows, (f_equal (@length _)) in S; rewrite !MountProofs.lows_length in S; unfold rest; apply skipn_all2; lia). rewrite R, app_nil_r, M0. destruct (tget g k); reflexivity.
Qed.

(** Without force, every key that was there keeps its value, except the destination
    itself, which gets the source's. *)
Theorem C94_keep_partial hs ns g src dst : history tinit hs ns g -> canonical_history hs -> Forall plain src -> Forall plain dst -> apart src dst -> tget g src <> None ->
  exists n, forall fuel, n < fuel -> exists g', copy fuel g src dst false = Ok g' /\ tget g' dst = tget g src /\
    forall k, Forall plain k -> same dst k = false -> tget g' k = copied (tget g) src dst false k.
Proof.
  intros H C Ps Pd AP X. pose proof (start g hs ns H C) as G. destruct (copy_ok g _ src dst false G Ps Pd AP) as (n & L). exists n. intros fuel Lf. destruct (L fuel Lf) as (g' & E & G'). exists g'. split; [exact E|]. split.
  - rewrite (holds_get _ _ dst G' Pd). unfold result. destruct (tget g src) as [v|] eqn:M0; [|congruence]. rewrite same_refl. reflexivity.
  - intros k Pk S. rewrite (holds_get _ _ k G' Pk). unfold result. destruct (tget g src) as [v|] eqn:M0; [|congruence]. rewrite S. reflexivity.
Qed.

(** A source that does not exist: the destination and all below it are removed, with
    force or without; nothing else changes. *)
Theorem C94_nothing hs ns g src dst force : history tinit hs ns g -> canonical_history hs -> Forall plain src -> Forall plain dst -> apart src dst -> tget g src = None ->
  exists n, forall fuel, n < fuel -> exists g', copy fuel g src dst force = Ok g' /\
    forall k, Forall plain k -> tget g' k = if under dst k then None else tget g k.
Proof.
  intros H C Ps Pd AP X. pose proof (start g hs ns H C) as G. destruct (copy_ok g _ src dst force G Ps Pd AP) as (n & L). exists n. intros fuel Lf. destruct (L fuel Lf) as (g' & E & G'). exists g'. split; [exact E|].
  intros k Pk. rewrite (holds_get _ _ k G' Pk). unfold result. rewrite X. reflexivity.
Qed.

(** Moving: the destination is then what the source was, whatever was there before; the
    source is gone; nothing else changes but that the keys above the destination exist. *)
Theorem C94_move hs ns g src dst : history tinit hs ns g -> canonical_history hs -> Forall plain src -> Forall plain dst -> apart src dst ->
  exists n, forall fuel, n < fuel -> exists g', move fuel g src dst = Ok g' /\ forall k, Forall plain k -> tget g' k = moved (tget g) src dst k.
Proof.
  intros H C Ps Pd AP. pose proof (start g hs ns H C) as G. destruct (move_ok g _ src dst G Ps Pd AP) as (n & L). exists n. intros fuel Lf. destruct (L fuel Lf) as (g' & E & G'). exists g'. split; [exact E|].
  intros k Pk. apply (holds_get _ _ k G' Pk).
Qed.

(** A store: a = 1, a/x = 2, a/y/z = 3, b = 8, b/X = 9, b/w = 7. *)
Definition ex_hs : list (key * option bytes) := [([B "a"], Some (B "1")); ([B "a"; B "x"], Some (B "2")); ([B "a"; B "y"; B "z"], Some (B "3")); ([B "b"], Some (B "8")); ([B "b"; B "X"], Some (B "9")); ([B "b"; B "w"], Some (B "7"))].
Definition ex_g : gen := fold_left (fun g kv => setme g (fst kv) (snd kv)) ex_hs tinit.
Definition look (r : res gen) (ks : list key) : list (option bytes) := match r with Ok g => map (tget g) ks | _ => [] end.

(** "Any keys that already exist at that location will not be overridden unless force is
    true": the destination's own value is. *)
Theorem C94_main_refuted : tget ex_g [B "b"] = Some (B "8") /\ look (copy 20 ex_g [B "a"] [B "b"] false) [[B "b"]] = [Some (B "1")].
Proof. split; vm_compute; reflexivity. Qed.
(** And copying what is not there deletes the destination. *)
Theorem C94_absent_refuted : look (Ok ex_g) [[B "b"]; [B "b"; B "w"]] = [Some (B "8"); Some (B "7")] /\
  look (copy 20 ex_g [B "q"] [B "b"] false) [[B "b"]; [B "b"; B "w"]] = [None; None].
Proof. split; vm_compute; reflexivity. Qed.
(** "If the new point exists then the key will be left as a subkey at the new point": no,
    what was at the new point is lost. *)
Theorem C94_subkey_refuted : tget ex_g [B "b"; B "w"] = Some (B "7") /\
  look (move 20 ex_g [B "a"] [B "b"]) [[B "b"]; [B "b"; B "a"]; [B "b"; B "w"]] = [Some (B "1"); None; None].
Proof. split; vm_compute; reflexivity. Qed.

Example C94_ex_meets : exists ns, history tinit ex_hs ns ex_g /\ canonical_history ex_hs /\ Forall plain [B "a"] /\ Forall plain [B "b"] /\ apart [B "a"] [B "b"] /\ tget ex_g [B "a"] <> None.
Proof.
  assert (P : forall s, In s [B "a"; B "b"; B "x"; B "X"; B "y"; B "z"; B "w"] -> plain s).
  { intros s H. cbn [In] in H. repeat (destruct H as [<-|H]; [split; [discriminate|]; split; intros [X|[]]; discriminate|]). contradiction. }
  eexists. split; [repeat (eapply H_set; [reflexivity|]); apply H_end|]. split; [repeat (constructor; [left; repeat (constructor; [apply P; cbn [In]; auto 9|]); constructor|]); constructor|].
  split; [constructor; [apply P; cbn; auto|constructor]|]. split; [constructor; [apply P; cbn; auto|constructor]|]. split; [split; reflexivity|discriminate].
Qed.
Example C94_ex : let ks := [[B "b"]; [B "b"; B "x"]; [B "b"; B "y"]; [B "b"; B "y"; B "z"]; [B "b"; B "w"]; [B "a"; B "x"]] in
  look (copy 20 ex_g [B "a"] [B "b"] false) ks = [Some (B "1"); Some (B "9"); Some []; Some (B "3"); Some (B "7"); Some (B "2")] /\
  look (copy 20 ex_g [B "a"] [B "b"] true) ks = [Some (B "1"); Some (B "2"); Some []; Some (B "3"); Some (B "7"); Some (B "2")] /\
  look (move 20 ex_g [B "a"] [B "b"]) ks = [Some (B "1"); Some (B "2"); Some []; Some (B "3"); None; None].
Proof. repeat split; vm_compute; reflexivity. Qed.

Print Assumptions C94_force_partial.
Print Assumptions C94_keep_partial.
Print Assumptions C94_nothing.
Print Assumptions C94_move.
Print Assumptions C94_main_refuted.
Print Assumptions C94_absent_refuted.
Print Assumptions C94_subkey_refuted.
