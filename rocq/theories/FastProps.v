(** C60: the generator that remembers what it was asked for. *)
From Verif Require Import Base BaseFacts Ctype KeyModel KeySpec KeyProofs TempModel TempSpec TreeProofs TempProofs TempProps MountProofs WatchModel RecProofs FeedProofs CacheModel CacheProofs FastModel FastProofs.
Local Open Scope nat_scope.

(** Made for a generator with any history, and used in any way *)
Definition wrapped (hs : list (key * option bytes)) (es : list fevent) (ns : list notif) (s : fast) : Prop :=
  exists g ns0, history tinit hs ns0 g /\ canonical_history hs /\ fhistory (fast_new g) es ns s /\ Forall fevent_ok es.
Lemma wrapped_ok hs es ns s : wrapped hs es ns s -> fok s /\ same_contents (has (finner s)) (sets (hs ++ fsets es)).
Proof.
  intros (g & ns0 & H & Ch & Hf & E). destruct (reach _ _ _ H Ch) as (W & _). destruct (fhistory_ok _ _ _ _ Hf (new_fok g W) E) as (O & _ & Hi). split; [exact O|].
  pose proof (history_app _ _ _ _ H _ _ _ Hi) as Ha. apply (reach _ _ _ Ha). apply Forall_app. split; [exact Ch|]. apply Forall_forall. intros x Hx. apply in_flat_map in Hx.
  destruct Hx as ([k v|k] & He & Hx); [|destruct Hx]. destruct Hx as [<-|[]]. rewrite Forall_forall in E. apply (E _ He).
Qed.
(** get() never fails and returns what was set last, through it or not, as the inner
    generator does; exists() agrees. *)
Theorem C60_get hs es ns s k : wrapped hs es ns s -> canonical k ->
  let v := if slashed k then None else sets (hs ++ fsets es) k in
  tget (finner s) k = v /\ forall fuel, length k < fuel -> exists s' a,
    fget fuel s k = Ok (s', v, a) /\ fexists fuel s k = Ok (s', match v with Some _ => true | None => false end, a) /\ wrapped hs (es ++ [FGet k]) ns s'.
Proof.
  intros H C. destruct (wrapped_ok _ _ _ _ H) as (O & S). cbv zeta.
  assert (Ev : tget (finner s) k = if slashed k then None else sets (hs ++ fsets es) k).
  { rewrite tget_has by exact C. destruct (slashed k) eqn:Es; [reflexivity|]. apply S. destruct C as [P|(k' & _ & P & ->)]; [exact P|]. destruct (trailing_slashed k' P). congruence. }
  split; [exact Ev|]. intros fuel L. destruct (fget_ok fuel s k O C L) as (s' & a & E & _). rewrite Ev in E. exists s', a. split; [exact E|]. split; [unfold fexists; rewrite E; reflexivity|].
  destruct H as (g & ns0 & H & Ch & Hf & Eo). exists g, ns0. split; [exact H|]. split; [exact Ch|]. split; [|apply Forall_app; split; [exact Eo|constructor; [exact C|constructor]]].
  clear -Hf E. revert E. generalize (if slashed k then None else sets (hs ++ fsets es) k) as vv. intros vv E. induction Hf as [s|s k0 v s1 n es ns s2 Hs H IH|s f0 k0 s1 v a0 es ns s2 Hg H IH|t t' d f es ns s2 Hs H IH|g0 t t' es ns s2 Hs H IH]; cbn [app].
  - eapply FH_get; [exact E|apply FH_end].
  - eapply FH_set; [exact Hs|exact (IH E)].
  - eapply FH_get; [exact Hg|exact (IH E)].
  - eapply FH_shuffle; [exact Hs|exact (IH E)].
  - eapply FH_shuffle2; [exact Hs|exact (IH E)].
Qed.
(** A key that was asked for once is never asked for again, however it changes, and in
    whatever letter case. *)
Theorem C60_once hs es ns s k k' fuel s1 v a es' ns' s' fuel' s2 v2 a2 : wrapped hs es ns s -> Forall plain k -> fget fuel s k = Ok (s1, v, a) ->
  fhistory s1 es' ns' s' -> Forall fevent_ok es' -> Forall plain k' -> same k k' = true -> fget fuel' s' k' = Ok (s2, v2, a2) -> a2 = [].
Proof.
  intros H P E Hf Eo P' Sk E2. destruct (wrapped_ok _ _ _ _ H) as (O & _). destruct (fget_any _ _ _ _ _ _ O (or_introl P) E) as (O1 & _ & _ & _ & F1). destruct (fhistory_ok _ _ _ _ Hf O1 Eo) as (O2 & K2 & _).
  specialize (F1 (proj1 (plain_slashed _ P))). apply (K2 k P) in F1. rewrite (lk_low (ftree s') k k' (proj1 O2) P P' Sk) in F1.
  destruct fuel' as [|fuel']; [discriminate|]. cbn [fget] in E2. rewrite hasts_plain in E2 by exact P'. rewrite (find_some (ftree s') k' P') in F1. destruct (find (ftree s') k'); [|congruence]. injection E2 as <- <- <-. reflexivity.
Qed.
(** haschildren() is the inner generator's. *)
Theorem C60_haschildren hs es ns s k : wrapped hs es ns s -> canonical k -> fhaschildren s k = thaschildren (finner s) k.
Proof.
  intros H C. destruct (wrapped_ok _ _ _ _ H) as ((W & Wi & Cn) & _). unfold fhaschildren. pose proof (find_lk (ftree s) k (or_introl C)) as F. destruct (find (ftree s) k) as [x|]; [|reflexivity].
  destruct F as (F & _). pose proof (canonical_named k C) as Pn. apply Cn in F; [|exact Pn]. rewrite F. destruct (has (finner s) (named k)) eqn:E; [reflexivity|].
  unfold thaschildren, has in *. destruct (root (finner s)) as [t|]; [|reflexivity]. pose proof (find_lk t k (or_introl C)) as Ft. cbn [lko] in E. destruct (find t k); [|reflexivity]. destruct Ft as (Ft & _). congruence.
Qed.
(** The notifications are those of the inner generator: they tell all that changes. *)
Theorem C60_mirror hs es ns s k : wrapped hs es ns s -> Forall plain k -> replay ns (sets hs) k = tget (finner s) k.
Proof.
  intros (g & ns0 & H & Ch & Hf & E) P. destruct (reach _ _ _ H Ch) as (W & S & _). destruct (fhistory_ok _ _ _ _ Hf (new_fok g W) E) as (O & _ & Hi).
  assert (Cs : Forall (fun h => canonical (fst h)) (fsets es)).
  { apply Forall_forall. intros x Hx. apply in_flat_map in Hx. destruct Hx as ([k0 v|k0] & He & Hx); [|destruct Hx]. destruct Hx as [<-|[]]. rewrite Forall_forall in E. apply (E _ He). }
  destruct (history_ok _ _ _ _ Hi W Cs) as (_ & _ & R & _). rewrite tget_has by (left; exact P). rewrite (proj1 (plain_slashed _ P)). apply R; [|exact P]. intros q Q. symmetry. apply S, Q.
Qed.
(** While the notifications of one change are handed out, the inner generator has all
    of it, but a remembered key reads as before until it is notified itself. *)
Theorem C60_stale_refuted : exists hs es ns s g n1 n2, wrapped hs es ns s /\ tset (finner s) [B "a"] None = (g, n1 :: n2) /\
  tget g [B "a"] = None /\ exists r, fget 9 {| finner := g; ftree := fcallback (ftree s) n1 |} [B "a"] = Ok (r, Some [], []).
Proof.
  destruct (tset tinit [B "a"; B "b"] (Some (B "1"))) as [g0 n0] eqn:E0. destruct (fget 9 (fast_new g0) [B "a"]) as [[[s v] a]| |] eqn:Eg; [|vm_compute in E0; injection E0 as <- <-; vm_compute in Eg; discriminate..].
  destruct (tset (finner s) [B "a"] None) as [g n] eqn:E. exists [([B "a"; B "b"], Some (B "1"))], [FGet [B "a"]], [], s, g.
  assert (P : forall x, In x [B "a"; B "b"] -> plain x) by (intros x H; cbn [In] in H; repeat (destruct H as [<-|H]; [split; [discriminate|]; split; intros [X|[]]; discriminate|]); contradiction).
  exists (hd ([], None) n), (tl n). split; [|split].
  - exists g0, (n0 ++ []). split; [eapply H_set; [exact E0|apply H_end]|]. split; [constructor; [left; repeat (constructor; [apply P; cbn [In]; auto|]); constructor|constructor]|].
    split; [eapply FH_get; [exact Eg|apply FH_end]|]. constructor; [left; repeat (constructor; [apply P; cbn [In]; auto|]); constructor|constructor].
  - vm_compute in E0. injection E0 as <- <-. vm_compute in Eg. injection Eg as <- <- <-. vm_compute in E. injection E as <- <-. reflexivity.
  - vm_compute in E0. injection E0 as <- <-. vm_compute in Eg. injection Eg as <- <- <-. vm_compute in E. injection E as <- <-. split; [reflexivity|]. eexists. vm_compute. reflexivity.
Qed.
(** What is asked for: first each key on the way, then nothing; nothing below a key
    that is not there *)
Example ex_asked : let g := fst (tset tinit [B "a"; B "b"] (Some (B "1"))) in
  match fget 9 (fast_new g) [B "a"; B "b"] with
  | Ok (s, v, a) => v = Some (B "1") /\ a = [[B "a"]; [B "a"; B "b"]] /\
      match fget 9 (fst (fset s [B "A"; B "b"] (Some (B "2")))) [B "a"; B "B"] with Ok (_, v, a) => v = Some (B "2") /\ a = [] | _ => False end /\
      match fget 9 s [B "x"; B "y"] with Ok (s, v, a) => v = None /\ a = [[B "x"]] /\ fhaschildren s [B "x"] = false | _ => False end
  | _ => False
  end.
Proof. vm_compute. repeat split; reflexivity. Qed.
Example ex_wrapped : exists hs es ns s, wrapped hs es ns s /\ ns <> [] /\ tch (ftree s) <> [].
Proof.
  destruct (fset (fast_new tinit) [B "a"] (Some (B "1"))) as [s n] eqn:E. destruct (fget 9 s [B "a"]) as [[[s1 v] a]| |] eqn:Eg; [|vm_compute in E; injection E as <- <-; vm_compute in Eg; discriminate..].
  exists [], [FSet [B "a"] (Some (B "1")); FGet [B "a"]], (n ++ []), s1. assert (P : canonical [B "a"]) by (left; constructor; [|constructor]; split; [discriminate|]; split; intros [X|[]]; discriminate). split.
  - exists tinit, []. split; [apply H_end|]. split; [constructor|]. split; [eapply FH_set; [exact E|]; eapply FH_get; [exact Eg|apply FH_end]|]. repeat (constructor; [exact P|]). constructor.
  - vm_compute in E. injection E as <- <-. vm_compute in Eg. injection Eg as <- <- <-. split; discriminate.
Qed.
Print Assumptions C60_get.
Print Assumptions C60_once.
Print Assumptions C60_haschildren.
Print Assumptions C60_mirror.
