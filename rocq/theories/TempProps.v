(** C26, C27: the memory generator is a map of paths; its notifications. *)
From Coq Require Import Permutation.
From Verif Require Import Base Ctype KeyModel KeySpec TempModel TempSpec TreeProofs TempProofs.
Local Open Scope nat_scope.

Definition canonical_history (hs : list (key * option bytes)) : Prop := Forall (fun h => canonical (fst h)) hs.

(** C26: get() returns what the map holds, whatever sets came before and in
    whatever order the hash tables enumerate. *)
Theorem C26_get hs ns g k : history tinit hs ns g -> canonical_history hs -> canonical k ->
  tget g k = if slashed k then None else sets hs k.
Proof.
  intros H C Hk. destruct (reach _ _ _ H C) as (W & E & _). rewrite tget_has by assumption. destruct (slashed k) eqn:Es; [reflexivity|]. apply E.
  destruct Hk as [P|(k' & _ & P & ->)]; [exact P|]. destruct (trailing_slashed k' P). congruence.
Qed.
(** A key that exists has all the keys above it. *)
Theorem C26_closed hs ns g a b : history tinit hs ns g -> canonical_history hs -> Forall plain (a ++ b) ->
  tget g (a ++ b) <> None -> tget g a <> None.
Proof.
  intros H C P. destruct (reach _ _ _ H C) as (W & E & _). pose proof P as P0. rewrite Forall_app in P0. destruct P0 as [Pa Pb].
  rewrite !tget_has by (assumption || (left; assumption)). destruct (plain_slashed _ P) as [-> _]. destruct (plain_slashed _ Pa) as [-> _].
  unfold has. destruct (root g) as [t|]; [|auto]. apply lk_prefix.
Qed.
(** haschildren() tells whether some key exists just below. *)
Theorem C26_haschildren hs ns g k : history tinit hs ns g -> canonical_history hs -> canonical k ->
  thaschildren g k = true <-> exists s, plain s /\ sets hs (named k ++ [s]) <> None.
Proof.
  intros H C Hk. destruct (reach _ _ _ H C) as (W & E & _). pose proof (canonical_named k Hk) as Pn.
  assert (E2 : forall s, plain s -> sets hs (named k ++ [s]) = has g (named k ++ [s])) by (intros s Ps; symmetry; apply E, Forall_app; auto).
  unfold thaschildren, has in *. destruct (root g) as [t|].
  - pose proof (find_lk t k (or_introl Hk)) as F. destruct (find t k) as [n|].
    + destruct F as (_ & Wn & F). specialize (Wn W). split.
      * intros Hn. destruct (tch n) as [|c ch] eqn:Ec; [discriminate|]. exists (tkey c). pose proof (WF_inv _ Wn) as (P & _). rewrite Ec in P. pose proof (Forall_inv P) as Pc.
        split; [exact Pc|]. rewrite E2 by exact Pc. cbn [lko]. rewrite F. rewrite (proj2 (children_ok n (tkey c) (tval c) Wn Pc)); [discriminate|].
        exists (tkey c). rewrite Ec. split; [left; reflexivity|apply teq_refl].
      * intros (s & Ps & Hn). rewrite E2 in Hn by exact Ps. cbn [lko] in Hn. rewrite F in Hn. cbn [lk] in Hn. destruct (tch n); [elim Hn; reflexivity|reflexivity].
    + destruct F as [_ F]. split; [discriminate|]. intros (s & Ps & Hn). rewrite E2 in Hn by exact Ps. cbn [lko] in Hn. rewrite F in Hn. elim Hn; reflexivity.
  - split; [discriminate|]. intros (s & Ps & Hn). rewrite E2 in Hn by exact Ps. elim Hn; reflexivity.
Qed.
(** iterator() is null exactly for keys that do not exist, and otherwise lists the
    keys just below, each once, with their values. *)
Theorem C26_iterator hs ns g k : history tinit hs ns g -> canonical_history hs -> canonical k ->
  match titer g k with
  | None => sets hs (named k) = None
  | Some l => sets hs (named k) <> None /\ NoDup (map (fun x => map tolower (fst x)) l) /\ Forall (fun x => plain (fst x)) l /\
      forall s v, plain s -> sets hs (named k ++ [s]) = Some v <-> exists s0, In (s0, v) l /\ teq s0 s = true
  end.
Proof.
  intros H C Hk. destruct (reach _ _ _ H C) as (W & E & _). pose proof (canonical_named k Hk) as Pn.
  assert (E2 : forall s, plain s -> sets hs (named k ++ [s]) = has g (named k ++ [s])) by (intros s Ps; symmetry; apply E, Forall_app; auto).
  assert (E0 : sets hs (named k) = has g (named k)) by (symmetry; apply E, Pn). rewrite E0.
  unfold titer, has in *. destruct (root g) as [t|]; [|reflexivity].
  pose proof (find_lk t k (or_introl Hk)) as F. cbn [lko] in *. destruct (find t k) as [n|]; [|apply F].
  destruct F as (F0 & Wn & F). specialize (Wn W). pose proof (WF_inv _ Wn) as (P & N & _). rewrite F0. split; [discriminate|]. split; [|split].
  - rewrite map_map. exact N.
  - rewrite Forall_map. exact P.
  - intros s v Ps. rewrite E2 by exact Ps. rewrite F. apply children_ok; assumption.
Qed.

(** C27: an observer who applies every notification, in order, has the generator's
    contents. *)
Theorem C27_mirror hs ns g k : history tinit hs ns g -> canonical_history hs -> Forall plain k ->
  replay ns nothing k = tget g k.
Proof.
  intros H C P. destruct (reach _ _ _ H C) as (W & _ & R & _). rewrite tget_has by (assumption || (left; assumption)). destruct (plain_slashed _ P) as [-> _].
  apply R, P.
Qed.
(** Each notification of a set reports a real change and the new value; no key is
    reported twice; every change is reported; in particular a set that changes
    nothing notifies nothing. *)
Theorem C27_exact hs ns g k v g' n : history tinit hs ns g -> canonical_history hs -> canonical k -> tset g k v = (g', n) ->
  (forall q w, In (q, w) n -> Forall plain q /\ tget g' q = w /\ tget g q <> w) /\
  NoDup (map (fun x => map (map tolower) (fst x)) n) /\
  (forall q, Forall plain q -> tget g q <> tget g' q -> exists q0 w, In (q0, w) n /\ same q0 q = true).
Proof.
  intros H C Hk Ht. destruct (reach _ _ _ H C) as (W & _). destruct (tset_ok g k v g' n W Hk Ht) as (_ & _ & [T A O] & _).
  assert (G : forall g q, Forall plain q -> tget g q = has g q).
  { intros g0 q P. rewrite tget_has by (assumption || (left; assumption)). destruct (plain_slashed _ P) as [-> _]. reflexivity. }
  split; [|split].
  - intros q w Hi. destruct (T q w Hi) as (P & T1 & T2). rewrite !G by assumption. auto.
  - exact O.
  - intros q P N. rewrite !G in N by assumption. apply A; assumption.
Qed.
Theorem C27_quiet hs ns g k v g' n : history tinit hs ns g -> canonical_history hs -> canonical k -> tset g k v = (g', n) ->
  (forall q, Forall plain q -> set_key (sets hs) (k, v) q = sets hs q) -> n = [].
Proof.
  intros H C Hk Ht Hq. destruct (reach _ _ _ H C) as (W & E & _). destruct (tset_ok g k v g' n W Hk Ht) as (_ & E' & T & _).
  apply (tells_same (has g)). eapply tells_ext; [intros; reflexivity| |exact T]. intros q P. rewrite E' by exact P.
  rewrite (set_key_ext (has g) (sets hs) (k, v) E q P). rewrite Hq by exact P. symmetry. apply E, P.
Qed.
(** The dirty flag is raised exactly if something was notified. *)
Theorem C27_dirty hs ns g : history tinit hs ns g -> canonical_history hs -> dirty g = match ns with [] => false | _ => true end.
Proof. intros H C. apply (reach _ _ _ H C). Qed.

(** A history: /a/b := x, /A/c := y, /a/b/ := null, /q/ := z. *)
Definition ex_hs : list (key * option bytes) :=
  [([B "a"; B "b"], Some (B "x")); ([B "A"; B "c"], Some (B "y")); ([B "a"; B "b"; []], None); ([B "q"; []], Some (B "z"))].
Definition ex_shuffle := Sh_below [] [] [] (Node (B "a") [] [Node (B "b") (B "x") []; Node (B "c") (B "y") []])
  (Node (B "a") [] [Node (B "c") (B "y") []; Node (B "b") (B "x") []]) []
  (Sh_here (B "a") [] _ _ (perm_swap (Node (B "c") (B "y") []) (Node (B "b") (B "x") []) [])).
Example C26_ex : exists ns g, history tinit ex_hs ns g /\ canonical_history ex_hs /\
  tget g [B "a"; B "C"] = Some (B "y") /\ tget g [B "a"; B "b"] = None /\ tget g [] = Some [] /\ thaschildren g [B "a"] = true /\
  titer g [B "a"; []] = Some [(B "c", B "y")] /\ titer g [B "q"] = None /\
  ns = [([], Some []); ([B "a"], Some []); ([B "a"; B "b"], Some (B "x")); ([B "a"; B "c"], Some (B "y")); ([B "a"; B "b"], None)] /\
  sets ex_hs [B "a"; B "c"] = Some (B "y").
Proof.
  eexists _, _. split.
  { eapply H_set; [reflexivity|]. eapply H_set; [reflexivity|]. eapply H_shuffle.
    { exact ex_shuffle. }
    eapply H_set; [reflexivity|]. eapply H_set; [reflexivity|]. apply H_end. }
  split.
  { assert (Q : forall s, In s [B "a"; B "A"; B "b"; B "c"; B "q"] -> plain s).
    { intros s Hs. repeat (destruct Hs as [<-|Hs]; [repeat split; try discriminate; intros Hi; repeat (destruct Hi as [Hi|Hi]; [discriminate|]); destruct Hi|]). destruct Hs. }
    repeat apply Forall_cons; cbn [fst]; try apply Forall_nil.
    - left. repeat constructor; apply Q; cbn; tauto.
    - left. repeat constructor; apply Q; cbn; tauto.
    - right. exists [B "a"; B "b"]. split; [discriminate|]. split; [|reflexivity]. repeat constructor; apply Q; cbn; tauto.
    - right. exists [B "q"]. split; [discriminate|]. split; [|reflexivity]. repeat constructor; apply Q; cbn; tauto. }
  vm_compute. repeat split; reflexivity.
Qed.

Print Assumptions C26_get.
Print Assumptions C26_closed.
Print Assumptions C26_haschildren.
Print Assumptions C26_iterator.
Print Assumptions C27_mirror.
Print Assumptions C27_exact.
Print Assumptions C27_quiet.
Print Assumptions C27_dirty.
