(** Proofs about routes. *)
From Verif Require Import Base BaseFacts RouteSpec RouteModel.
From Coq Require Import NArith ZArith Lia.
Local Open Scope N_scope.

Lemma weq_eq a b : weq a b = true <-> a = b.
Proof. unfold weq. destruct (list_eq_dec ascii_dec a b); split; congruence. Qed.
Lemma eqr_same a b : eqr a b = true <-> same a b.
Proof.
  unfold eqr, same. rewrite !Bool.andb_true_iff, !N.eqb_eq, !weq_eq, Z.eqb_eq. tauto.
Qed.
Lemma same_refl a : same a a. Proof. repeat split. Qed.
Lemma same_sym a b : same a b -> same b a. Proof. unfold same. intuition congruence. Qed.
Lemma same_trans a b c : same a b -> same b c -> same a c. Proof. unfold same. intuition congruence. Qed.
Lemma within_eqr l r : existsb (fun x => eqr x r) l = true <-> within r l.
Proof. rewrite existsb_exists. unfold within. split; intros (x & I & E); exists x; (split; [exact I|]); apply eqr_same; exact E. Qed.
Lemma within_same l a b : same a b -> within a l -> within b l.
Proof. intros S (x & I & E). exists x. split; [exact I|eapply same_trans; eassumption]. Qed.

Lemma del_at k d r : within r (kernel1 k (Del d)) <-> within r k /\ ~ same d r.
Proof.
  cbn [kernel1]. unfold within. split.
  - intros (x & I & E). apply filter_In in I as (I & F). split; [exists x; auto|]. intros S. rewrite (proj2 (eqr_same x d)) in F; [discriminate|]. eapply same_trans; [exact E|apply same_sym, S].
  - intros ((x & I & E) & N). exists x. split; [|exact E]. apply filter_In. split; [exact I|]. destruct (eqr x d) eqn:Q; [|reflexivity]. apply eqr_same in Q. elim N. eapply same_trans; [apply same_sym, Q|exact E].
Qed.
Lemma add_at k a r : within r (kernel1 k (Add a)) <-> within r k \/ same a r.
Proof.
  cbn [kernel1]. destruct (existsb (fun x => eqr x a) k) eqn:Q.
  - apply within_eqr in Q. split; [auto|]. intros [H|H]; [exact H|eapply within_same; eassumption].
  - unfold within. split; [intros (x & I & E); apply in_app_or in I as [I|[<-|[]]]; [left; exists x; auto|right; exact E]|]. intros [(x & I & E)|E]; [exists x; split; [apply in_or_app; left; exact I|exact E]|exists a; split; [apply in_or_app; right; left; reflexivity|exact E]].
Qed.
(** A route that is there and that no command deletes stays *)
Lemma stays r : forall l k, within r k -> (forall d, In (Del d) l -> ~ same d r) -> within r (kernel k l).
Proof.
  induction l as [|c l IH]; intros k W N; [exact W|]. change (kernel k (c :: l)) with (kernel (kernel1 k c) l). apply IH; [|intros d I; apply N; right; exact I]. destruct c as [d|a]; [apply del_at; split; [exact W|apply N; left; reflexivity]|apply add_at; left; exact W].
Qed.
Lemma comes r : forall l k, within r (kernel k l) -> within r k \/ exists a, In (Add a) l /\ same a r.
Proof.
  induction l as [|c l IH]; intros k W; [left; exact W|]. change (kernel k (c :: l)) with (kernel (kernel1 k c) l) in W. apply IH in W as [W|(a & I & S)]; [|right; exists a; split; [right; exact I|exact S]]. destruct c as [d|a]; [apply del_at in W as (W & _); left; exact W|]. apply add_at in W as [W|S]; [left; exact W|right; exists a; split; [left; reflexivity|exact S]].
Qed.
Lemma dels old new d : In (Del d) (set_kernel old new) <-> In d old /\ metric d <> 99%Z /\ ~ within d new.
Proof.
  unfold set_kernel. rewrite in_app_iff, !in_flat_map. split.
  - intros [(o & I & H)|(n & I & H)]; [|destruct (existsb _ old); [destruct H|destruct H as [H|[]]; discriminate]]. destruct (Z.eqb_spec (metric o) 99) as [|M]; [destruct H|]. destruct (existsb (fun n => eqr n o) new) eqn:Q; [destruct H|]. destruct H as [H|[]]. injection H as ->. split; [exact I|]. split; [exact M|]. intros W. apply within_eqr in W. congruence.
  - intros (I & M & W). left. exists d. split; [exact I|]. destruct (Z.eqb_spec (metric d) 99); [contradiction|]. destruct (existsb (fun n => eqr n d) new) eqn:Q; [apply within_eqr in Q; contradiction|left; reflexivity].
Qed.
Lemma adds old new a : In (Add a) (set_kernel old new) <-> In a new /\ ~ within a old.
Proof.
  unfold set_kernel. rewrite in_app_iff, !in_flat_map. split.
  - intros [(o & I & H)|(n & I & H)]; [destruct (Z.eqb (metric o) 99); [destruct H|]; destruct (existsb _ new); [destruct H|destruct H as [H|[]]; discriminate]|]. destruct (existsb (fun o => eqr o n) old) eqn:Q; [destruct H|]. destruct H as [H|[]]. injection H as ->. split; [exact I|]. intros W. apply within_eqr in W. congruence.
  - intros (I & W). right. exists a. split; [exact I|]. destruct (existsb (fun o => eqr o a) old) eqn:Q; [apply within_eqr in Q; contradiction|left; reflexivity].
Qed.
(** The deletions come first *)
Lemma gone r : forall l k, (exists d, In (Del d) l /\ same d r) -> (forall a, In (Add a) l -> ~ same a r) -> ~ within r (kernel k l).
Proof.
  induction l as [|c l IH]; intros k (d & I & S) N W; [destruct I|]. change (kernel k (c :: l)) with (kernel (kernel1 k c) l) in W.
  assert (N' : forall a, In (Add a) l -> ~ same a r) by (intros a J; apply N; right; exact J).
  destruct I as [->|I]; [|apply (IH (kernel1 k c)); [exists d; auto|exact N'|exact W]]. apply comes in W as [W|(a & J & T)]; [apply del_at in W as (_ & W); contradiction|apply (N' a J T)].
Qed.
Lemma within_in r l : In r l -> within r l. Proof. intros I. exists r. split; [exact I|apply same_refl]. Qed.
Lemma metric_same a b : same a b -> metric a = metric b. Proof. unfold same. tauto. Qed.

Lemma comes_stays r : forall l k a, In (Add a) l -> same a r -> (forall d, In (Del d) l -> ~ same d r) -> within r (kernel k l).
Proof.
  induction l as [|c l IH]; intros k a I S N; [destruct I|]. change (kernel k (c :: l)) with (kernel (kernel1 k c) l). destruct I as [->|I]; [apply stays; [apply add_at; right; exact S|intros d J; apply N; right; exact J]|eapply IH; [exact I|exact S|intros d J; apply N; right; exact J]].
Qed.
Lemma sync old new r : within r (kernel old (set_kernel old new)) <-> within r new \/ (within r old /\ metric r = 99%Z).
Proof.
  assert (NoDel : within r new -> forall d, In (Del d) (set_kernel old new) -> ~ same d r). { intros W d I S. apply dels in I as (_ & _ & N). apply N. eapply within_same; [apply same_sym, S|exact W]. }
  split.
  - intros W. destruct (existsb (fun n => eqr n r) new) eqn:Q; [left; apply within_eqr, Q|]. assert (Nn : ~ within r new) by (intros X; apply within_eqr in X; congruence).
    destruct (Z.eq_dec (metric r) 99) as [M|M].
    + right. split; [|exact M]. apply comes in W as [W|(a & I & S)]; [exact W|]. apply adds in I as (I & _). elim Nn. eapply within_same; [exact S|apply within_in, I].
    + exfalso. assert (Na : forall a, In (Add a) (set_kernel old new) -> ~ same a r) by (intros a I S; apply adds in I as (I & _); apply Nn; eapply within_same; [exact S|apply within_in, I]).
      pose proof W as W'. apply comes in W' as [(x & I & S)|(a & I & S)]; [|exact (Na a I S)]. revert W. apply gone; [|exact Na]. exists x. split; [|exact S]. apply dels. split; [exact I|]. split; [rewrite (metric_same _ _ S); exact M|]. intros X. apply Nn. eapply within_same; eassumption.
  - intros [W|(W & M)].
    + destruct (existsb (fun o => eqr o r) old) eqn:Q; [apply within_eqr in Q; apply stays; [exact Q|exact (NoDel W)]|]. destruct W as (n & I & S) eqn:EW. apply comes_stays with (a := n); [|exact S|exact (NoDel W)]. apply adds. split; [exact I|]. intros X. assert (Y : within r old) by (eapply within_same; eassumption). apply within_eqr in Y. congruence.
    + apply stays; [exact W|]. intros d I S. apply dels in I as (_ & N & _). apply N. rewrite (metric_same _ _ S). exact M.
Qed.
Lemma nothing_to_do k new : (forall r, In r k -> within r new \/ metric r = 99%Z) -> (forall r, In r new -> within r k) -> set_kernel k new = [].
Proof.
  intros H1 H2. destruct (set_kernel k new) as [|[d|a] l] eqn:E; [reflexivity| |]; exfalso.
  - assert (I : In (Del d) (set_kernel k new)) by (rewrite E; left; reflexivity). apply dels in I as (I & M & W). destruct (H1 d I); contradiction.
  - assert (I : In (Add a) (set_kernel k new)) by (rewrite E; left; reflexivity). apply adds in I as (I & W). apply W, H2, I.
Qed.

Section P.
Context (num : word -> Z) (addr : word -> N) (net : word -> N * N).
Definition step (v : vars) (p : word * word) : vars :=
  let '(a, b) := p in
  if weq a (B "table") then Vars (vifc v) (vgate v) b (vmetric v) (vsrc v)
  else if weq a (B "dev") then Vars b (vgate v) (vtable v) (vmetric v) (vsrc v)
  else if weq a (B "via") then Vars (vifc v) b (vtable v) (vmetric v) (vsrc v)
  else if weq a (B "metric") then Vars (vifc v) (vgate v) (vtable v) (num b) (vsrc v)
  else if weq a (B "src") then Vars (vifc v) (vgate v) (vtable v) (vmetric v) b
  else v.
Lemma words_fold : forall n l v, (length l <= n)%nat -> words num l v = fold_left step (before_local (pairs l)) v.
Proof.
  induction n as [|n IH]; intros l v L; [destruct l; [reflexivity|cbn in L; lia]|]. destruct l as [|a [|b l]]; [reflexivity|reflexivity|]. cbn [length] in L. cbn [words pairs before_local].
  destruct (weq a (B "table")) eqn:T; cbn [andb].
  - destruct (weq b (B "local")); [reflexivity|]. cbn [fold_left step]. rewrite T. apply IH. lia.
  - cbn [fold_left step]. rewrite T. repeat match goal with |- context [if weq a ?k then _ else _] => destruct (weq a k) end; apply IH; lia.
Qed.
Definition lastv {X} (g : word -> X) (k : word) (l : list (word * word)) (x : X) : X := fold_left (fun v p => if weq (fst p) k then g (snd p) else v) l x.
Lemma lastv_value {X} (g : word -> X) k x : forall l, lastv g k l x = match value k l with Some w => g w | None => x end.
Proof. induction l as [|p l IH] using rev_ind; [reflexivity|]. unfold lastv, value in *. rewrite !fold_left_app. cbn [fold_left]. destruct (weq (fst p) k); [reflexivity|exact IH]. Qed.
Lemma fields : forall l v, let w := fold_left step l v in
  vifc w = lastv (fun b => b) (B "dev") l (vifc v) /\ vgate w = lastv (fun b => b) (B "via") l (vgate v) /\ vtable w = lastv (fun b => b) (B "table") l (vtable v) /\ vmetric w = lastv num (B "metric") l (vmetric v) /\ vsrc w = lastv (fun b => b) (B "src") l (vsrc v).
Proof.
  induction l as [|(a & b) l IH]; intros v; cbv zeta; [repeat split|]. cbn [fold_left]. specialize (IH (step v (a, b))). cbv zeta in IH. unfold lastv in *. cbn [fold_left fst snd]. destruct IH as (E1 & E2 & E3 & E4 & E5). rewrite E1, E2, E3, E4, E5. clear. cbn [step].
  destruct (weq a (B "table")) eqn:T; [apply weq_eq in T; subst a; repeat split|]. destruct (weq a (B "dev")) eqn:T1; [apply weq_eq in T1; subst a; repeat split|]. destruct (weq a (B "via")) eqn:T2; [apply weq_eq in T2; subst a; repeat split|]. destruct (weq a (B "metric")) eqn:T3; [apply weq_eq in T3; subst a; repeat split|]. destruct (weq a (B "src")) eqn:T4; repeat split.
Qed.
Definition nosrc (r : route) : route := Route (ifc r) (network r) (netmask r) (gateway r) (metric r) (table r) None.
Definition each (l : list word) : list route := match on_line num addr net l with Some r => [r] | None => [] end.
Lemma policy_lines : forall lines s, map nosrc (policy num addr net lines s) = map nosrc (flat_map each lines).
Proof.
  induction lines as [|l lines IH]; intros s; [reflexivity|]. cbn [policy flat_map]. destruct l as [|first rest]; [apply IH|]. unfold each at 1. cbn [on_line]. change (length (first :: rest)) with (S (length rest)). destruct (Nat.ltb (S (length rest)) 3); cbn [orb]; [apply IH|]. destruct (weq first (B "broadcast")); cbn [orb]; [apply IH|]. destruct (weq first (B "local")); cbn [orb]; [apply IH|].
  rewrite (words_fold (length rest) rest _ (le_n _)). set (kv := before_local (pairs rest)). pose proof (fields kv (Vars [] [] [] 0%Z s)) as F. cbv zeta in F. destruct F as (E1 & E2 & E3 & E4 & E5). set (w := fold_left step kv _) in *. rewrite lastv_value in E1. rewrite lastv_value in E2. rewrite lastv_value in E3. rewrite lastv_value in E4. cbn [vifc vgate vtable vmetric] in E1, E2, E3, E4.
  fold (text (value (B "dev") kv)) in E1. fold (text (value (B "via") kv)) in E2. fold (text (value (B "table") kv)) in E3. rewrite E1, E2, E3, E4.
  destruct (weq (text (value (B "table") kv)) []); cbn [orb]; [apply IH|]. destruct (weq (text (value (B "dev") kv)) []); [apply IH|]. cbn [map app]. rewrite IH. reflexivity.
Qed.
Lemma policy_src : forall lines s, (forall l, In l lines -> exists w, w <> [] /\ value (B "src") (before_local (pairs (tl l))) = Some w) -> policy num addr net lines s = flat_map each lines.
Proof.
  induction lines as [|l lines IH]; intros s H; [reflexivity|]. assert (H' : forall l, In l lines -> exists w, w <> [] /\ value (B "src") (before_local (pairs (tl l))) = Some w) by (intros m I; apply H; right; exact I). cbn [policy flat_map]. destruct l as [|first rest]; [apply IH, H'|]. destruct (H (first :: rest) (or_introl eq_refl)) as (x & Nx & Vx). cbn [tl] in Vx. unfold each at 1. cbn [on_line]. change (length (first :: rest)) with (S (length rest)). destruct (Nat.ltb (S (length rest)) 3); cbn [orb]; [apply IH, H'|]. destruct (weq first (B "broadcast")); cbn [orb]; [apply IH, H'|]. destruct (weq first (B "local")); cbn [orb]; [apply IH, H'|].
  rewrite (words_fold (length rest) rest _ (le_n _)). set (kv := before_local (pairs rest)) in *. pose proof (fields kv (Vars [] [] [] 0%Z s)) as F. cbv zeta in F. destruct F as (E1 & E2 & E3 & E4 & E5). set (w := fold_left step kv _) in *. rewrite lastv_value in E1. rewrite lastv_value in E2. rewrite lastv_value in E3. rewrite lastv_value in E4. rewrite lastv_value, Vx in E5. cbn [vifc vgate vtable vmetric] in E1, E2, E3, E4.
  fold (text (value (B "dev") kv)) in E1. fold (text (value (B "via") kv)) in E2. fold (text (value (B "table") kv)) in E3. rewrite E1, E2, E3, E4, E5, Vx.
  destruct (weq (text (value (B "table") kv)) []); cbn [orb]; [apply IH, H'|]. destruct (weq (text (value (B "dev") kv)) []); [apply IH, H'|]. cbn [app]. rewrite IH by exact H'. destruct (weq x []) eqn:Wx; [apply weq_eq in Wx; contradiction|]. destruct x; [contradiction|reflexivity].
Qed.
End P.
