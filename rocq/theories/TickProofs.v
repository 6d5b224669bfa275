(** Proofs about WvTimeStream. *)
From Verif Require Import Base TimeModel TimeSpec TimeProofs TimeProps AlarmSpec TickSpec TickModel.
Local Open Scope Z_scope.

Lemma clock_sane t : clock t -> sane t.
Proof. intros [_ H]. unfold sane. lia. Qed.

Lemma time_le_ok a b : sane a -> normal a -> sane b -> normal b -> time_le a b = Ok (us a <=? us b).
Proof. intros. unfold time_le. rewrite !to_ll_ok by assumption. reflexivity. Qed.

(** [gap] microseconds from the last look to the next tick. *)
Definition st (t : wvtime) (ms gap : Z) (s : ticker) : Prop :=
  last s = t /\ clock t /\ ms_per_tick s = ms /\ normal (next s) /\ us (next s) = us t + gap /\ - 2 ^ 52 <= gap <= 2 ^ 52.

Lemma next_sane t ms gap s : st t ms gap s -> - 2 ^ 42 <= sec (next s) <= 2 ^ 43.
Proof. intros (_ & (N1 & C) & _ & N & U & G). unfold normal, us in *. lia. Qed.

Lemma pre_ok t ms gap s u timeout : st t ms gap s -> 0 < ms -> clock u -> - 2 ^ 51 <= gap -> Z.max 0 (us u - us t) <= 2 ^ 51 ->
  let gap' := gap - Z.max 0 (us u - us t) in
  exists s' m, pre_select u timeout s = Ok (s', m) /\ st u ms gap' s' /\
    (gap' <= 0 -> m = 0) /\
    (0 < gap' -> exists d, 0 <= d /\ 1000 * d < gap' + 1000 /\ m = if timeout <? 0 then d else Z.min d timeout).
Proof.
  intros S M CU G1 G2 gap'. pose proof (next_sane _ _ _ _ S) as NS. destruct S as (L & CT & E & N & U & G). unfold pre_select.
  rewrite E. destruct (Z.eqb_spec ms 0); [lia|]. rewrite L.
  rewrite C43_order; [|apply clock_sane; exact CU|apply CU|apply clock_sane; exact CT|apply CT]. cbn [bind].
  assert (X : exists a, (if us u <? us t then let! d := tvdiff t u in tvdiff (next s) d else Ok (next s)) = Ok a /\ normal a /\ us a = us u + gap').
  { destruct (Z.ltb_spec (us u) (us t)) as [Q|Q].
    - destruct (C43_tvdiff t u) as (c & C & NC & UC); [apply CT|apply CU|destruct CT; lia|destruct CU; lia|]. rewrite C. cbn [bind].
      destruct (C43_tvdiff (next s) c N NC) as (a & A & NA & UA); [lia|destruct CT, CU; unfold us, normal in *; lia|].
      exists a. split; [exact A|]. split; [exact NA|]. unfold gap'. lia.
    - exists (next s). split; [reflexivity|]. split; [exact N|]. unfold gap'. lia. }
  destruct X as (a & X & NA & UA). rewrite X. cbn [bind].
  assert (S' : st u ms gap' (Ticker u a ms)).
  { unfold st. cbn [last next ms_per_tick]. split; [reflexivity|]. split; [exact CU|]. split; [reflexivity|]. split; [exact NA|]. split; [exact UA|]. unfold gap'. lia. }
  pose proof (next_sane _ _ _ _ S') as NS'. cbn [next] in NS'.
  rewrite time_le_ok; [|unfold sane; lia|exact NA|apply clock_sane; exact CU|apply CU]. cbn [bind].
  destruct (Z.leb_spec (us a) (us u)) as [Q|Q].
  - exists (Ticker u a ms), 0. split; [reflexivity|]. split; [exact S'|]. split; [reflexivity|]. lia.
  - destruct (C43_msecdiff_partial a u NA) as (m & e & MM & ME & EB & _); [apply CU|lia|destruct CU; lia|]. rewrite MM. cbn [bind].
    eexists _, _. split; [reflexivity|]. split; [exact S'|]. split; [lia|]. intros P.
    exists (if m <? 0 then 0 else m). unfold int_max, int_min in *. set (d := if m <? 0 then 0 else m).
    assert (D : 0 <= d /\ 1000 * d < gap' + 1000) by (unfold d; destruct (Z.ltb_spec m 0); lia).
    split; [lia|]. split; [lia|]. destruct (Z.ltb_spec timeout 0); destruct (Z.ltb_spec d timeout); cbn [orb]; lia.
Qed.

Lemma execute_ok t ms gap s : st t ms gap s -> 0 < ms <= 2 ^ 30 -> gap <= 0 -> - (100 * (ms * 1000)) <= gap ->
  exists s', execute t false s = Ok s' /\ st t ms (gap + ms * 1000) s'.
Proof.
  intros S M G1 G2. pose proof (next_sane _ _ _ _ S) as NS. destruct S as (L & CT & E & N & U & G). unfold execute. rewrite E.
  destruct (C43_msecadd (next s) ms N) as (n & A & NN & UN); [lia|lia|]. rewrite A. cbn [bind].
  assert (SN : - 2 ^ 45 <= sec n <= 2 ^ 45) by (destruct CT; unfold us, normal in *; lia).
  destruct (C43_msecdiff_partial n t NN) as (m1 & e1 & M1 & ME1 & EB1 & _); [apply CT|lia|destruct CT; lia|]. rewrite M1. cbn [bind].
  destruct (C43_msecdiff_partial t n) as (m2 & e2 & M2 & ME2 & EB2 & _); [apply CT|exact NN|destruct CT; lia|lia|]. rewrite M2. cbn [bind].
  rewrite i64_ok by lia. cbn [bind]. unfold int_max, int_min in *.
  destruct (Z.ltb_spec (ms * 100) m1); [lia|]. destruct (Z.ltb_spec (ms * 100) m2); [lia|]. cbn [orb].
  rewrite i64_ok by lia. cbn [bind]. destruct (Z.ltb_spec (ms * 10) m1); [lia|].
  eexists. split; [reflexivity|]. unfold st. cbn [last next ms_per_tick]. split; [exact L|]. split; [exact CT|]. split; [reflexivity|].
  split; [exact NN|]. split; [lia|]. lia.
Qed.

(** Far too late. *)
Lemma execute_reset t ms gap s : st t ms gap s -> 0 < ms <= 2 ^ 20 -> - 2 ^ 40 <= gap <= - (102 * (ms * 1000)) ->
  exists s', execute t false s = Ok s' /\ st t ms (ms * 1000) s'.
Proof.
  intros S M G1. pose proof (next_sane _ _ _ _ S) as NS. destruct S as (L & CT & E & N & U & G). unfold execute. rewrite E.
  destruct (C43_msecadd (next s) ms N) as (n & A & NN & UN); [lia|lia|]. rewrite A. cbn [bind].
  assert (SN : - 2 ^ 45 <= sec n <= 2 ^ 45) by (destruct CT; unfold us, normal in *; lia).
  destruct (C43_msecdiff_partial n t NN) as (m1 & e1 & M1 & ME1 & EB1 & _); [apply CT|lia|destruct CT; lia|]. rewrite M1. cbn [bind].
  destruct (C43_msecdiff_partial t n) as (m2 & e2 & M2 & ME2 & EB2 & _); [apply CT|exact NN|destruct CT; lia|lia|]. rewrite M2. cbn [bind].
  rewrite i64_ok by lia. cbn [bind]. unfold int_max, int_min in *.
  destruct (Z.ltb_spec (ms * 100) m2); [|lia]. rewrite orb_true_r.
  destruct (C43_msecadd t ms) as (n' & A' & NN' & UN'); [apply CT|destruct CT; lia|lia|]. rewrite A'. cbn [bind].
  eexists. split; [reflexivity|]. unfold st. cbn [last next ms_per_tick]. split; [reflexivity|]. split; [exact CT|]. split; [reflexivity|].
  split; [exact NN'|]. split; [lia|]. lia.
Qed.

Lemma post_ok t ms gap s : st t ms gap s -> 0 < ms -> post_select t s = Ok (gap <=? 0).
Proof.
  intros S M. pose proof (next_sane _ _ _ _ S) as NS. destruct S as (L & CT & E & N & U & G). unfold post_select. rewrite E.
  destruct (Z.eqb_spec ms 0); [lia|]. rewrite time_le_ok; [|unfold sane; lia|exact N|apply clock_sane; exact CT|apply CT].
  f_equal. rewrite U. destruct (Z.leb_spec gap 0); destruct (Z.leb_spec (us t + gap) (us t)); lia.
Qed.

Lemma rounds_ok ms ts : 0 < ms <= 2 ^ 30 -> forall t v due s, st t ms (due - v) s -> due - v <= ms * 1000 ->
  - (100 * (ms * 1000)) <= due - v -> Forall clock ts ->
  in_time (ms * 1000) due (elapsed v t ts) ->
  exists s', rounds ts s = Ok (s', ticks (ms * 1000) due (elapsed v t ts)).
Proof.
  intros M. induction ts as [|u ts IH]; intros t v due s S G0 G1 F I; cbn [rounds elapsed ticks in_time] in *; [eauto|].
  inversion F as [|? ? CU F']; subst. destruct I as [I1 I2]. set (v' := v + Z.max 0 (us u - us t)) in *.
  assert (V : Z.max 0 (us u - us t) <= 2 ^ 51) by lia.
  unfold round. destruct (pre_ok t ms (due - v) s u (-1) S ltac:(lia) CU ltac:(lia) V) as (s1 & m & P & S1 & _).
  replace (due - v - Z.max 0 (us u - us t)) with (due - v') in S1 by (unfold v'; lia). rewrite P. cbn [bind].
  rewrite (post_ok u ms (due - v') s1 S1) by lia. cbn [bind].
  assert (EQ : (due - v' <=? 0) = (due <=? v')) by (destruct (Z.leb_spec (due - v') 0); destruct (Z.leb_spec due v'); lia).
  rewrite EQ. destruct (Z.leb_spec due v') as [Q|Q].
  - destruct (execute_ok u ms (due - v') s1 S1 ltac:(lia) ltac:(lia) ltac:(lia)) as (s2 & E & S2). rewrite E. cbn [bind].
    destruct (IH u v' (due + ms * 1000) s2) as (s3 & R); [|lia|lia|exact F'|exact I2|rewrite R; cbn [bind]; eauto].
    replace (due + ms * 1000 - v') with (due - v' + ms * 1000) by lia. exact S2.
  - cbn [bind]. destruct (IH u v' due s1 S1) as (s3 & R); [lia|lia|exact F'|exact I2|]. rewrite R. cbn [bind]. eauto.
Qed.

(** The timer as such. *)
Lemma ticks_count p ts : 0 < p -> forall t v due, due - p <= v ->
  let bs := ticks p due (elapsed v t ts) in let V := List.last (elapsed v t ts) v in
  v <= V /\ due + p * (count bs - 1) <= V /\ (List.last bs true = false -> V < due + p * count bs).
Proof.
  intros P. induction ts as [|u ts IH]; intros t v due D; cbn [elapsed ticks].
  - cbn. lia.
  - set (v' := v + Z.max 0 (us u - us t)).
    assert (L : forall l d, List.last (v' :: l) d = List.last l v') by (intros [|x l] d; [reflexivity|]; cbn [List.last]; revert x; induction l as [|y l IHl]; intros x; [reflexivity|apply IHl]).
    rewrite L.
    assert (LB : forall l (b : bool), List.last (b :: l) true = false -> (l = [] /\ b = false) \/ List.last l true = false).
    { intros [|x l] b; cbn [List.last]; [left; auto|right; auto]. }
    destruct (Z.leb_spec due v') as [Q|Q].
    + destruct (IH u v' (due + p)) as (A & B & C); [lia|]. unfold count in *. cbn [filter length].
      rewrite Nat2Z.inj_succ. split; [lia|]. split; [lia|].
      intros H. destruct (LB _ _ H) as [[E F]|E]; [discriminate|]. specialize (C E). lia.
    + destruct (IH u v' due) as (A & B & C); [lia|]. unfold count in *. cbn [filter]. split; [lia|]. split; [lia|].
      intros H. destruct (LB _ _ H) as [[E F]|E]; [|exact (C E)]. rewrite E. cbn.
      destruct ts as [|w ts]; [cbn; lia|discriminate].
Qed.

Lemma elapsed_passed ts : forall v t, List.last (elapsed v t ts) v = v + passed t ts.
Proof.
  induction ts as [|u ts IH]; intros v t; cbn [elapsed passed]; [cbn; lia|].
  assert (L : forall x l d, List.last (x :: l) d = List.last l x :> Z).
  { intros x l d. revert x. induction l as [|y l IHl]; intros x; [reflexivity|]. cbn [List.last] in *. destruct l; [reflexivity|]. exact (IHl x). }
  rewrite L, IH. lia.
Qed.

Lemma set_ok t ms : clock t -> 0 < ms <= 2 ^ 30 -> exists s, set_timer t ms = Ok s /\ st t ms (ms * 1000) s.
Proof.
  intros C M. unfold set_timer. destruct (Z.ltb_spec 0 ms); [|lia].
  destruct (C43_msecadd t ms) as (n & A & N & U); [apply C|destruct C; lia|lia|]. rewrite A. cbn [bind]. eexists. split; [reflexivity|].
  unfold st. cbn [last next ms_per_tick]. split; [reflexivity|]. split; [exact C|]. split; [reflexivity|]. split; [exact N|]. split; [lia|lia].
Qed.
