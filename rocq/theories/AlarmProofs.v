(** Proofs about alarms. *)
From Verif Require Import Base TimeModel TimeSpec TimeProofs TimeProps AlarmSpec AlarmModel.
Local Open Scope Z_scope.

Lemma clock_sane t : clock t -> sane t.
Proof. intros [_ H]. unfold sane. lia. Qed.

(** The alarm is set, the last look was at [t] (or earlier and the alarm was set
    at [t]), and [d] microseconds are left. *)
Definition due (t : wvtime) (d : Z) (s : alarms) : Prop :=
  normal (alarm_time s) /\ us (alarm_time s) = us t + d /\ 0 <= d /\ us (last_check s) <= us t /\ normal (last_check s) /\ sane (last_check s) /\ clock t /\
  sec (alarm_time s) <= 2 ^ 43.

Lemma left_pos t d s : due t d s -> 1 <= sec (alarm_time s).
Proof. intros (N & U & D & _ & _ & _ & [C1 C2] & _). unfold normal, us in *. lia. Qed.

(** A look in time: what is left goes down by what has passed. *)
Lemma remaining_left t d s u : due t d s -> clock u -> (us u < us t -> last_check s = t) -> Z.max 0 (us u - us t) <= d ->
  exists s' r, remaining u s = Ok (s', r) /\ due u (d - Z.max 0 (us u - us t)) s' /\ last_check s' = u /\ ticking s' = ticking s /\
    0 <= r /\ (r < int_max -> Z.abs (1000 * r - (d - Z.max 0 (us u - us t))) < 1000) /\ 1000 * r < d - Z.max 0 (us u - us t) + 1000.
Proof.
  intros L CU FB LE. pose proof (left_pos t d s L) as PS. destruct L as (N & U & D & LC & NL & SL & CT & SA).
  assert (NU := proj1 CU). assert (NT := proj1 CT). unfold remaining. destruct (Z.eqb_spec (sec (alarm_time s)) 0); [lia|].
  rewrite C43_order; [|apply clock_sane; exact CU|exact NU|exact SL|exact NL]. cbn [bind].
  assert (X : exists a, (if us u <? us (last_check s) then let! d := tvdiff (last_check s) u in tvdiff (alarm_time s) d else Ok (alarm_time s)) = Ok a /\
     normal a /\ us a = us u + (d - Z.max 0 (us u - us t))).
  { destruct (Z.ltb_spec (us u) (us (last_check s))) as [Q|Q].
    - assert (E : last_check s = t) by (apply FB; lia). rewrite E in *.
      destruct (C43_tvdiff t u NT NU) as (c & C & NC & UC); [destruct CT; lia|destruct CU; lia|]. rewrite C. cbn [bind].
      destruct (C43_tvdiff (alarm_time s) c N NC) as (a & A & NA & UA); [lia|unfold us, normal in *; destruct CT, CU; lia|].
      exists a. split; [exact A|]. split; [exact NA|]. lia.
    - exists (alarm_time s). split; [reflexivity|]. split; [exact N|].
      destruct (Z_lt_ge_dec (us u) (us t)) as [Z|Z]; [rewrite (FB Z) in Q; lia|]. lia. }
  destruct X as (a & X & NA & UA). rewrite X. cbn [bind].
  set (d' := d - Z.max 0 (us u - us t)) in *.
  assert (SEC : 1 <= sec a <= 2 ^ 43 + 2 ^ 43) by (unfold us, normal in *; destruct CT, CU; lia).
  assert (SEC2 : sec a <= 2 ^ 43).
  { destruct (Z_lt_ge_dec (us u) (us t)); unfold us, normal in *; lia. }
  destruct (C43_msecdiff_partial a u NA NU) as (m & e & M & ME & EB & _); [lia|destruct CU; lia|]. rewrite M. cbn [bind].
  exists (Alarms a u (ticking s)), (if m <? 0 then 0 else m). split; [reflexivity|].
  split.
  { unfold due. cbn [alarm_time last_check]. split; [exact NA|]. split; [exact UA|]. split; [lia|]. split; [lia|]. split; [exact NU|]. split; [apply clock_sane; exact CU|]. split; [exact CU|exact SEC2]. }
  split; [reflexivity|]. split; [reflexivity|]. unfold int_max, int_min in *. destruct (Z.ltb_spec m 0); lia.
Qed.

(** A look when it is over. *)
Lemma remaining_over t d s u : due t d s -> clock u -> us t + d <= us u -> 
  exists s', remaining u s = Ok (s', 0) /\ last_check s' = u /\ alarm_time s' = alarm_time s /\ ticking s' = ticking s.
Proof.
  intros L CU GE. pose proof (left_pos t d s L) as PS. destruct L as (N & U & D & LC & NL & SL & CT & SA).
  assert (NU := proj1 CU). assert (NT := proj1 CT). unfold remaining. destruct (Z.eqb_spec (sec (alarm_time s)) 0); [lia|].
  rewrite C43_order; [|apply clock_sane; exact CU|exact NU|exact SL|exact NL]. cbn [bind].
  destruct (Z.ltb_spec (us u) (us (last_check s))) as [Q|Q]; [lia|]. cbn [bind].
  destruct (C43_msecdiff_partial (alarm_time s) u N NU) as (m & e & M & ME & EB & _); [lia|destruct CU; lia|]. rewrite M. cbn [bind].
  exists (Alarms (alarm_time s) u (ticking s)). split; [|cbn; auto]. unfold int_max, int_min in *. destruct (Z.ltb_spec m 0); [reflexivity|]. do 2 f_equal. lia.
Qed.

(** Looking again at the same time. *)
Lemma remaining_again s u s' r : clock u -> sec (alarm_time s) <> 0 -> sec (alarm_time s') <> 0 -> remaining u s = Ok (s', r) ->
  remaining u s' = Ok (s', r).
Proof.
  intros C N N' R. unfold remaining in R. destruct (Z.eqb_spec (sec (alarm_time s)) 0); [contradiction|].
  destruct (time_lt u (last_check s)) as [b| |]; cbn [bind] in R; try discriminate.
  destruct (if b then _ else _) as [a| |]; cbn [bind] in R; try discriminate.
  destruct (msecdiff a u) as [m| |] eqn:M; cbn [bind] in R; try discriminate. injection R as <- <-.
  unfold remaining. cbn [alarm_time last_check ticking] in *. destruct (Z.eqb_spec (sec a) 0); [contradiction|].
  rewrite C43_order; [|apply clock_sane; exact C|apply C|apply clock_sane; exact C|apply C]. cbn [bind]. rewrite Z.ltb_irrefl. cbn [bind].
  rewrite M. reflexivity.
Qed.

Lemma checks_app ts1 ts2 s : checks (ts1 ++ ts2) s = let! (s1, r1) := checks ts1 s in let! (s2, r2) := checks ts2 s1 in Ok (s2, r1 ++ r2).
Proof.
  revert s. induction ts1 as [|t ts1 IH]; intros s; cbn [checks app bind].
  - destruct (checks ts2 s) as [[? ?]| |]; reflexivity.
  - destruct (remaining t s) as [[s1 r1]| |]; cbn [bind]; try reflexivity. rewrite IH.
    destruct (checks ts1 s1) as [[s2 r2]| |]; cbn [bind]; try reflexivity. destruct (checks ts2 s2) as [[? ?]| |]; reflexivity.
Qed.

Lemma passed_nonneg ts : forall t, 0 <= passed t ts.
Proof. induction ts as [|u ts IH]; intros t; cbn; [lia|]. specialize (IH u). lia. Qed.

Lemma last_cons {A} (l : list A) a d : last (a :: l) d = last l a.
Proof. revert a d. induction l as [|b l IH]; intros a d; [reflexivity|]. change (last (a :: b :: l) d) with (last (b :: l) d). rewrite (IH b d), (IH b a). reflexivity. Qed.

(** Looks at any times, the clock set back or not. *)
Lemma checks_left ts : forall t d s, due t d s -> last_check s = t -> Forall clock ts -> passed t ts <= d ->
  exists s' rs, checks ts s = Ok (s', rs) /\ due (last ts t) (d - passed t ts) s' /\ last_check s' = last ts t /\ ticking s' = ticking s /\
    length rs = length ts /\
    (forall i r, nth_error rs i = Some r -> 0 <= r /\ (r < int_max -> Z.abs (1000 * r - (d - passed t (firstn (S i) ts))) < 1000)).
Proof.
  induction ts as [|u ts IH]; intros t d s L E F P; cbn [checks passed] in *.
  - exists s, []. split; [reflexivity|]. rewrite Z.sub_0_r. split; [exact L|]. split; [exact E|]. split; [reflexivity|]. split; [reflexivity|].
    intros [|i] r H; discriminate.
  - inversion F as [|? ? CU F']; subst. pose proof (passed_nonneg ts u) as PN.
    destruct (remaining_left (last_check s) d s u L CU (fun _ => eq_refl)) as (s1 & r & R & L1 & C1 & T1 & R1 & R2 & _); [lia|].
    rewrite R. cbn [bind]. destruct (IH u _ s1 L1 C1 F' ltac:(lia)) as (s2 & rs & S & L2 & C2 & T2 & LR & N).
    rewrite S. cbn [bind]. exists s2, (r :: rs). split; [reflexivity|]. rewrite last_cons.
    split; [replace (d - (Z.max 0 (us u - us (last_check s)) + passed u ts)) with (d - Z.max 0 (us u - us (last_check s)) - passed u ts) by lia; exact L2|].
    split; [exact C2|]. split; [congruence|]. split; [cbn; lia|]. intros [|i] r' H; cbn [nth_error] in H.
    + injection H as <-. split; [exact R1|]. intros Q. specialize (R2 Q). cbn [firstn passed]. lia.
    + destruct (N i r' H) as [N1 N2]. split; [exact N1|]. intros Q. specialize (N2 Q). cbn [firstn passed] in *. lia.
Qed.

Lemma no_alarm now s : alarm_time s = zero -> remaining now s = Ok (s, -1).
Proof. intros E. unfold remaining. rewrite E. reflexivity. Qed.

Lemma no_callbacks ts : forall s, alarm_time s = zero -> exists s', callbacks ts s = Ok (s', repeat false (length ts)) /\ alarm_time s' = zero.
Proof.
  induction ts as [|t ts IH]; intros s E; cbn [callbacks repeat length]; [eauto|].
  unfold callback. rewrite (no_alarm t s E). cbn [bind Z.eqb]. change (-1 =? 0) with false. cbv iota. cbn [ticking].
  destruct (IH (Alarms (alarm_time s) (last_check s) false) E) as (s' & C & Z). rewrite C. cbn [bind]. eauto.
Qed.
