(** VMS and MS-DOS listings. *)
From Verif Require Import Base FtpModel FtpSpec FtpDates FtpProofs FtpTrips FtpUnix.
Local Open Scope Z_scope.
Local Open Scope list_scope.

Lemma scan_at p l w : forall pre c post n, l = pre ++ w ++ c :: post ->
  Forall (fun x => p x = true) w -> p c = false -> (length w < n)%nat ->
  scan p l n (length pre) = Ret (Some (length pre + length w)%nat).
Proof.
  induction w as [|x w IH]; intros pre c post n El Hw Hc Hn;
    (destruct n as [|n]; [cbn [length] in Hn; lia|]); cbn [scan length] in *.
  - rewrite (rd_at' l pre c post) by auto. cbn [obind]. rewrite Hc. do 2 f_equal. lia.
  - rewrite (rd_at' l pre x (w ++ c :: post)) by auto. cbn [obind].
    inversion Hw; subst x0 l0. rewrite H1.
    destruct (Nat.eqb_spec (S (length pre)) (length l)) as [E|_].
    { rewrite El, app_length in E. cbn [length app] in E. rewrite app_length in E.
      cbn [length] in E. lia. }
    specialize (IH (pre ++ [x]) c post n). rewrite app_length in IH. cbn [length] in IH.
    replace (S (length pre)) with (length pre + 1)%nat by lia.
    rewrite IH; auto; [do 2 f_equal; lia| |lia]. rewrite <- app_assoc. exact El.
Qed.

Lemma past_at {A} p l pre w c post i (f : nat -> out (option A)) :
  l = pre ++ w ++ c :: post -> i = length pre -> Forall (fun x => p x = true) w -> p c = false ->
  past p l i f = f (length (pre ++ w)).
Proof.
  intros El -> Hw Hc. unfold past. rewrite (scan_at p l w pre c post); auto.
  - cbn [obind]. rewrite app_length. reflexivity.
  - rewrite El, !app_length. lia.
Qed.

Lemma semi_at l w : forall pre c post n, l = pre ++ w ++ c :: post ->
  ~ In ";"%char w -> c = ";"%char -> n = (length l - length pre)%nat ->
  semi l n (length pre) = Ret (length pre + length w)%nat.
Proof.
  induction w as [|x w IH]; intros pre c post n El Hw Hc Hn; cbn [length app] in *.
  - assert (exists n', n = S n') as [n' ->].
    { destruct n; [|eauto]. rewrite El, app_length in Hn. cbn [length] in Hn. lia. }
    cbn [semi]. rewrite (rd_at' l pre c post) by auto. cbn [obind]. subst c.
    change (is ";" ";") with true. cbv iota. f_equal. lia.
  - assert (exists n', n = S n') as [n' ->].
    { destruct n; [|eauto]. rewrite El, app_length in Hn. cbn [length] in Hn. lia. }
    cbn [semi]. rewrite (rd_at' l pre x (w ++ c :: post)) by auto. cbn [obind is].
    destruct (Ascii.eqb_spec x ";") as [->|_]; [destruct Hw; left; reflexivity|].
    specialize (IH (pre ++ [x]) c post n'). rewrite app_length in IH. cbn [length] in IH.
    replace (S (length pre)) with (length pre + 1)%nat by lia.
    rewrite IH; auto; [f_equal; lia| | |].
    + rewrite <- app_assoc. exact El.
    + intros X. apply Hw. right. exact X.
    + lia.
Qed.

Lemma semi_none l w : forall pre n, l = pre ++ w -> ~ In ";"%char w ->
  n = (length l - length pre)%nat -> semi l n (length pre) = Ret (length l).
Proof.
  induction w as [|x w IH]; intros pre n El Hw Hn.
  - rewrite app_nil_r in El. subst. rewrite Nat.sub_diag. reflexivity.
  - assert (n = S (length w)) as ->.
    { subst. rewrite app_length. cbn [length]. lia. }
    cbn [semi]. rewrite (rd_at' l pre x w) by auto. cbn [obind is].
    destruct (Ascii.eqb_spec x ";") as [->|_]; [destruct Hw; left; reflexivity|].
    replace (S (length pre)) with (length (pre ++ [x])) by (rewrite app_length; cbn [length]; lia).
    apply IH.
    + rewrite <- app_assoc. exact El.
    + intros X. apply Hw. right. exact X.
    + rewrite El, !app_length. cbn [length]. lia.
Qed.

Lemma gap_is g : Forall (fun x => is " " x = true) (gap g).
Proof. apply Forall_forall. intros x H. apply repeat_spec in H. subst. reflexivity. Qed.

Lemma word_isnt w : ~ In space w -> Forall (fun x => isnt " " x = true) w.
Proof.
  intros H. apply Forall_forall. intros x Hx. unfold isnt. rewrite not_space; [reflexivity|].
  intros ->. contradiction.
Qed.

Lemma digits_isnt c w : (forall d, digit d -> isnt c d = true) -> Forall digit w ->
  Forall (fun x => isnt c x = true) w.
Proof. intros H Hw. eapply Forall_impl; [|exact Hw]. exact H. Qed.

Ltac dig := let H := fresh in let E := fresh in
  intros ? H; unfold isnt; cbn [is];
  match goal with |- context [Ascii.eqb ?a ?b] => destruct (Ascii.eqb_spec a b) as [E|E] end;
  [subst; unfold digit in H; cbn in H; lia|reflexivity].

Lemma dash d : digit d -> isnt "-" d = true. Proof. revert d. dig. Qed.
Lemma colon d : digit d -> isnt ":" d = true. Proof. revert d. dig. Qed.
Lemma blank d : digit d -> isnt " " d = true. Proof. revert d. dig. Qed.
Lemma noA d : digit d -> isnt "A" d = true. Proof. revert d. dig. Qed.
Lemma noP d : digit d -> isnt "P" d = true. Proof. revert d. dig. Qed.

Lemma num_at l pre w post k n b : l = pre ++ w ++ post -> k = length pre -> n = length w ->
  number b w -> b <= 2 ^ 63 -> getlong l k n = Ret (value w).
Proof.
  intros El Hk Hn Hw Hb. rewrite (getlong_gl l pre w post) by auto. eapply gl_number; eauto.
Qed.

Lemma len_sub (pre w : bytes) : (length (pre ++ w) - length pre)%nat = length w.
Proof. rewrite app_length. lia. Qed.

Lemma month_letters mon m : names_month mon m -> mon <> [] /\ ~ In "-"%char mon.
Proof.
  intros [Hm Hn]. apply nth_error_In in Hn. split.
  - intros ->. cbn in Hn. repeat (destruct Hn as [Hn|Hn]; [discriminate Hn|]). exact Hn.
  - intros X. apply (in_map upper) in X. change (upper "-") with "-"%char in X.
    assert (F : forallb (fun w => forallb (fun c => negb (Ascii.eqb c "-")) w) month_names = true)
      by reflexivity.
    rewrite forallb_forall in F. specialize (F _ Hn). rewrite forallb_forall in F.
    specialize (F _ X). discriminate F.
Qed.

Lemma vms_dates name ver g1 blocks g2 day mon year g3 hour minute e rest m f l :
  l = vms_line name ver g1 blocks g2 day mon year g3 hour minute (e :: rest) ->
  ~ In space ver -> word blocks -> number (10 ^ 6) day -> names_month mon m ->
  number (10 ^ 10) year -> number (10 ^ 6) hour -> number (10 ^ 6) minute ->
  e = space \/ e = ":"%char -> date (value year) m (value day) ->
  dotdir l (length name) = Ret f ->
  vms l (length name) = Ret (Some (set_time MMinute
    (unixtime (value year) m (value day) + (3600 * value hour + 60 * value minute))
    (if (f : bool) then set_cwd (set_name 0 (length name - 4) fp0)
     else set_retr (set_name 0 (length name) fp0)))).
Proof.
  intros El Hver [Hb1 Hb2] Hday Hmon Hyear Hhour Hmin He Hdate Hdot.
  unfold vms. rewrite Hdot. cbn [obind]. set (F := if f then _ else _). clearbody F. clear Hdot.
  destruct (month_letters _ _ Hmon) as [Mne Mdash].
  pose proof (proj1 Hday) as Dne. pose proof (proj1 Hyear) as Yne. pose proof (proj1 Hhour) as Hne.
  pose proof (proj1 Hmin) as Ine.
  pose proof (proj1 (proj2 Hday)) as Dd. pose proof (proj1 (proj2 Hyear)) as Yd.
  pose proof (proj1 (proj2 Hhour)) as Hd. pose proof (proj1 (proj2 Hmin)) as Id.
  assert (HD : exists x r, day = x :: r /\ digit x) by (destruct day; [congruence|inversion Dd; eauto]).
  assert (HY : exists x r, year = x :: r /\ digit x) by (destruct year; [congruence|inversion Yd; eauto]).
  assert (HH : exists x r, hour = x :: r /\ digit x) by (destruct hour; [congruence|inversion Hd; eauto]).
  assert (HI : exists x r, minute = x :: r /\ digit x) by (destruct minute; [congruence|inversion Id; eauto]).
  assert (HB : exists x r, blocks = x :: r /\ x <> space).
  { destruct blocks; [congruence|]. do 2 eexists. split; [reflexivity|]. intros ->. apply Hb2. left. reflexivity. }
  assert (HM : exists x r, mon = x :: r /\ x <> "-"%char).
  { destruct mon; [congruence|]. do 2 eexists. split; [reflexivity|]. intros ->. apply Mdash. left. reflexivity. }
  destruct HD as (d1 & d2 & ED & DD), HY as (y1 & y2 & EY & DY), HH as (h1 & h2 & EH & DH),
    HI as (i1 & i2 & EI & DI), HB as (b1 & b2 & EB & DB), HM as (m1 & m2 & EM & DM).
  unfold vms_line in El.
  assert (ND : forall d, digit d -> is " " d = false /\ is "-" d = false /\ is ":" d = false).
  { intros d H. pose proof (blank d H) as X. pose proof (dash d H) as Y. pose proof (colon d H) as W.
    unfold isnt in *. rewrite negb_true_iff in *. auto. }
  (* ; and the version *)
  rewrite (past_at _ l name (B ";" ++ ver) space (repeat space g1 ++ blocks ++ gap g2 ++ day ++ B "-" ++ mon ++ B "-"
     ++ year ++ gap g3 ++ hour ++ B ":" ++ minute ++ e :: rest)); auto.
  2: { constructor; [reflexivity|]. apply word_isnt. exact Hver. }
  set (p1 := name ++ B ";" ++ ver).
  assert (E1 : l = p1 ++ gap g1 ++ blocks ++ gap g2 ++ day ++ B "-" ++ mon ++ B "-"
     ++ year ++ gap g3 ++ hour ++ B ":" ++ minute ++ e :: rest).
  { rewrite El. unfold p1. rewrite <- !app_assoc. reflexivity. }
  rewrite (past_at _ l p1 (gap g1) b1 (b2 ++ gap g2 ++ day ++ B "-" ++ mon ++ B "-"
     ++ year ++ gap g3 ++ hour ++ B ":" ++ minute ++ e :: rest)); auto using gap_is.
  2: { rewrite E1, EB. reflexivity. } 2: { apply not_space. exact DB. }
  set (p2 := p1 ++ gap g1) in *.
  assert (E2 : l = p2 ++ blocks ++ gap g2 ++ day ++ B "-" ++ mon ++ B "-"
     ++ year ++ gap g3 ++ hour ++ B ":" ++ minute ++ e :: rest).
  { rewrite E1. unfold p2. rewrite <- !app_assoc. reflexivity. }
  rewrite (past_at _ l p2 blocks space (repeat space g2 ++ day ++ B "-" ++ mon ++ B "-"
     ++ year ++ gap g3 ++ hour ++ B ":" ++ minute ++ e :: rest)); auto using word_isnt.
  set (p3 := p2 ++ blocks) in *.
  assert (E3 : l = p3 ++ gap g2 ++ day ++ B "-" ++ mon ++ B "-"
     ++ year ++ gap g3 ++ hour ++ B ":" ++ minute ++ e :: rest).
  { rewrite E2. unfold p3. rewrite <- !app_assoc. reflexivity. }
  rewrite (past_at _ l p3 (gap g2) d1 (d2 ++ B "-" ++ mon ++ B "-"
     ++ year ++ gap g3 ++ hour ++ B ":" ++ minute ++ e :: rest)); auto using gap_is.
  2: { rewrite E3, ED. reflexivity. } 2: { apply ND. exact DD. }
  set (p4 := p3 ++ gap g2) in *.
  assert (E4 : l = p4 ++ day ++ B "-" ++ mon ++ B "-"
     ++ year ++ gap g3 ++ hour ++ B ":" ++ minute ++ e :: rest).
  { rewrite E3. unfold p4. rewrite <- !app_assoc. reflexivity. }
  rewrite (past_at _ l p4 day "-" (mon ++ B "-"
     ++ year ++ gap g3 ++ hour ++ B ":" ++ minute ++ e :: rest)); auto.
  2: { apply digits_isnt; [exact dash|exact Dd]. }
  rewrite len_sub, (num_at l p4 day _ _ _ (10 ^ 6) E4) by (auto; lia). cbn [obind].
  set (p5 := p4 ++ day) in *.
  assert (E5 : l = p5 ++ B "-" ++ mon ++ B "-"
     ++ year ++ gap g3 ++ hour ++ B ":" ++ minute ++ e :: rest).
  { rewrite E4. unfold p5. rewrite <- !app_assoc. reflexivity. }
  rewrite (past_at _ l p5 (B "-") m1 (m2 ++ B "-"
     ++ year ++ gap g3 ++ hour ++ B ":" ++ minute ++ e :: rest)); auto.
  2: { rewrite E5, EM. reflexivity. } 2: { constructor; [reflexivity|constructor]. }
  2: { cbn [is]. apply Ascii.eqb_neq. exact DM. }
  set (p6 := p5 ++ B "-") in *.
  assert (E6 : l = p6 ++ mon ++ B "-"
     ++ year ++ gap g3 ++ hour ++ B ":" ++ minute ++ e :: rest).
  { rewrite E5. unfold p6. rewrite <- !app_assoc. reflexivity. }
  rewrite (past_at _ l p6 mon "-" (year ++ gap g3 ++ hour ++ B ":" ++ minute ++ e :: rest)); auto.
  2: { apply Forall_forall. intros x Hx. unfold isnt. cbn [is].
       destruct (Ascii.eqb_spec x "-") as [->|]; [contradiction|reflexivity]. }
  rewrite len_sub, (proj1 (getmonth_spec l p6 mon _ _ _ E6 eq_refl eq_refl) m Hmon). cbn [obind].
  replace (m <? 0) with false by (symmetry; apply Z.ltb_ge; destruct Hmon; lia). cbv iota.
  set (p7 := p6 ++ mon) in *.
  assert (E7 : l = p7 ++ B "-" ++ year ++ gap g3 ++ hour ++ B ":" ++ minute ++ e :: rest).
  { rewrite E6. unfold p7. rewrite <- !app_assoc. reflexivity. }
  rewrite (past_at _ l p7 (B "-") y1 (y2 ++ gap g3 ++ hour ++ B ":" ++ minute ++ e :: rest)); auto.
  2: { rewrite E7, EY. reflexivity. } 2: { constructor; [reflexivity|constructor]. }
  2: { apply ND. exact DY. }
  set (p8 := p7 ++ B "-") in *.
  assert (E8 : l = p8 ++ year ++ gap g3 ++ hour ++ B ":" ++ minute ++ e :: rest).
  { rewrite E7. unfold p8. rewrite <- !app_assoc. reflexivity. }
  rewrite (past_at _ l p8 year space (repeat space g3 ++ hour ++ B ":" ++ minute ++ e :: rest)); auto.
  2: { apply digits_isnt; [exact blank|exact Yd]. }
  rewrite len_sub, (num_at l p8 year _ _ _ (10 ^ 10) E8) by (auto; lia). cbn [obind].
  set (p9 := p8 ++ year) in *.
  assert (E9 : l = p9 ++ gap g3 ++ hour ++ B ":" ++ minute ++ e :: rest).
  { rewrite E8. unfold p9. rewrite <- !app_assoc. reflexivity. }
  rewrite (past_at _ l p9 (gap g3) h1 (h2 ++ B ":" ++ minute ++ e :: rest)); auto using gap_is.
  2: { rewrite E9, EH. reflexivity. } 2: { apply ND. exact DH. }
  set (p10 := p9 ++ gap g3) in *.
  assert (E10 : l = p10 ++ hour ++ B ":" ++ minute ++ e :: rest).
  { rewrite E9. unfold p10. rewrite <- !app_assoc. reflexivity. }
  rewrite (past_at _ l p10 hour ":" (minute ++ e :: rest)); auto.
  2: { apply digits_isnt; [exact colon|exact Hd]. }
  rewrite len_sub, (num_at l p10 hour _ _ _ (10 ^ 6) E10) by (auto; lia). cbn [obind].
  set (p11 := p10 ++ hour) in *.
  assert (E11 : l = p11 ++ B ":" ++ minute ++ e :: rest).
  { rewrite E10. unfold p11. rewrite <- !app_assoc. reflexivity. }
  rewrite (past_at _ l p11 (B ":") i1 (i2 ++ e :: rest)); auto.
  2: { rewrite E11, EI. reflexivity. } 2: { constructor; [reflexivity|constructor]. }
  2: { apply ND. exact DI. }
  set (p12 := p11 ++ B ":") in *.
  assert (E12 : l = p12 ++ minute ++ e :: rest).
  { rewrite E11. unfold p12. rewrite <- !app_assoc. reflexivity. }
  rewrite (past_at _ l p12 minute e rest); auto.
  2: { eapply Forall_impl; [|exact Id]. intros x Hx. cbv beta. rewrite colon, blank by auto. reflexivity. }
  2: { destruct He as [->| ->]; reflexivity. }
  rewrite len_sub, (num_at l p12 minute _ _ _ (10 ^ 6) E12) by (auto; lia). cbn [obind].
  rewrite base_0. cbn [obind].
  assert (value year <= 10 ^ 10) by (destruct Hyear as (_ & _ & ?); lia).
  rewrite totai_unixtime by auto. cbn [obind].
  pose proof (unixtime_range _ _ _ Hdate ltac:(assumption)).
  pose proof (value_pos _ Hd). pose proof (value_pos _ Id).
  destruct Hhour as (_ & _ & ?), Hmin as (_ & _ & ?).
  rewrite moment_ok by lia. reflexivity.
Qed.

Lemma last4 (w : bytes) : (4 < length w)%nat ->
  exists base a b c d, w = base ++ [a; b; c; d] /\ base <> [].
Proof.
  intros H. exists (firstn (length w - 4) w).
  assert (L : length (skipn (length w - 4) w) = 4%nat) by (rewrite skipn_length; lia).
  destruct (skipn (length w - 4) w) as [|a [|b [|c [|d [|]]]]] eqn:E; try discriminate L.
  exists a, b, c, d. split.
  - rewrite <- E. symmetry. apply firstn_skipn.
  - intros X. assert (length (firstn (length w - 4) w) = 0%nat) by (rewrite X; reflexivity).
    rewrite firstn_length in *. lia.
Qed.

Lemma dotdir_spec l name post : l = name ++ post ->
  (forall base, vms_dir name base -> dotdir l (length name) = Ret true) /\
  ((forall base, ~ vms_dir name base) -> dotdir l (length name) = Ret false).
Proof.
  intros El. unfold dotdir.
  destruct (Nat.ltb_spec 4 (length name)) as [L|L]; cbn [negb].
  2: { split; [|auto]. intros base [Hb ->]. rewrite app_length in L. cbn in L.
       destruct base; [congruence|cbn in L; lia]. }
  destruct (last4 name L) as (base & a & b & c & d & En & Hb).
  assert (Ln : length name = (length base + 4)%nat) by (rewrite En, app_length; reflexivity).
  rewrite Ln.
  rewrite (rd_at' l base a (b :: c :: d :: post)).
  2: { rewrite El, En, <- app_assoc. reflexivity. } 2: lia.
  rewrite (rd_at' l (base ++ [a]) b (c :: d :: post)).
  2: { rewrite El, En, <- !app_assoc. reflexivity. } 2: { rewrite app_length. cbn [length]. lia. }
  rewrite (rd_at' l (base ++ [a; b]) c (d :: post)).
  2: { rewrite El, En, <- !app_assoc. reflexivity. } 2: { rewrite app_length. cbn [length]. lia. }
  rewrite (rd_at' l (base ++ [a; b; c]) d post).
  2: { rewrite El, En, <- !app_assoc. reflexivity. } 2: { rewrite app_length. cbn [length]. lia. }
  cbn [obind is].
  destruct (Ascii.eqb_spec a ".") as [->|Na].
  1: destruct (Ascii.eqb_spec b "D") as [->|Nb].
  1: destruct (Ascii.eqb_spec c "I") as [->|Nc].
  1: destruct (Ascii.eqb_spec d "R") as [->|Nd].
  - cbn [negb]. split; [auto|]. intros N. exfalso. apply (N base). split; auto.
  - cbn [negb]. split; [|auto]. intros b' [_ E]. exfalso. rewrite E in En.
    apply (f_equal (@rev ascii)) in En. rewrite !rev_app_distr in En. cbn in En. congruence.
  - cbn [negb]. split; [|auto]. intros b' [_ E]. exfalso. rewrite E in En.
    apply (f_equal (@rev ascii)) in En. rewrite !rev_app_distr in En. cbn in En. congruence.
  - cbn [negb]. split; [|auto]. intros b' [_ E]. exfalso. rewrite E in En.
    apply (f_equal (@rev ascii)) in En. rewrite !rev_app_distr in En. cbn in En. congruence.
  - cbn [negb]. split; [|auto]. intros b' [_ E]. exfalso. rewrite E in En.
    apply (f_equal (@rev ascii)) in En. rewrite !rev_app_distr in En. cbn in En. congruence.
Qed.

(** A line that is neither EPLF nor UNIX. *)
Definition plain (l : bytes) : Prop :=
  forall c r, l = c :: r -> ~ In c (B "+bcdlps-").

Lemma plain_is c r l : plain l -> l = c :: r ->
  is "+" c = false /\
  is "b" c || is "c" c || is "d" c || is "l" c || is "p" c || is "s" c || is "-" c = false.
Proof.
  intros H E. specialize (H c r E).
  assert (N : forall d, In d (B "+bcdlps-") -> Ascii.eqb c d = false).
  { intros d Hd. destruct (Ascii.eqb_spec c d) as [->|]; [contradiction|reflexivity]. }
  cbn [is]. rewrite !N by (cbn; tauto). auto.
Qed.

Lemma vms_trip clock k name ver g1 blocks g2 day mon year g3 hour minute e rest m base :
  let l := vms_line name ver g1 blocks g2 day mon year g3 hour minute (e :: rest) in
  plain l -> ~ In ";"%char name ->
  ~ In space ver -> word blocks -> number (10 ^ 6) day -> names_month mon m ->
  number (10 ^ 10) year -> number (10 ^ 6) hour -> number (10 ^ 6) minute ->
  e = space \/ e = ":"%char -> date (value year) m (value day) ->
  let t := unixtime (value year) m (value day) + (3600 * value hour + 60 * value minute) in
  (vms_dir name base -> exists f, ftpparse clock k l = Ret (Some f, k) /\
     view l f = Entry base true false None Minute t None) /\
  ((forall b, ~ vms_dir name b) -> exists f, ftpparse clock k l = Ret (Some f, k) /\
     view l f = Entry name false true None Minute t None).
Proof.
  intros l Hp Hs Hver Hb Hday Hmon Hyear Hhour Hmin He Hdate t.
  assert (exists c r, l = c :: r) as (c & r & Ec).
  { unfold l, vms_line. destruct name; cbn [app B list_ascii_of_string]; eauto. }
  destruct (plain_is c r l Hp Ec) as [P1 P2].
  assert (Hl : l = name ++ ";"%char :: ver ++ gap g1 ++ blocks ++ gap g2 ++ day ++ B "-" ++ mon ++ B "-"
     ++ year ++ gap g3 ++ hour ++ B ":" ++ minute ++ e :: rest) by reflexivity.
  assert (Ln : (length name + 2 <= length l)%nat).
  { rewrite Hl, app_length. cbn [length]. rewrite !app_length. unfold gap. cbn [repeat length]. lia. }
  assert (G : forall f, dotdir l (length name) = Ret f ->
    ftpparse clock k l = Ret (Some (set_time MMinute t
    (if (f : bool) then set_cwd (set_name 0 (length name - 4) fp0)
     else set_retr (set_name 0 (length name) fp0))), k)).
  { intros f Hf. unfold ftpparse.
    destruct (Nat.ltb_spec (length l) 2); [lia|].
    replace (rd l 0) with (Ret c) by (rewrite Ec; reflexivity). cbn [obind]. rewrite P1, P2.
    assert (Sm : semi l (length l) 0 = Ret (length name)).
    { apply (semi_at l name [] _ _ (length l) Hl Hs eq_refl). cbn [length]. lia. }
    rewrite Sm. cbn [obind]. destruct (Nat.ltb_spec (length name) (length l)); [|lia].
    rewrite (vms_dates name ver g1 blocks g2 day mon year g3 hour minute e rest m f l); auto. }
  destruct (dotdir_spec l name _ Hl) as [D1 D2]. split.
  - intros Hd. specialize (D1 base Hd). specialize (G true D1). eexists. split; [exact G|].
    unfold view. cbn [set_time set_cwd set_name fp0 f_name f_namelen f_cwd f_retr f_size f_mtype f_mtime f_id sort_of].
    f_equal. destruct Hd as [_ ->].
    apply (sub_at l [] base (B ".DIR" ++ ";"%char :: ver ++ gap g1 ++ blocks ++ gap g2 ++ day ++ B "-" ++ mon ++ B "-"
     ++ year ++ gap g3 ++ hour ++ B ":" ++ minute ++ e :: rest)); auto.
    + rewrite Hl, <- app_assoc. reflexivity.
    + rewrite app_length. cbn. lia.
  - intros Hd. specialize (D2 Hd). specialize (G false D2). eexists. split; [exact G|].
    unfold view. cbn [set_time set_retr set_name fp0 f_name f_namelen f_cwd f_retr f_size f_mtype f_mtime f_id sort_of].
    f_equal. exact (sub_at l [] name _ 0 (length name) Hl eq_refl eq_refl).
Qed.

(** ** MS-DOS *)

Lemma maybe_yes {A} s c l pre post j (f : nat -> out (option A)) :
  l = pre ++ c :: post -> j = length pre -> is s c = true -> post <> [] ->
  maybe s l j f = f (S j).
Proof.
  intros El -> Hc Hp. unfold maybe. rewrite (rd_at' l pre c post) by auto. cbn [obind]. rewrite Hc.
  destruct (Nat.eqb_spec (S (length pre)) (length l)) as [E|_]; [|reflexivity].
  rewrite El, app_length in E. cbn [length] in E. destruct post; [congruence|cbn [length] in E; lia].
Qed.

Lemma maybe_no {A} s c l pre post j (f : nat -> out (option A)) :
  l = pre ++ c :: post -> j = length pre -> is s c = false -> maybe s l j f = f j.
Proof.
  intros El -> Hc. unfold maybe. rewrite (rd_at' l pre c post) by auto. cbn [obind]. rewrite Hc.
  reflexivity.
Qed.

Lemma gap_ne g : gap g <> []. Proof. discriminate. Qed.

Lemma msdos_trip clock k mon day year g1 hour minute pm g2 what g3 name m :
  let l := msdos_line mon day year g1 hour minute pm g2 what g3 name in
  ~ In ";"%char l -> number (10 ^ 6) mon -> number (10 ^ 6) day -> number (10 ^ 9) year ->
  number (10 ^ 5) hour -> number (10 ^ 6) minute ->
  name <> [] -> (forall r, name <> space :: r) -> m = value mon - 1 ->
  date (full_year (value year)) m (value day) ->
  let t := unixtime (full_year (value year)) m (value day)
           + (3600 * hour24 (value hour) pm + 60 * value minute) in
  ((exists r, what = B "<" ++ r /\ ~ In space r) ->
     exists f, ftpparse clock k l = Ret (Some f, k) /\
     view l f = Entry name true false None Minute t None) /\
  (number (10 ^ 18) what ->
     exists f, ftpparse clock k l = Ret (Some f, k) /\
     view l f = Entry name false true (Some (value what)) Minute t None).
Proof.
  intros l Hsemi Hmon Hday Hyear Hhour Hmin Hn1 Hn2 Hm Hdate t.
  assert (LOOK : forall b w, number b w -> exists x r, w = x :: r /\ digit x).
  { intros b w (W1 & W2 & _). destruct w; [congruence|]. inversion W2; eauto. }
  destruct (LOOK _ _ Hmon) as (o1 & o2 & EO & DO), (LOOK _ _ Hday) as (d1 & d2 & ED & DD),
    (LOOK _ _ Hyear) as (y1 & y2 & EY & DY), (LOOK _ _ Hhour) as (h1 & h2 & EH & DH),
    (LOOK _ _ Hmin) as (i1 & i2 & EI & DI). clear LOOK.
  pose proof (proj1 (proj2 Hmon)) as Od. pose proof (proj1 (proj2 Hday)) as Dd.
  pose proof (proj1 (proj2 Hyear)) as Yd. pose proof (proj1 (proj2 Hhour)) as Hd.
  pose proof (proj1 (proj2 Hmin)) as Id.
  assert (ND : forall d, digit d -> is " " d = false /\ is "-" d = false /\ is ":" d = false).
  { intros d H. pose proof (blank d H) as X. pose proof (dash d H) as Y. pose proof (colon d H) as W.
    unfold isnt in *. rewrite negb_true_iff in *. auto. }
  assert (exists n1 n2, name = n1 :: n2 /\ n1 <> space) as (n1 & n2 & EN & DN).
  { destruct name as [|x r]; [congruence|]. do 2 eexists. split; [reflexivity|].
    intros ->. exact (Hn2 r eq_refl). }
  set (ap := if pm then B "PM" else B "AM") in *.
  set (a0 := if pm then "P"%char else "A"%char).
  assert (Eap : ap = [a0; "M"%char]) by (unfold ap, a0; destruct pm; reflexivity).
  assert (WHAT : forall w1 w2, what = w1 :: w2 -> w1 <> space -> ~ In space what ->
    forall F, F = (if is "<" w1 then Ret (set_cwd fp0)
       else do! z := gl what 0 in Ret (set_retr (set_size z fp0))) ->
    ftpparse clock k l =
      (do! f := F in
       Ret (Some (set_time MMinute t (set_name (length l - length name) (length name) f)), k))).
  { intros w1 w2 EW DW SW F ->.
    assert (exists r, l = o1 :: r) as [r0 Er].
    { unfold l, msdos_line. rewrite EO. cbn [app]. eauto. }
    assert (Hp : plain l).
    { intros c r E. rewrite Er in E. injection E as <- _. intros X.
      unfold digit in DO. cbn in X.
      repeat (destruct X as [X|X]; [subst o1; cbn in DO; lia|]). exact X. }
    destruct (plain_is o1 r0 l Hp Er) as [P1 P2].
    unfold ftpparse.
    destruct (Nat.ltb_spec (length l) 2) as [L|_].
    { exfalso. unfold l, msdos_line in L. rewrite EO, !app_length in L. cbn [length B list_ascii_of_string] in L. lia. }
    replace (rd l 0) with (Ret o1) by (rewrite Er; reflexivity). cbn [obind]. rewrite P1, P2.
    assert (Sm : semi l (length l) 0 = Ret (length l)).
    { apply (semi_none l l [] (length l)); auto. cbn [length]. lia. }
    rewrite Sm. cbn [obind]. rewrite Nat.ltb_irrefl.
    destruct (digit_sch o1 DO) as [_ R1].
    replace (48 <=? sch o1) with true by (symmetry; apply Z.leb_le; lia).
    replace (sch o1 <=? 57) with true by (symmetry; apply Z.leb_le; lia).
    cbn [andb].
    assert (MS : msdos l = (do! f := (if is "<" w1 then Ret (set_cwd fp0)
       else do! z := gl what 0 in Ret (set_retr (set_size z fp0))) in
       Ret (Some (set_time MMinute t (set_name (length l - length name) (length name) f))))).
    2: { rewrite MS. destruct (is "<" w1); cbn [obind]; [reflexivity|].
         destruct (gl what 0); reflexivity. }
    unfold msdos.
    set (T12 := what ++ gap g3 ++ name).
    set (T11 := ap ++ gap g2 ++ T12).
    set (T10 := B ":" ++ minute ++ T11).
    set (T9 := gap g1 ++ hour ++ T10).
    set (T8 := B "-" ++ year ++ T9).
    set (T7 := B "-" ++ day ++ T8).
    assert (E1 : l = [] ++ mon ++ T7) by reflexivity.
    rewrite (past_at _ l [] mon "-" (day ++ T8)); [|exact E1|reflexivity|apply digits_isnt; [exact dash|exact Od]|reflexivity].
    cbn [app]. rewrite Nat.sub_0_r.
    rewrite (num_at l [] mon _ 0 _ (10 ^ 6) E1) by (auto; lia). cbn [obind].
    pose proof (value_pos _ Od). rewrite lng_ok by (destruct Hmon as (_ & _ & ?); lia). cbn [obind].
    assert (E2 : l = mon ++ B "-" ++ day ++ T8) by exact E1.
    rewrite (past_at _ l mon (B "-") d1 (d2 ++ T8));
      [|rewrite E2, ED; reflexivity|reflexivity|constructor; [reflexivity|constructor]|apply ND; exact DD].
    set (p2 := mon ++ B "-") in *.
    assert (E3 : l = p2 ++ day ++ T8) by (rewrite E2; unfold p2; rewrite <- app_assoc; reflexivity).
    rewrite (past_at _ l p2 day "-" (year ++ T9));
      [|exact E3|reflexivity|apply digits_isnt; [exact dash|exact Dd]|reflexivity].
    rewrite len_sub, (num_at l p2 day _ _ _ (10 ^ 6) E3) by (auto; lia). cbn [obind].
    set (p3 := p2 ++ day) in *.
    assert (E4 : l = p3 ++ B "-" ++ year ++ T9) by (rewrite E3; unfold p3; rewrite <- app_assoc; reflexivity).
    rewrite (past_at _ l p3 (B "-") y1 (y2 ++ T9));
      [|rewrite E4, EY; reflexivity|reflexivity|constructor; [reflexivity|constructor]|apply ND; exact DY].
    set (p4 := p3 ++ B "-") in *.
    assert (E5 : l = p4 ++ year ++ T9) by (rewrite E4; unfold p4; rewrite <- app_assoc; reflexivity).
    rewrite (past_at _ l p4 year space (repeat space g1 ++ hour ++ T10));
      [|exact E5|reflexivity|apply digits_isnt; [exact blank|exact Yd]|reflexivity].
    rewrite len_sub, (num_at l p4 year _ _ _ (10 ^ 9) E5) by (auto; lia). cbn [obind].
    set (p5 := p4 ++ year) in *.
    assert (E6 : l = p5 ++ gap g1 ++ hour ++ T10) by (rewrite E5; unfold p5; rewrite <- app_assoc; reflexivity).
    rewrite (past_at _ l p5 (gap g1) h1 (h2 ++ T10));
      [|rewrite E6, EH; reflexivity|reflexivity|apply gap_is|apply ND; exact DH].
    set (p6 := p5 ++ gap g1) in *.
    assert (E7 : l = p6 ++ hour ++ T10) by (rewrite E6; unfold p6; rewrite <- app_assoc; reflexivity).
    rewrite (past_at _ l p6 hour ":" (minute ++ T11));
      [|exact E7|reflexivity|apply digits_isnt; [exact colon|exact Hd]|reflexivity].
    rewrite len_sub, (num_at l p6 hour _ _ _ (10 ^ 5) E7) by (auto; lia). cbn [obind].
    set (p7 := p6 ++ hour) in *.
    assert (E8 : l = p7 ++ B ":" ++ minute ++ T11) by (rewrite E7; unfold p7; rewrite <- app_assoc; reflexivity).
    rewrite (past_at _ l p7 (B ":") i1 (i2 ++ T11));
      [|rewrite E8, EI; reflexivity|reflexivity|constructor; [reflexivity|constructor]|apply ND; exact DI].
    set (p8 := p7 ++ B ":") in *.
    assert (E9 : l = p8 ++ minute ++ T11) by (rewrite E8; unfold p8; rewrite <- app_assoc; reflexivity).
    rewrite (past_at _ l p8 minute a0 ("M"%char :: gap g2 ++ T12));
      [|rewrite E9; unfold T11; rewrite Eap; reflexivity|reflexivity| |].
    2: { eapply Forall_impl; [|exact Id]. intros x Hx. cbv beta. rewrite noA, noP by auto. reflexivity. }
    2: { unfold a0. destruct pm; reflexivity. }
    rewrite len_sub, (num_at l p8 minute _ _ _ (10 ^ 6) E9) by (auto; lia). cbn [obind].
    set (p9 := p8 ++ minute) in *.
    assert (E10 : l = p9 ++ a0 :: "M"%char :: gap g2 ++ T12).
    { rewrite E9. unfold p9, T11. rewrite Eap, <- app_assoc. reflexivity. }
    assert (Vh : 0 <= value hour < 10 ^ 5) by (split; [apply value_pos; auto|apply Hhour]).
    assert (Vi : 0 <= value minute < 10 ^ 6) by (split; [apply value_pos; auto|apply Hmin]).
    set (p10 := p9 ++ [a0]).
    assert (E11 : l = p10 ++ "M"%char :: gap g2 ++ T12).
    { rewrite E10. unfold p10. rewrite <- app_assoc. reflexivity. }
    set (p11 := p10 ++ ["M"%char]).
    assert (E12 : l = p11 ++ gap g2 ++ T12).
    { rewrite E11. unfold p11. rewrite <- app_assoc. reflexivity. }
    set (p12 := p11 ++ gap g2).
    assert (E13 : l = p12 ++ what ++ gap g3 ++ name).
    { rewrite E12. unfold p12, T12. rewrite <- app_assoc. reflexivity. }
    set (p13 := p12 ++ what).
    assert (E14 : l = p13 ++ gap g3 ++ name).
    { rewrite E13. unfold p13. rewrite <- app_assoc. reflexivity. }
    set (p14 := p13 ++ gap g3).
    assert (E15 : l = p14 ++ name).
    { rewrite E14. unfold p14. rewrite <- app_assoc. reflexivity. }
    assert (L10 : length p10 = S (length p9)) by (unfold p10; rewrite app_length; cbn [length]; lia).
    assert (L11 : length p11 = S (length p10)) by (unfold p11; rewrite app_length; cbn [length]; lia).
    assert (L14 : (length l - length name)%nat = length p14) by (rewrite E15, app_length; lia).
    assert (APM : forall (X : Z -> nat -> out (option fp)),
      maybe "A" l (length p9) (fun j =>
        do! c := rd l j in
        do! hr := lng (if is "P" c then (if value hour =? 12 then 0 else value hour) + 12
                       else (if value hour =? 12 then 0 else value hour)) in
        maybe "P" l j (fun j => maybe "M" l j (fun j => X hr j))) =
      X (hour24 (value hour) pm) (length p11)).
    { intros X. unfold hour24.
      assert (LNG : forall z, 0 <= z <= 10 ^ 6 -> lng z = Ret z) by (intros; apply lng_ok; lia).
      set (h0 := if value hour =? 12 then 0 else value hour).
      assert (H0 : 0 <= h0 < 10 ^ 5) by (unfold h0; destruct (value hour =? 12); lia). clearbody h0.
      unfold a0 in *. destruct pm.
      - rewrite (maybe_no "A" _ l p9 _ _ _ E10 eq_refl eq_refl).
        rewrite (rd_at' l p9 _ _ _ E10 eq_refl). cbn [obind].
        change (is "P" "P") with true. cbv iota. rewrite LNG by lia. cbn [obind].
        rewrite (maybe_yes "P" _ l p9 _ _ _ E10 eq_refl eq_refl) by discriminate.
        rewrite <- L10.
        rewrite (maybe_yes "M" _ l p10 _ _ _ E11 eq_refl eq_refl) by discriminate.
        rewrite <- L11. reflexivity.
      - rewrite (maybe_yes "A" _ l p9 _ _ _ E10 eq_refl eq_refl) by discriminate.
        rewrite <- L10.
        rewrite (rd_at' l p10 _ _ _ E11 eq_refl). cbn [obind].
        change (is "P" "M") with false. cbv iota. rewrite LNG by lia. cbn [obind].
        rewrite (maybe_no "P" _ l p10 _ _ _ E11 eq_refl eq_refl).
        rewrite (maybe_yes "M" _ l p10 _ _ _ E11 eq_refl eq_refl) by discriminate.
        rewrite <- L11. rewrite Z.add_0_r. reflexivity. }
    cbv zeta. rewrite APM. clear APM.
    rewrite (past_at _ l p11 (gap g2) w1 (w2 ++ gap g3 ++ name));
      [|rewrite E12; unfold T12; rewrite EW; reflexivity|reflexivity|apply gap_is|apply not_space; exact DW].
    fold p12.
    rewrite (rd_at' l p12 w1 (w2 ++ gap g3 ++ name)); [|rewrite E13, EW; reflexivity|reflexivity].
    cbn [obind].
    assert (Hyr : full_year (value year) <= 10 ^ 10).
    { destruct Hyear as (_ & _ & ?). unfold full_year. destruct (value year <? 50); [lia|].
      destruct (value year <? 1000); lia. }
    assert (EYR : (if (if value year <? 50 then value year + 2000 else value year) <? 1000
            then (if value year <? 50 then value year + 2000 else value year) + 1900
            else (if value year <? 50 then value year + 2000 else value year))
            = full_year (value year)).
    { pose proof (value_pos _ Yd). unfold full_year. destruct (Z.ltb_spec (value year) 50).
      - destruct (Z.ltb_spec (value year + 2000) 1000); lia.
      - destruct (Z.ltb_spec (value year) 1000); lia. }
    rewrite EYR, <- Hm.
    pose proof (unixtime_range _ _ _ Hdate Hyr) as UR.
    assert (H24 : 0 <= hour24 (value hour) pm <= 10 ^ 6).
    { unfold hour24. destruct (value hour =? 12), pm; lia. }
    assert (REST : forall f,
      past (is " ") l (length p13) (fun j =>
        do! base := initbase in
        do! d := totai (full_year (value year)) m (value day) in
        do! tm := moment base d (hour24 (value hour) pm) (value minute) in
        Ret (Some (set_time MMinute tm (set_name j (length l - j) f)))) =
      Ret (Some (set_time MMinute t (set_name (length p14) (length name) f)))).
    { intros f.
      rewrite (past_at _ l p13 (gap g3) n1 n2); [|rewrite E14, EN; reflexivity|reflexivity|apply gap_is|apply not_space; exact DN].
      fold p14. rewrite base_0. cbn [obind]. rewrite totai_unixtime by auto. cbn [obind].
      rewrite moment_ok by lia. cbn [obind].
      do 4 f_equal. rewrite E15, app_length. lia. }
    rewrite L14.
    destruct (is "<" w1).
    - rewrite (past_at _ l p12 what space (repeat space g3 ++ name));
        [|exact E13|reflexivity|apply word_isnt; exact SW|reflexivity].
      fold p13. apply REST.
    - rewrite (past_at _ l p12 what space (repeat space g3 ++ name));
        [|exact E13|reflexivity|apply word_isnt; exact SW|reflexivity].
      rewrite len_sub. rewrite (getlong_gl l p12 what _ _ _ E13 eq_refl eq_refl).
      destruct (gl what 0); cbn [obind]; auto. }
  assert (VIEW : sub l (length l - length name) (length name) = name).
  { set (pre := mon ++ B "-" ++ day ++ B "-" ++ year ++ gap g1 ++ hour ++ B ":" ++ minute
      ++ ap ++ gap g2 ++ what ++ gap g3).
    assert (E : l = pre ++ name ++ []).
    { rewrite app_nil_r. unfold l, msdos_line, pre. fold ap. rewrite <- !app_assoc. reflexivity. }
    apply (sub_at l pre name [] _ _ E); [|reflexivity].
    rewrite E, !app_length. cbn [length]. lia. }
  split.
  - intros (r & EW & SW).
    rewrite (WHAT "<"%char r EW) with (F := Ret (set_cwd fp0)); [|discriminate| |reflexivity].
    2: { rewrite EW. intros [X|X]; [discriminate X|contradiction]. }
    cbn [obind]. eexists. split; [reflexivity|]. unfold view.
    cbn [set_time set_cwd set_name fp0 f_name f_namelen f_cwd f_retr f_size f_mtype f_mtime f_id sort_of].
    rewrite VIEW. reflexivity.
  - intros HW. pose proof (number_word _ _ HW) as [_ SW].
    assert (EX : exists w1 w2, what = w1 :: w2) by (destruct what; [destruct HW; congruence|eauto]).
    destruct EX as (w1 & w2 & EW).
    assert (Dw : digit w1). { destruct HW as (_ & X & _). rewrite EW in X. inversion X; assumption. }
    rewrite (WHAT w1 w2 EW) with (F := Ret (set_retr (set_size (value what) fp0))).
    + cbn [obind]. eexists. split; [reflexivity|]. unfold view.
      cbn [set_time set_retr set_size set_name fp0 f_name f_namelen f_cwd f_retr f_size f_mtype f_mtime f_id sort_of].
      rewrite VIEW. reflexivity.
    + intros ->. unfold digit in Dw. cbn in Dw. lia.
    + exact SW.
    + replace (is "<" w1) with false.
      2: { symmetry. cbn [is]. apply Ascii.eqb_neq. intros ->. unfold digit in Dw. cbn in Dw. lia. }
      rewrite (gl_number what (10 ^ 18)) by (auto; lia). reflexivity.
Qed.
