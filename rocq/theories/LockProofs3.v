(** WvLockFile: at most one process holds the lock, if calls do not overlap *)
From Verif Require Import Base Ctype DecSpec UrlModel IntFmtModel IntFmtProofs LockModel LockSpec LockProofs LockProofs2.
Local Open Scope nat_scope.
Local Arguments held : simpl never.
Lemma ft_readable me : (0 < me < 2 ^ 31)%Z -> readable (ft me).
Proof.
  intros R l H. rewrite (ft_line me R) in H. injection H as <-. rewrite me_atoi by exact R. split; [eauto|]. pose proof (me_digits me R) as [Hd Hn]. pose proof (trim_spaces 0 (sdec me) Hd Hn) as T. cbn [repeat app] in T. rewrite T, me_atoi by exact R. eauto.
Qed.

Section FileLocks.
Variable w : world.
Hypothesis D : what w = File.
Hypothesis P : good_pids w.
Hypothesis J : forall a b, proc w a = proc w b -> a = b.
Notation mine a := (pid w (proc w a)).
Definition holder (s : st) (a : nat) : Prop := count s a <> 0.
Definition nobody (s : st) : Prop := forall a, ~ holder s a.
Definition reading (s : st) (k : Z -> prog) (p : prog) : Prop :=
  p = readpid k \/ p = OpenOld (opened k) \/
  (exists j, p = Getline j (got_line k) /\ (named s = Some j \/ nobody s)) \/
  (exists q, p = Kill q (asked k q) /\ forall o, holder s o -> q = mine o) \/
  p = Unlink (fun _ => k 0%Z) /\ nobody s.
Definition check_end (a : nat) : Z -> prog := fun q => Ret (of_bool (is_ours (mine a) q)).
Definition fphase (s : st) (a : nat) (c : call) (p : prog) : Prop :=
  match c with
  | Check => reading s (check_end a) p
  | Lock => reading s (file_locking (mine a)) p \/ p = OpenNew (file_make (mine a)) \/
            exists i, p = Print i (ft (mine a)) (Ret 1) /\ named s = Some i /\ texts s i = [] /\ nobody s
  | Unlock => count s a = 0 /\
            (reading s (file_unlocking (mine a)) p \/ p = Unlink (fun _ => readpid file_after) /\ nobody s \/ reading s file_after p /\ nobody s)
  end.
Record excl (s : st) : Prop := Excl
  { x_uniq : forall a b, holder s a -> holder s b -> a = b;
    x_text : forall a, holder s a -> exists i, named s = Some i /\ texts s i = ft (mine a);
    x_read : forall j, readable (texts s j);
    x_phase : forall a c p, busy s a = Some (c, p) -> fphase s a c p;
    x_alone : forall a b c c' p p', a <> b -> busy s a = Some (c, p) -> busy s b = Some (c', p') -> c = Check /\ c' = Check }.
Lemma reading_less s s' k p : (forall b, holder s' b -> holder s b) -> named s' = named s \/ nobody s -> reading s k p -> reading s' k p.
Proof.
  intros H N. unfold reading.
  assert (NN : nobody s -> nobody s') by (intros X b Hb; apply (X b); auto).
  intros [E|[E|[(j & E & C)|[(q & E & C)|(E & C)]]]].
  - left. exact E.
  - right; left. exact E.
  - right; right; left. exists j. split; [exact E|]. destruct C as [C|C]; [|auto]. destruct N as [->|N]; auto.
  - right; right; right; left. exists q. auto.
  - do 4 right. auto.
Qed.
Lemma fphase_less s s' a c p : (forall b, holder s' b -> holder s b) -> named s' = named s -> texts s' = texts s -> fphase s a c p -> fphase s' a c p.
Proof.
  intros H En Et. assert (NN : nobody s -> nobody s') by (intros X b Hb; apply (X b); auto). assert (R : forall k q, reading s k q -> reading s' k q) by (intros k q; apply reading_less; auto).
  unfold fphase. destruct c.
  - intros [F|[F|(i & E & F1 & F2 & F3)]]; [left; auto|right; left; exact F|right; right]. exists i. rewrite En, Et. auto.
  - intros [Z [F|[[E F]|[E F]]]]; (split; [destruct (Nat.eq_dec (count s' a) 0) as [|Q]; [assumption|destruct (H a Q Z)]|]); [left; auto|right; left; auto|right; right; auto].
  - apply R.
Qed.
Lemma reading_step s k p f : book w s -> excl s -> reading s k p -> (f = true -> ~ writing_or_reading p) ->
  exists s' p', syscall w s p f = (s', p') /\ texts s' = texts s /\ (named s' = named s \/ nobody s) /\
    (reading s' k p' \/ exists z, p' = k z /\ forall o, holder s o -> z = mine o \/ z = (-1)%Z).
Proof.
  intros B K R C. destruct R as [->|[->|[(j & -> & Hj)|[(q & -> & Hq)|(-> & N)]]]]; cbn [syscall].
  - unfold readpid. cbn [syscall]. exists s, (if f then k (-1)%Z else OpenOld (opened k)). split; [reflexivity|]. split; [reflexivity|]. split; [auto|]. destruct f; [right; eauto|left; right; left; reflexivity].
  - destruct f; [destruct (C eq_refl I)|]. exists s, (opened k (named s)). split; [reflexivity|]. split; [reflexivity|]. split; [auto|]. left. destruct (named s) as [j|] eqn:En; cbn [opened].
    + right; right; left. exists j. auto.
    + do 4 right. split; [reflexivity|]. intros o Ho. destruct (x_text s K o Ho) as (i & E & _). congruence.
  - destruct f; [destruct (C eq_refl I)|]. exists s, (got_line k (first_line (texts s j))). split; [reflexivity|]. split; [reflexivity|]. split; [auto|].
    assert (T : forall o, holder s o -> texts s j = ft (mine o)). { intros o Ho. destruct (x_text s K o Ho) as (i & E & T). destruct Hj as [Hj|Hj]; [|destruct (Hj o Ho)]. congruence. }
    destruct (first_line (texts s j)) as [l|] eqn:El; cbn [got_line].
    + destruct (x_read s K j l El) as [[z Ez] _]. rewrite Ez. assert (Hz : forall o, holder s o -> z = mine o). { intros o Ho. rewrite (T o Ho), (ft_line _ (P _)) in El. injection El as <-. rewrite me_atoi in Ez by apply P. congruence. }
      destruct (Z.eqb_spec z (-1)); [right; exists z; split; [reflexivity|]; intros; auto|]. left. right; right; right; left. exists z. auto.
    + left. do 4 right. split; [reflexivity|]. intros o Ho. rewrite (T o Ho), (ft_line _ (P _)) in El. discriminate.
  - exists s, (asked k q (gone w s q f)). split; [reflexivity|]. split; [reflexivity|]. split; [auto|]. destruct (gone w s q f) eqn:G; cbn [asked]; [left; do 4 right; split; [reflexivity|]|right; exists q; auto].
    intros o Ho. specialize (Hq o Ho). subst q. unfold gone in G. pose proof (P (proc w o)). destruct (Z.ltb_spec 0 (mine o)); [|lia]. apply negb_true_iff in G. assert (E : existsb (fun n => (pid w n =? mine o)%Z) (live s) = true); [|congruence].
    apply existsb_exists. exists (proc w o). split; [|apply Z.eqb_refl]. apply (b_live w s B). right. exact Ho.
  - assert (E : exists s', syscall w s (Unlink (fun _ => k 0%Z)) f = (s', k 0%Z) /\ texts s' = texts s) by (cbn; destruct f; [|destruct (named s)]; eexists; split; reflexivity).
    destruct E as (s' & E & T). exists s', (k 0%Z). split; [exact E|]. split; [exact T|]. split; [auto|]. right. exists 0%Z. split; [reflexivity|]. intros o Ho. destruct (N o Ho).
Qed.
(** A step that gives nobody the lock *)
Lemma excl_change s s' a : excl s -> texts s' = texts s -> (named s' = named s \/ nobody s) ->
  (forall b, b <> a -> busy s' b = busy s b /\ count s' b = count s b \/ busy s' b = None /\ count s' b = 0) ->
  (holder s' a -> holder s a) -> (named s' <> named s -> forall b c p, b <> a -> busy s b = Some (c, p) -> c = Check) ->
  (forall c p, busy s' a = Some (c, p) -> fphase s' a c p /\ forall b c' p', b <> a -> busy s b = Some (c', p') -> c = Check /\ c' = Check) -> excl s'.
Proof.
  intros [X1 X2 X3 X4 X5] Et En Hb Ha Ho Hp.
  assert (H : forall b, holder s' b -> holder s b). { intros b H. destruct (Nat.eq_dec b a) as [->|Nb]; [auto|]. unfold holder in *. destruct (Hb b Nb) as [[_ E]|[_ E]]; congruence. }
  assert (G : forall b c p, b <> a -> busy s' b = Some (c, p) -> busy s b = Some (c, p)). { intros b c p Nb Q. destruct (Hb b Nb) as [[E _]|[E _]]; congruence. }
  split.
  - intros b c H1 H2. apply X1; auto.
  - intros b Q. destruct (X2 b (H b Q)) as (i & E & T). exists i. rewrite Et. split; [|exact T]. destruct En as [->|En]; [exact E|]. destruct (En b (H b Q)).
  - rewrite Et. exact X3.
  - intros b c p Q. destruct (Nat.eq_dec b a) as [->|Nb]; [apply Hp; exact Q|]. pose proof (X4 _ _ _ (G b c p Nb Q)) as F. assert (Dn : named s' = named s \/ named s' <> named s) by (destruct (named s') as [x|], (named s) as [y|]; try (right; discriminate); [destruct (Nat.eq_dec x y); [left|right]; congruence|auto]).
    destruct Dn as [E|E]; [apply (fphase_less s); auto|]. rewrite (Ho E b c p Nb (G b c p Nb Q)) in *. cbn in *. apply (reading_less s); auto.
  - intros b d c c' p p' N Q1 Q2. destruct (Nat.eq_dec b a) as [->|Nb]; [|destruct (Nat.eq_dec d a) as [->|Nd]].
    + destruct (Hp _ _ Q1) as [_ A]. apply (A d _ p'); [congruence|]. apply G; [congruence|exact Q2].
    + destruct (Hp _ _ Q2) as [_ A]. destruct (A b c p Nb (G _ _ _ Nb Q1)). auto.
    + eapply X5; [exact N|apply G; eauto|apply G; eauto].
Qed.
Lemma excl_go s s1 a c p p1 : excl s -> book w s -> busy s a = Some (c, p) -> texts s1 = texts s -> (named s1 = named s \/ nobody s) -> busy s1 = busy s -> count s1 = count s ->
  (named s1 <> named s -> forall b c p, b <> a -> busy s b = Some (c, p) -> c = Check) ->
  (p1 = Ret 0 \/ c <> Lock /\ (exists r, p1 = Ret r) \/ fphase s1 a c p1 /\ p1 <> Undef /\ forall r, p1 <> Ret r) -> exists s', go_on s1 a c p1 = Ok s' /\ excl s'.
Proof.
  intros K B Hb Et En Eb Ec Ho Hp.
  assert (Back : forall r, r = 0%Z \/ c <> Lock -> excl (returned s1 a c r)).
  { intros r Hr. apply (excl_change s _ a); auto.
    - unfold returned. destruct c; [destruct (r =? 0)%Z|..]; exact Et.
    - unfold returned. destruct c; [destruct (r =? 0)%Z|..]; exact En.
    - intros b Nb. left. unfold returned. destruct c; [destruct (r =? 0)%Z|..]; cbn; rewrite ?upd_other, ?Eb, ?Ec by exact Nb; auto.
    - unfold holder, returned. destruct c; [destruct Hr as [->|Hr]; [|congruence]|..]; cbn; rewrite Ec; auto.
    - unfold returned. destruct c; [destruct (r =? 0)%Z|..]; exact Ho.
    - intros c' p'. unfold returned. destruct c; [destruct (r =? 0)%Z|..]; cbn; rewrite upd_same; discriminate. }
  destruct Hp as [->|[[Hc (r & ->)]|(F & N & Nr)]]; [eexists; split; [reflexivity|apply Back; auto]|eexists; split; [reflexivity|apply Back; auto]|].
  assert (E : go_on s1 a c p1 = Ok (set_busy s1 (upd (busy s1) a (Some (c, p1))))) by (destruct p1; try reflexivity; [destruct (Nr r eq_refl)|congruence]). rewrite E. eexists. split; [reflexivity|].
  apply (excl_change s _ a); cbn; auto.
  - intros b Nb. left. rewrite upd_other by exact Nb. rewrite Eb, Ec. auto.
  - unfold holder. cbn. rewrite Ec. auto.
  - intros c' p' Q. rewrite upd_same in Q. injection Q as <- <-. split.
    + apply (fphase_less s1); auto.
    + intros b c' p' Nb Q. assert (a <> b) by congruence. eapply (x_alone s K); eauto.
Qed.
Lemma excl_init o : (forall t, o = Some t -> readable t) -> excl (init o).
Proof. intros R. split; cbn; try discriminate; unfold holder; cbn; try congruence. intros j. destruct o; [apply R; reflexivity|exact nil_readable]. Qed.
Lemma excl_step s e : excl s -> book w s -> one_at_a_time s e -> exists s', step w s e = Ok s' /\ excl s'.
Proof.
  intros K B C. destruct e as [n|n|a c|a f]; cbn [step].
  - destruct (existsb _ _); eexists; (split; [reflexivity|]); [exact K|]. apply (excl_change s _ 0); cbn; auto; try congruence. intros c p H. split; [apply (fphase_less s); auto; apply (x_phase s K); exact H|]. intros b c' p' Nb Q. assert (0 <> b) by congruence. eapply (x_alone s K); eauto.
  - destruct (is_live s n); eexists; (split; [reflexivity|]); [|exact K]. apply (excl_change s _ 0); cbn; auto; try congruence.
    + intros b _. destruct (proc w b =? n); auto.
    + unfold holder. cbn. destruct (proc w 0 =? n); congruence.
    + intros c p H. assert (Q : busy s 0 = Some (c, p)) by (destruct (proc w 0 =? n); congruence). split; [|intros b c' p' Nb Q'; assert (0 <> b) by congruence; eapply (x_alone s K); eauto].
      apply (fphase_less s); auto; [|apply (x_phase s K); exact Q]. intros b. unfold holder. cbn. destruct (proc w b =? n); congruence.
  - destruct (is_live s (proc w a)); [|eauto]. destruct (busy s a) eqn:Eb; [eauto|]. rewrite D. cbn [one_at_a_time] in C.
    assert (Ch : c = Check \/ forall b, busy s b = None) by (destruct c; auto).
    set (k := match c with Lock => file_locking (mine a) | Unlock => file_unlocking (mine a) | Check => check_end a end).
    set (s1 := if (match c with Unlock => true | _ => false end) then set_count (note s (Called a c)) (upd (count s) a 0) else note s (Called a c)).
    assert (E : call_file w (note s (Called a c)) a c = Ok (set_busy s1 (upd (busy s1) a (Some (c, readpid k))))) by (destruct c; reflexivity). rewrite E. eexists. split; [reflexivity|].
    assert (S1 : named s1 = named s /\ texts s1 = texts s /\ busy s1 = busy s /\ (forall b, b <> a -> count s1 b = count s b) /\ (count s1 a <> 0 -> count s a <> 0) /\ (c = Unlock -> count s1 a = 0)).
    { unfold s1. destruct c; cbn; (do 3 (split; [reflexivity|])); (split; [intros b Nb; rewrite ?upd_other by exact Nb; reflexivity|]); rewrite ?upd_same; split; auto; discriminate. }
    destruct S1 as (S1 & S2 & S3 & S4 & S5 & S6).
    apply (excl_change s _ a); cbn; auto; try congruence.
    + intros b Nb. rewrite upd_other by exact Nb. rewrite S3, S4 by exact Nb. auto.
    + intros c' p Q. rewrite upd_same in Q. injection Q as <- <-. split.
      * assert (R : forall s, reading s k (readpid k)) by (intros; left; reflexivity). destruct c; cbn [fphase]; [left; apply R|split; [apply S6; reflexivity|left; apply R]|apply R].
      * intros b c' p' Nb Q. destruct Ch as [->|Ch]; [|rewrite Ch in Q; discriminate]. split; [reflexivity|]. eapply C; eauto.
  - destruct (busy s a) as [[c p]|] eqn:Eb; [|eauto]. pose proof (x_phase s K a c p Eb) as F.
    assert (Cf : f = true -> ~ writing_or_reading p). { intros -> H. apply C. exists c, p. auto. }
    assert (Co : c <> Check -> forall b c' p', b <> a -> busy s b = Some (c', p') -> c' = Check). { intros Nc b c' p' Nb Q. assert (Nb' : a <> b) by congruence. destruct (x_alone s K a b c c' p p' Nb' Eb Q). congruence. }
    assert (Ca : forall b c' p', b <> a -> busy s b = Some (c', p') -> c' = Check) by (intros b c' p' Nb Q; assert (Nb' : a <> b) by congruence; destruct (x_alone s K a b c c' p p' Nb' Eb Q); assumption).
    assert (NoR : forall s' k p', reading s' k p' -> p' <> Undef /\ forall r, p' <> Ret r) by (intros s' k p' [->|[->|[(j & -> & _)|[(q & -> & _)|(-> & _)]]]]; split; discriminate).
    assert (Sys : forall s1 p1, syscall w s p f = (s1, p1) -> busy s1 = busy s /\ count s1 = count s) by (intros s1 p1 E; pose proof (syscall_rest w s p f) as H; rewrite E in H; cbn in H; tauto).
    destruct c; cbn [fphase] in F.
    + destruct F as [R|[->|(i & -> & En & Et & N)]].
      * destruct (reading_step s _ p f B K R Cf) as (s1 & p1 & E & T & Nm & Q). rewrite E. destruct (Sys _ _ E) as [Y1 Y2].
        eapply excl_go; eauto. destruct Q as [Q|(z & -> & Hz)]; [right; right; destruct (NoR _ _ _ Q); split; [left; exact Q|auto]|]. unfold file_locking. destruct (is_ours (mine a) z); [|auto]. right; right. split; [right; left; reflexivity|]. split; discriminate.
      * cbn [syscall] in *. destruct f; [eapply excl_go; eauto|]. destruct (named s) as [i|] eqn:En; [eapply excl_go; eauto; cbn; rewrite En; auto|]. cbn [file_make]. rewrite file_text_is by apply P. cbn [print_text go_on]. eexists. split; [reflexivity|].
        assert (N : nobody s) by (intros o Ho; destruct (x_text s K o Ho) as (i & E & _); congruence). set (s' := set_busy _ _).
        assert (N' : nobody s') by exact N. assert (Ba : forall b, b <> a -> busy s' b = busy s b) by (intros b Nb; cbn; apply upd_other; exact Nb).
        assert (Bs : busy s' a = Some (Lock, Print (fresh s) (ft (mine a)) (Ret 1))) by (cbn; apply upd_same).
        split.
        -- intros b d H. destruct (N' b H).
        -- intros b H. destruct (N' b H).
        -- intros j. cbn. unfold upd. destruct (j =? fresh s); [exact nil_readable|apply (x_read s K)].
        -- intros b c q H. destruct (Nat.eq_dec b a) as [->|Nb]; [rewrite Bs in H; injection H as <- <-; right; right; exists (fresh s); split; [reflexivity|]; split; [reflexivity|]; split; [apply upd_same|exact N']|]. rewrite (Ba b Nb) in H. pose proof (Ca b c q Nb H). subst c. cbn. apply (reading_less s); auto. apply (x_phase s K b Check q H).
        -- intros b d c c' q q' Nbd H1 H2. destruct (Nat.eq_dec b a) as [->|Nb]; [|destruct (Nat.eq_dec d a) as [->|Nd]].
           ++ rewrite (Ba d) in H2 by congruence. exfalso. destruct (x_alone s K a d Lock c' _ q' Nbd Eb H2). discriminate.
           ++ rewrite (Ba b) in H1 by congruence. exfalso. assert (Nbd' : a <> b) by congruence. destruct (x_alone s K a b Lock c _ q Nbd' Eb H1). discriminate.
           ++ rewrite (Ba b) in H1 by assumption. rewrite (Ba d) in H2 by assumption. exact (x_alone s K b d c c' q q' Nbd H1 H2).
      * destruct f; [destruct (Cf eq_refl I)|]. cbn [syscall go_on]. eexists. split; [reflexivity|]. set (s' := returned _ _ _ _).
        assert (Hc : forall b, count s' b = upd (count s) a 1 b) by reflexivity. assert (Ho : forall b, holder s' b -> b = a). { intros b H. unfold holder in H. rewrite Hc in H. unfold upd in H. destruct (Nat.eqb_spec b a); [assumption|]. destruct (N b H). }
        assert (Only : forall b, busy s' b = None). { intros b. cbn. unfold upd. destruct (Nat.eqb_spec b a); [reflexivity|]. destruct (busy s b) as [[c' p']|] eqn:Q; [|reflexivity]. assert (Nb' : a <> b) by congruence. destruct (x_alone s K a b Lock c' _ p' Nb' Eb Q). discriminate. }
        split.
        -- intros b d H1 H2. rewrite (Ho b H1), (Ho d H2). reflexivity.
        -- intros b H. rewrite (Ho b H). exists i. split; [exact En|]. cbn. rewrite upd_same, Et. reflexivity.
        -- intros j. cbn. unfold upd. destruct (j =? i); [rewrite Et; apply ft_readable, P|apply (x_read s K)].
        -- intros b c q H. rewrite Only in H. discriminate.
        -- intros b d c c' q q' _ H. rewrite Only in H. discriminate.
    + destruct F as [Z [R|[[-> N]|[R N]]]].
      * destruct (reading_step s _ p f B K R Cf) as (s1 & p1 & E & T & Nm & Q). rewrite E. destruct (Sys _ _ E) as [Y1 Y2].
        eapply excl_go; eauto. destruct Q as [Q|(z & -> & Hz)]; [right; right; destruct (NoR _ _ _ Q); split; [split; [congruence|left; exact Q]|auto]|]. unfold file_unlocking, is_ours. destruct ((z =? 0)%Z || (z =? mine a)%Z) eqn:Eo; [|auto]. right; right. split; [|split; discriminate]. split; [congruence|]. right; left. split; [reflexivity|].
        intros o Ho. unfold holder in Ho. rewrite Y2 in Ho. pose proof (P (proc w o)) as Po. pose proof (P (proc w a)) as Pa. apply orb_true_iff in Eo. destruct (Hz o Ho) as [->| ->].
        -- destruct Eo as [Eo|Eo]; apply Z.eqb_eq in Eo; [lia|]. assert (In (proc w o) (live s)) by (apply (b_live w s B); auto). assert (In (proc w a) (live s)) by (apply (b_live w s B); left; congruence).
           pose proof (b_pids w s B _ _ H H0 Eo) as Q. apply J in Q. subst o. congruence.
        -- destruct Eo as [Eo|Eo]; apply Z.eqb_eq in Eo; lia.
      * assert (E : exists s1, syscall w s (Unlink (fun _ => readpid file_after)) f = (s1, readpid file_after) /\ texts s1 = texts s) by (cbn; destruct f; [|destruct (named s)]; eexists; split; reflexivity).
        destruct E as (s1 & E & T). rewrite E. destruct (Sys _ _ E) as [Y1 Y2]. eapply excl_go; eauto. right; right. split; [|split; discriminate]. split; [congruence|]. right; right. split; [left; reflexivity|]. intros o Ho. apply (N o). unfold holder in *. congruence.
      * destruct (reading_step s _ p f B K R Cf) as (s1 & p1 & E & T & Nm & Q). rewrite E. destruct (Sys _ _ E) as [Y1 Y2].
        eapply excl_go; eauto. destruct Q as [Q|(z & -> & Hz)]; [|right; left; split; [discriminate|unfold file_after; eauto]]. right; right. destruct (NoR _ _ _ Q). split; [|auto]. split; [congruence|]. right; right. split; [exact Q|]. intros o Ho. apply (N o). unfold holder in *. congruence.
    + destruct (reading_step s _ p f B K F Cf) as (s1 & p1 & E & T & Nm & Q). rewrite E. destruct (Sys _ _ E) as [Y1 Y2].
      eapply excl_go; eauto. destruct Q as [Q|(z & -> & Hz)]; [|right; left; split; [discriminate|unfold check_end; eauto]]. right; right. destruct (NoR _ _ _ Q). auto.
Qed.
End FileLocks.
