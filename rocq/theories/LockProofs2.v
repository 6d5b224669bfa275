(** WvLockDev: at most one object holds the lock *)
From Verif Require Import Base Ctype DecSpec UrlModel IntFmtModel IntFmtProofs LockModel LockSpec LockProofs.
Local Open Scope nat_scope.
Local Arguments held : simpl never.

Lemma skip_spaces n l : skip_space (repeat " "%char n ++ l) = skip_space l.
Proof. induction n as [|n IH]; [reflexivity|exact IH]. Qed.
Lemma dt_readable me : (0 < me < 2 ^ 31)%Z -> readable (dt me).
Proof.
  intros R l H. destruct (dt_line me R) as (l' & E & T). rewrite E in H. injection H as <-. rewrite T, me_atoi by exact R. split; [|eauto].
  assert (E' : l' = repeat " "%char (10 - length (sdec me)) ++ sdec me).
  { unfold dt in E. rewrite app_assoc, line_plain in E; [congruence|]. apply Forall_app. split; [apply Forall_forall; intros c H; apply repeat_spec in H; subst c; auto|].
    eapply Forall_impl; [|apply me_digits; exact R]. intros c H. pose proof (isd_not c H). tauto. }
  exists me. subst l'. unfold atoi. rewrite skip_spaces. exact (me_atoi me R).
Qed.
Lemma nil_readable : readable [].
Proof. intros l H. discriminate. Qed.

Section Dev.
Variable w : world.
Hypothesis D : what w = Dev.
Hypothesis P : good_pids w.
Notation mine a := (pid w (proc w a)).
(** Who made the lock file, if anybody alive did *)
Definition owner (s : st) (a : nat) : Prop :=
  count s a <> 0 \/ (exists p, busy s a = Some (Unlock, p)) \/ exists i t k, busy s a = Some (Lock, Print i t k).
Record own (s : st) : Prop := Own
  { o_uniq : forall a b, owner s a -> owner s b -> a = b;
    o_text : forall a, owner s a -> exists i, named s = Some i /\ (texts s i = [] \/ texts s i = dt (mine a)) /\
               forall j t k, busy s a = Some (Lock, Print j t k) -> j = i /\ t = dt (mine a) /\ k = Ret 1 /\ texts s i = [];
    o_unl : forall a c p, busy s a = Some (c, p) -> c = Lock \/ c = Unlock /\ p = dev_unlock;
    o_read : forall j, readable (texts s j) }.
Lemma own_change s s' a : own s -> named s' = named s -> texts s' = texts s ->
  (forall b, b <> a -> busy s' b = busy s b /\ count s' b = count s b \/ busy s' b = None /\ count s' b = 0) ->
  (owner s' a -> owner s a) -> (forall j t k, busy s' a = Some (Lock, Print j t k) -> busy s a = Some (Lock, Print j t k)) ->
  (forall c p, busy s' a = Some (c, p) -> c = Lock \/ c = Unlock /\ p = dev_unlock) ->
  own s' /\ forall b, owner s' b -> owner s b.
Proof.
  intros [A1 A2 A3 A4] En Et Hb Ha Hp Hu.
  assert (O : forall b, owner s' b -> owner s b).
  { intros b Hob. destruct (Nat.eq_dec b a) as [->|Nb]; [auto|]. destruct (Hb b Nb) as [[E1 E2]|[E1 E2]]; unfold owner in *; rewrite E1, E2 in Hob; [exact Hob|]. destruct Hob as [H|[[p H]|(i & t & k & H)]]; congruence. }
  split; [|exact O]. split.
  - intros b c Hbo Hc. apply A1; auto.
  - intros b Hob. destruct (A2 b (O b Hob)) as (i & E & T & Q). exists i. rewrite En, Et. split; [exact E|]. split; [exact T|]. intros j t k H. apply (Q j t). destruct (Nat.eq_dec b a) as [->|Nb]; [auto|]. destruct (Hb b Nb) as [[E1 _]|[E1 _]]; congruence.
  - intros b c p H. destruct (Nat.eq_dec b a) as [->|Nb]; [eauto|]. destruct (Hb b Nb) as [[E1 _]|[E1 _]]; [rewrite E1 in H; eauto|congruence].
  - rewrite Et. exact A4.
Qed.
Lemma own_none s : (forall a, ~ owner s a) -> (forall j, readable (texts s j)) -> (forall a c p, busy s a = Some (c, p) -> c <> Check) -> own s.
Proof.
  intros N R C. split; [intros a b H; destruct (N a H)|intros a H; destruct (N a H)| |exact R]. intros a c p H. destruct c; [auto| |destruct (C _ _ _ H eq_refl)]. exfalso. apply (N a). right. left. eauto.
Qed.
Lemma own_create s s' a i : own s -> (forall b, ~ owner s b) -> named s' = Some i -> texts s' i = [] -> (forall j, j <> i -> texts s' j = texts s j) ->
  (forall b, b <> a -> busy s' b = busy s b /\ count s' b = count s b) -> count s' a = 0 -> busy s' a = Some (Lock, Print i (dt (mine a)) (Ret 1)) -> own s'.
Proof.
  intros [A1 A2 A3 A4] N En Et Eo Eb Ec Ea.
  assert (O : forall b, owner s' b -> b = a). { intros b H. destruct (Nat.eq_dec b a) as [|Nb]; [assumption|]. exfalso. apply (N b). destruct (Eb b Nb) as [E1 E2]. unfold owner in *. rewrite E1, E2 in H. exact H. }
  split.
  - intros b c Hb Hc. apply O in Hb, Hc. congruence.
  - intros b Hb. apply O in Hb. subst b. exists i. split; [exact En|]. split; [auto|]. intros j t k H. rewrite Ea in H. injection H as <- <- <-. auto.
  - intros b c p H. destruct (Nat.eq_dec b a) as [->|Nb]; [rewrite Ea in H; injection H as <- _; auto|]. destruct (Eb b Nb) as [E1 _]. rewrite E1 in H. eauto.
  - intros j. destruct (Nat.eq_dec j i) as [->|Nj]; [rewrite Et; exact nil_readable|rewrite (Eo j Nj); apply A4].
Qed.
(** The file is written *)
Lemma own_write s s' a i f : own s -> busy s a = Some (Lock, Print i (dt (mine a)) (Ret 1)) -> named s' = named s ->
  (forall j, texts s' j = if f : bool then texts s j else upd (texts s) i (texts s i ++ dt (mine a)) j) ->
  (forall b, b <> a -> busy s' b = busy s b /\ count s' b = count s b) -> count s' a = 1 -> busy s' a = None -> own s' /\ forall b, owner s' b -> owner s b.
Proof.
  intros [A1 A2 A3 A4] Ep En Et Eb Ec Ea. assert (Oa : owner s a) by (right; right; eauto).
  assert (O : forall b, owner s' b -> owner s b). { intros b H. destruct (Nat.eq_dec b a) as [->|Nb]; [exact Oa|]. destruct (Eb b Nb) as [E1 E2]. unfold owner in *. rewrite E1, E2 in H. exact H. }
  destruct (A2 a Oa) as (i' & En' & T & Q). destruct (Q _ _ _ Ep) as (<- & _ & _ & T0).
  split; [|exact O]. split.
  - intros b c Hb Hc. apply A1; auto.
  - intros b Hb. assert (b = a) by (apply A1; auto). subst b. exists i. rewrite En. split; [exact En'|]. rewrite Et. split; [destruct f; [auto|]; rewrite upd_same, T0; auto|]. intros j t k H. congruence.
  - intros b c p H. destruct (Nat.eq_dec b a) as [->|Nb]; [congruence|]. destruct (Eb b Nb) as [E1 _]. rewrite E1 in H. eauto.
  - intros j. rewrite Et. destruct f; [apply A4|]. unfold upd. destruct (j =? i); [rewrite T0; apply dt_readable, P|apply A4].
Qed.
Lemma owner_named s a : own s -> owner s a -> named s <> None.
Proof. intros K H. destruct (o_text s K a H) as (i & E & _). congruence. Qed.

(** ** One lock() at a time *)
Definition free (s : st) : Prop := forall a, ~ owner s a.
Definition phase (s : st) (a : nat) (p : prog) : Prop :=
  p = OpenNew (dev_make (mine a)) \/ p = OpenOld (dev_opened (mine a)) \/
  (exists j, p = Getline j (dev_line (mine a)) /\ (named s = Some j \/ free s)) \/
  (exists q, p = Kill q (dev_asked (mine a)) /\ forall o, owner s o -> q = mine o) \/
  (p = Unlink (dev_removed (mine a)) /\ free s) \/
  (p = OpenNew (dev_again (mine a)) /\ free s /\ named s = None) \/
  exists i, p = Print i (dt (mine a)) (Ret 1).
Record serial (s : st) : Prop := Serial
  { r_own : own s; r_phase : forall a p, busy s a = Some (Lock, p) -> phase s a p;
    r_one : forall a b p q, busy s a = Some (Lock, p) -> busy s b = Some (Lock, q) -> a = b }.
Lemma phase_less s s' a p : named s' = named s -> (forall b, owner s' b -> owner s b) -> phase s a p -> phase s' a p.
Proof.
  intros En O. unfold phase. rewrite En. intros [H|[H|[(j & H & [N|F])|[(q & H & N)|[(H & F)|[(H & F & N)|H]]]]]]; auto.
  - right; right; left. exists j. auto.
  - right; right; left. exists j. split; [exact H|right]. intros b Hb. apply (F b). auto.
  - right; right; right; left. exists q. auto.
  - do 4 right; left. split; [exact H|]. intros b Hb. apply (F b). auto.
  - do 5 right; left. split; [exact H|]. split; [|exact N]. intros b Hb. apply (F b). auto.
  - do 6 right. exact H.
Qed.
Lemma serial_change s s' a : serial s -> named s' = named s -> texts s' = texts s ->
  (forall b, b <> a -> busy s' b = busy s b /\ count s' b = count s b \/ busy s' b = None /\ count s' b = 0) ->
  (owner s' a -> owner s a) -> (forall j t k, busy s' a = Some (Lock, Print j t k) -> busy s a = Some (Lock, Print j t k)) ->
  (forall c p, busy s' a = Some (c, p) -> c = Lock \/ c = Unlock /\ p = dev_unlock) ->
  (forall p, busy s' a = Some (Lock, p) -> phase s a p /\ forall b q, busy s b = Some (Lock, q) -> b = a) -> serial s'.
Proof.
  intros [K F O] En Et Hb Ha Hp Hu Hq. destruct (own_change s s' a K En Et Hb Ha Hp Hu) as [K' Ow]. split; [exact K'| |].
  - intros b p H. apply (phase_less s s'); auto. destruct (Nat.eq_dec b a) as [->|Nb]; [apply Hq; exact H|]. destruct (Hb b Nb) as [[E1 _]|[E1 _]]; [rewrite E1 in H; auto|congruence].
  - intros b c p q H1 H2. 
    assert (G : forall x p, busy s' x = Some (Lock, p) -> x = a \/ busy s x = Some (Lock, p)). { intros x p0 H. destruct (Nat.eq_dec x a) as [->|Nx]; [auto|]. right. destruct (Hb x Nx) as [[E1 _]|[E1 _]]; congruence. }
    destruct (G _ _ H1) as [->|G1]; destruct (G _ _ H2) as [->|G2]; auto.
    + symmetry. eapply (Hq _ H1). exact G2.
    + eapply (Hq _ H2). exact G1.
    + eapply O; eauto.
Qed.
(** No live process has made the file that has been found gone *)
Lemma gone_free s q f : book w s -> own s -> (forall o, owner s o -> q = mine o) -> gone w s q f = true -> free s.
Proof.
  intros B K H G o Ho. specialize (H o Ho). unfold gone in G. pose proof (P (proc w o)) as R. subst q. destruct (Z.ltb_spec 0 (mine o)); [|lia].
  apply negb_true_iff in G. assert (E : existsb (fun n => (pid w n =? mine o)%Z) (live s) = true); [|congruence]. apply existsb_exists. exists (proc w o). split; [|apply Z.eqb_refl].
  apply (b_live w s B). destruct Ho as [Ho|[[p Ho]|(i & t & k & Ho)]]; [auto|left; congruence|left; congruence].
Qed.
Definition quiet (s : st) (a : nat) (s' : st) : Prop := named s' = named s /\ texts s' = texts s /\ (forall b, b <> a -> busy s' b = busy s b /\ count s' b = count s b).
Lemma returned_0 s a c : (c <> Lock \/ True) -> quiet s a (returned s a c 0) /\ busy (returned s a c 0) a = None /\ count (returned s a c 0) a = count s a.
Proof. intros _. unfold returned. destruct c; cbn; (split; [split; [reflexivity|split; [reflexivity|]]; intros b Nb; cbn; rewrite ?upd_other by exact Nb; auto|]); cbn; rewrite ?upd_same; auto. Qed.
Lemma serial_back s a s' p : serial s -> book w s -> busy s a = Some (Lock, p) -> quiet s a s' -> busy s' a = None -> count s' a = count s a -> serial s'.
Proof.
  intros K B Hb (E1 & E2 & E3) E4 E5. apply (serial_change s s' a); auto; try congruence. intros [H|[[q H]|(i & t & k & H)]]; try congruence. left. congruence.
Qed.
Lemma serial_on s a p0 p : serial s -> book w s -> busy s a = Some (Lock, p0) -> (forall i t k, p0 <> Print i t k) -> (forall i t k, p <> Print i t k) -> phase s a p -> serial (set_busy s (upd (busy s) a (Some (Lock, p)))).
Proof.
  intros K B Hb N0 N Ph. apply (serial_change s _ a); cbn; auto; rewrite ?upd_same.
  - intros b Nb. rewrite upd_other by exact Nb. auto.
  - intros [H|[[q H]|(i & t & k & H)]]; [left; exact H| |]; cbn in H; rewrite upd_same in H; [discriminate|]. injection H as H. destruct (N _ _ _ H).
  - intros j t k H. injection H as H. destruct (N _ _ _ H).
  - intros c q H. injection H as <- _. auto.
  - intros q H. injection H as <-. split; [exact Ph|]. intros b q H'. eapply (r_one s K); eauto.
Qed.
Lemma serial_create s a p0 p : serial s -> book w s -> busy s a = Some (Lock, p0) -> named s = None -> p = print_text (dev_text (mine a)) (fresh s) ->
  exists s', go_on (set_fs s (Some (fresh s)) (upd (texts s) (fresh s) []) (S (fresh s))) a Lock p = Ok s' /\ serial s'.
Proof.
  intros K B Hb En ->. rewrite dev_text_is by apply P. cbn [print_text go_on]. eexists. split; [reflexivity|].
  assert (F : free s) by (intros b Ho; apply (owner_named s b (r_own s K) Ho En)).
  set (s' := set_busy _ _).
  assert (Kw : own s'). { apply (own_create s s' a (fresh s)); [exact (r_own s K)|exact F|reflexivity|apply upd_same|intros j Nj; apply upd_other; exact Nj|intros b Nb; cbn; rewrite upd_other by exact Nb; auto|apply (b_dev w s B D a p0 Hb)|cbn; apply upd_same]. }
  assert (G : forall x p, busy s' x = Some (Lock, p) -> x = a).
  { intros x q H. cbn in H. unfold upd in H. destruct (Nat.eqb_spec x a); [assumption|]. eapply (r_one s K); eauto. }
  split; [exact Kw| |intros x y p q H1 H2; rewrite (G x p H1), (G y q H2); reflexivity].
  intros x q H. pose proof (G x q H). subst x. cbn in H. rewrite upd_same in H. injection H as <-. do 6 right. eauto.
Qed.
Lemma serial_step s e : serial s -> book w s -> one_lock_at_a_time s e -> exists s', step w s e = Ok s' /\ serial s'.
Proof.
  intros K B C. destruct e as [n|n|a c|a f]; cbn [step].
  - destruct (existsb _ _); eexists; (split; [reflexivity|]); [exact K|]. apply (serial_change s _ 0); cbn; auto; intros. { apply (o_unl s (r_own s K) 0). assumption. } split; [apply (r_phase s K); assumption|intros; eapply (r_one s K); eauto].
  - destruct (is_live s n); eexists; (split; [reflexivity|]); [|exact K]. apply (serial_change s _ 0); cbn; auto; intros.
    + destruct (proc w b =? n); auto.
    + unfold owner in *. cbn in *. destruct (proc w 0 =? n); [|assumption]. exfalso. destruct H as [H|[[q H]|(i & t & k & H)]]; congruence.
    + destruct (proc w 0 =? n); [discriminate|assumption].
    + destruct (proc w 0 =? n); [discriminate|]. apply (o_unl s (r_own s K) 0). assumption.
    + destruct (proc w 0 =? n); [discriminate|]. split; [apply (r_phase s K); assumption|intros; eapply (r_one s K); eauto].
  - destruct (is_live s (proc w a)); [|eauto]. destruct (busy s a) eqn:Eb; [eauto|]. rewrite D.
    assert (Simple : forall s', named s' = named s -> texts s' = texts s -> busy s' = busy s -> (forall b, b <> a -> count s' b = count s b) -> (count s' a <> 0 -> count s a <> 0) -> serial s').
    { intros s' E1 E2 E3 E4 E5. apply (serial_change s s' a); auto; rewrite ?E3; auto; rewrite ?Eb; try discriminate. unfold owner. rewrite E3, Eb. intros [H|[[q H]|(i & t & k & H)]]; [auto|discriminate|discriminate]. }
    destruct c; cbn [call_dev count note].
    + destruct (count s a) eqn:Ec.
      * cbn [go_on dev_lock]. eexists. split; [reflexivity|]. apply (serial_change s _ a); cbn; auto; rewrite ?upd_same; intros.
        -- rewrite upd_other by assumption. auto.
        -- destruct H as [H|[[q H]|(i & t & k & H)]]; [left; exact H| |]; cbn in H; rewrite upd_same in H; discriminate.
        -- discriminate.
        -- injection H as <- _. auto.
        -- injection H as <-. split; [left; reflexivity|]. intros b q Hq. destruct (C b q Hq).
      * eexists. split; [reflexivity|]. apply Simple; cbn; auto; intros; rewrite ?upd_other by assumption; congruence.
    + destruct (count s a) as [|[|n]] eqn:Ec.
      * eexists. split; [reflexivity|]. apply Simple; cbn; auto.
      * cbn [go_on dev_unlock]. eexists. split; [reflexivity|]. apply (serial_change s _ a); cbn; auto; rewrite ?upd_same; intros; try discriminate.
        -- rewrite !upd_other by assumption. auto.
        -- left. congruence.
        -- injection H as <- <-. auto.
      * eexists. split; [reflexivity|]. apply Simple; cbn; auto; intros; rewrite ?upd_other by assumption; congruence.
    + eexists. split; [reflexivity|]. apply Simple; cbn; auto.
  - destruct (busy s a) as [[c p]|] eqn:Eb; [|eauto]. destruct (o_unl s (r_own s K) a c p Eb) as [->|[-> ->]].
    + (* lock *)
      pose proof (b_dev w s B D a p Eb) as Ec.
      assert (Cf : creating p -> f = false) by (intros H; destruct f; [|reflexivity]; exfalso; apply C; exists Lock, p; auto).
      assert (Back : exists s', go_on s a Lock (Ret 0) = Ok s' /\ serial s'). { eexists. split; [reflexivity|]. destruct (returned_0 s a Lock (or_intror I)) as (Q & Q1 & Q2). eapply serial_back; eauto. }
      destruct (r_phase s K a p Eb) as [->|[->|[(j & -> & Hj)|[(q & -> & Hq)|[(-> & F)|[(-> & F & En)|(i & ->)]]]]]]; cbn [syscall].
      * rewrite (Cf I). destruct (named s) eqn:En; cbn [dev_make].
        -- cbn [go_on]. eexists. split; [reflexivity|]. apply (serial_on s a _ _ K B Eb); try discriminate. right; left; reflexivity.
        -- eapply serial_create; eauto.
      * destruct f; [exact Back|]. destruct (named s) as [j|] eqn:En; [|exact Back]. cbn [dev_opened go_on]. eexists. split; [reflexivity|]. apply (serial_on s a _ _ K B Eb); try discriminate. right; right; left. exists j. auto.
      * destruct f; [exact Back|]. destruct (first_line (texts s j)) as [l|] eqn:El; [|exact Back]. cbn [dev_line]. destruct (o_read s (r_own s K) j l El) as (_ & z & Ez). rewrite Ez.
        destruct ((z =? 0)%Z || (z =? -1)%Z); [exact Back|]. cbn [go_on]. eexists. split; [reflexivity|]. apply (serial_on s a _ _ K B Eb); try discriminate. right; right; right; left. exists z. split; [reflexivity|].
        intros o Ho. destruct Hj as [Hj|F]; [|destruct (F o Ho)]. destruct (o_text s (r_own s K) o Ho) as (i & E & T & _). assert (i = j) by congruence. subst i. destruct T as [T|T]; rewrite T in El; [discriminate|].
        destruct (dt_line (mine o) (P _)) as (l' & E' & Tr). rewrite E' in El. injection El as <-. rewrite Tr, me_atoi in Ez by apply P. congruence.
      * destruct (gone w s q f) eqn:Eg; [|exact Back]. cbn [dev_asked go_on]. eexists. split; [reflexivity|]. apply (serial_on s a _ _ K B Eb); try discriminate. do 4 right; left. split; [reflexivity|]. eapply gone_free; eauto using r_own.
      * destruct f; [exact Back|]. destruct (named s) as [i|] eqn:En; [|exact Back]. cbn [dev_removed go_on]. eexists. split; [reflexivity|].
        set (s' := set_busy _ _).
        assert (Bo : forall x, x <> a -> busy s' x = busy s x) by (intros x Nx; cbn; apply upd_other; exact Nx).
        assert (Ba : busy s' a = Some (Lock, OpenNew (dev_again (mine a)))) by (cbn; apply upd_same).
        assert (F' : free s').
        { intros b Hb. destruct (Nat.eq_dec b a) as [->|Nb]; [|apply (F b); unfold owner in *; rewrite (Bo b Nb) in Hb; exact Hb]. unfold owner in Hb. rewrite Ba in Hb. cbn [count s' set_busy set_fs] in Hb. destruct Hb as [H|[[x H]|(x & t & k & H)]]; [congruence|discriminate|discriminate]. }
        assert (G : forall x p, busy s' x = Some (Lock, p) -> x = a). { intros x q H. destruct (Nat.eq_dec x a); [assumption|]. rewrite Bo in H by assumption. eapply (r_one s K); eauto. }
        split.
        -- apply own_none; [exact F'|exact (o_read s (r_own s K))|]. intros x c q H. destruct (Nat.eq_dec x a) as [->|Nx]; [congruence|]. rewrite Bo in H by exact Nx. destruct (o_unl s (r_own s K) x c q H) as [->|[-> _]]; discriminate.
        -- intros x q H. pose proof (G x q H). subst x. rewrite Ba in H. injection H as <-. do 5 right; left. auto.
        -- intros x y q r H1 H2. rewrite (G x q H1), (G y r H2). reflexivity.
      * rewrite (Cf I), En. cbn [dev_again]. eapply serial_create; eauto.
      * cbn [go_on]. eexists. split; [reflexivity|].
        set (s' := returned _ _ _ _).
        assert (Sn : named s' = named s) by (unfold s'; destruct f; reflexivity).
        assert (St' : forall j, texts s' j = if f then texts s j else upd (texts s) i (texts s i ++ dt (mine a)) j) by (unfold s'; destruct f; reflexivity).
        assert (Sb : forall b, b <> a -> busy s' b = busy s b /\ count s' b = count s b) by (intros b Nb; unfold s'; destruct f; cbn; rewrite !upd_other by exact Nb; auto).
        assert (Sc : count s' a = 1) by (unfold s'; destruct f; cbn; apply upd_same).
        assert (Sa : busy s' a = None) by (unfold s'; destruct f; cbn; apply upd_same).
        destruct (own_write s s' a i f (r_own s K) Eb Sn St' Sb Sc Sa) as [Kw Ow].
        split; [exact Kw| |].
        -- intros x q H. destruct (Nat.eq_dec x a) as [->|Nx]; [congruence|]. destruct (Sb x Nx) as [E1 _]. rewrite E1 in H. eapply phase_less; eauto. apply (r_phase s K). exact H.
        -- intros x y q r H1 H2. destruct (Nat.eq_dec x a) as [->|Nx]; [congruence|]. destruct (Nat.eq_dec y a) as [->|Ny]; [congruence|]. destruct (Sb x Nx) as [E1 _]. destruct (Sb y Ny) as [E2 _]. rewrite E1 in H1. rewrite E2 in H2. eapply (r_one s K); eauto.
    + (* unlock *)
      pose proof (b_dev2 w s B D a _ Eb) as Ec. assert (Oa : owner s a) by (right; left; eauto).
      assert (Q : forall s', (exists o, named s' = o /\ (o = named s \/ o = None)) -> texts s' = texts s -> (forall b, b <> a -> busy s' b = busy s b /\ count s' b = count s b) -> busy s' a = None -> count s' a = 0 -> serial s').
      { intros s' (o & En & Ho) Et Eo Ea Ea'.
        assert (F' : free s'). { intros b Hb. destruct (Nat.eq_dec b a) as [->|Nb]; [unfold owner in Hb; rewrite Ea, Ea' in Hb; destruct Hb as [H|[[x H]|(x & t & k & H)]]; congruence|]. apply Nb. apply (o_uniq s (r_own s K)); [|exact Oa]. destruct (Eo b Nb) as [E1 E2]. unfold owner in *. rewrite E1, E2 in Hb. exact Hb. }
        assert (G : forall x c p, busy s' x = Some (c, p) -> busy s x = Some (c, p)). { intros x c p H. destruct (Nat.eq_dec x a) as [->|Nx]; [congruence|]. destruct (Eo x Nx) as [E1 _]. congruence. }
        split.
        - apply own_none; [exact F'|rewrite Et; exact (o_read s (r_own s K))|]. intros x c q H. apply G in H. destruct (o_unl s (r_own s K) x c q H) as [->|[-> _]]; discriminate.
        - intros x p H. apply G in H. unfold phase. destruct (r_phase s K x p H) as [E|[E|[(j & E & Hj)|[(q & E & Hq)|[(E & F)|[(E & F & N)|E]]]]]]; auto.
          + right; right; left. exists j. auto.
          + right; right; right; left. exists q. split; [exact E|]. intros o' Ho'. destruct (F' o' Ho').
          + do 4 right; left. auto.
          + destruct (F a Oa).
          + do 6 right. exact E.
        - intros x y p q H1 H2. apply G in H1, H2. eapply (r_one s K); eauto. }
      unfold dev_unlock. cbn [syscall]. destruct f; [|destruct (named s) eqn:En]; cbn [go_on]; (eexists; split; [reflexivity|]); apply Q; unfold returned; cbn; rewrite ?upd_same; auto; try (intros b Nb; rewrite upd_other by exact Nb; auto); eexists; split; try reflexivity; auto.
Qed.

(** ** All calls overlap, and nobody ends while holding or while others look *)
Definition ltext (s : st) (t : bytes) : Prop := t = [] \/ exists n, In n (live s) /\ t = dt (pid w n).
Definition cphase (s : st) (a : nat) (p : prog) : Prop :=
  p = OpenNew (dev_make (mine a)) \/ p = OpenOld (dev_opened (mine a)) \/
  (exists j, p = Getline j (dev_line (mine a)) /\ ltext s (texts s j)) \/
  (exists q, p = Kill q (dev_asked (mine a)) /\ living w s q) \/
  exists i, p = Print i (dt (mine a)) (Ret 1).
Record calm (s : st) : Prop := Calm
  { c_own : own s; c_named : named s <> None -> exists a, owner s a;
    c_phase : forall a p, busy s a = Some (Lock, p) -> cphase s a p }.
Lemma cphase_more s s' a p : incl (live s) (live s') -> (forall j, ltext s (texts s j) -> ltext s' (texts s' j)) -> cphase s a p -> cphase s' a p.
Proof.
  intros I T. unfold cphase. intros [H|[H|[(j & H & L)|[(q & H & n & Hn & E)|H]]]].
  - left. exact H.
  - right; left. exact H.
  - right; right; left. eauto.
  - right; right; right; left. exists q. split; [exact H|]. exists n. auto.
  - do 4 right. exact H.
Qed.
Lemma calm_change s s' a : calm s -> named s' = named s -> texts s' = texts s -> incl (live s) (live s') ->
  (forall b, b <> a -> busy s' b = busy s b /\ count s' b = count s b) ->
  (owner s' a <-> owner s a) -> (forall j t k, busy s' a = Some (Lock, Print j t k) -> busy s a = Some (Lock, Print j t k)) ->
  (forall c p, busy s' a = Some (c, p) -> c = Lock \/ c = Unlock /\ p = dev_unlock) ->
  (forall p, busy s' a = Some (Lock, p) -> cphase s a p) -> calm s'.
Proof.
  intros [K N F] En Et I Hb Ha Hp Hu Hq. destruct (own_change s s' a K En Et) as [K' _]; [intros b Nb; left; apply Hb; exact Nb|apply Ha|exact Hp|exact Hu|]. split; [exact K'| |].
  - rewrite En. intros H. destruct (N H) as (b & Ob). exists b. destruct (Nat.eq_dec b a) as [->|Nb]; [apply Ha; exact Ob|]. unfold owner in *. destruct (Hb b Nb) as [-> ->]. exact Ob.
  - intros b p H. apply (cphase_more s); [exact I|rewrite Et; intros j [L|(n & L & E)]; [left; exact L|right; exists n; auto]|]. destruct (Nat.eq_dec b a) as [->|Nb]; [auto|]. destruct (Hb b Nb) as [E1 _]. rewrite E1 in H. auto.
Qed.
Lemma calm_back s a s' p : calm s -> book w s -> busy s a = Some (Lock, p) -> (forall i t k, p <> Print i t k) -> live s' = live s -> quiet s a s' -> busy s' a = None -> count s' a = count s a -> calm s'.
Proof.
  intros K B Hb Np El (E1 & E2 & E3) E4 E5. apply (calm_change s s' a); auto; try congruence.
  unfold owner. rewrite E4, E5, Hb. split; intros [H|[[q H]|(i & t & k & H)]]; try discriminate; auto. injection H as H. destruct (Np _ _ _ H).
Qed.
Lemma calm_on s a p0 p : calm s -> book w s -> busy s a = Some (Lock, p0) -> (forall i t k, p0 <> Print i t k) -> (forall i t k, p <> Print i t k) -> cphase s a p -> calm (set_busy s (upd (busy s) a (Some (Lock, p)))).
Proof.
  intros K B Hb N0 N Ph. apply (calm_change s _ a); cbn; auto; rewrite ?upd_same.
  - apply incl_refl.
  - intros b Nb. rewrite upd_other by exact Nb. auto.
  - unfold owner. cbn. rewrite upd_same, Hb. split; intros [H|[[q H]|(i & t & k & H)]]; try discriminate; auto; injection H as H; [destruct (N _ _ _ H)|destruct (N0 _ _ _ H)].
  - intros j t k H. injection H as H. destruct (N _ _ _ H).
  - intros c q H. injection H as <- _. auto.
  - intros q H. injection H as <-. exact Ph.
Qed.
Lemma calm_step s e : calm s -> book w s -> orderly_ends w s e -> exists s', step w s e = Ok s' /\ calm s'.
Proof.
  intros K B C. destruct e as [n|n|a c|a f]; cbn [step].
  - destruct (existsb _ _); eexists; (split; [reflexivity|]); [exact K|]. apply (calm_change s _ 0); cbn; auto; intros; [intros x Hx; right; exact Hx|unfold owner; cbn; tauto| |].
    + apply (o_unl s (c_own s K) 0). assumption.
    + apply (c_phase s K). assumption.
  - destruct (is_live s n); eexists; (split; [reflexivity|]); [|exact K]. destruct C as [C1 C2]. set (s' := note _ _).
    assert (C3 : forall a, proc w a = n -> count s a = 0) by (intros a Ha; rewrite (b_count w s B); auto).
    assert (Eb : forall a, busy s' a = None) by (intros a; cbn; destruct (proc w a =? n); auto).
    assert (Ec : forall a, count s' a = count s a) by (intros a; cbn; destruct (Nat.eqb_spec (proc w a) n); [rewrite C3; auto|reflexivity]).
    destruct (own_change s s' 0 (c_own s K)) as [K' _]; try reflexivity.
    + intros b _. rewrite Eb, Ec, C1. auto.
    + unfold owner. rewrite Eb, Ec, C1. auto.
    + intros j t k H. rewrite Eb in H. discriminate.
    + intros c p H. rewrite Eb in H. discriminate.
    + split; [exact K'| |intros b p H; rewrite Eb in H; discriminate]. intros H. destruct (c_named s K H) as (b & Ob). exists b. unfold owner in *. rewrite Eb, Ec, <- (C1 b). exact Ob.
  - destruct (is_live s (proc w a)) eqn:Elv; [|eauto]. destruct (busy s a) eqn:Eb; [eauto|]. rewrite D.
    assert (Simple : forall s', live s' = live s -> named s' = named s -> texts s' = texts s -> busy s' = busy s -> (forall b, b <> a -> count s' b = count s b) -> (count s' a <> 0 <-> count s a <> 0) -> calm s').
    { intros s' E0 E1 E2 E3 E4 E5. apply (calm_change s s' a); auto; rewrite ?E3, ?E0; auto; rewrite ?Eb; try discriminate; [apply incl_refl|]. unfold owner. rewrite E3, Eb. split; (intros [H|[[q H]|(i & t & k & H)]]; [left; tauto|discriminate|discriminate]). }
    destruct c; cbn [call_dev count note].
    + destruct (count s a) eqn:Ec.
      * cbn [go_on dev_lock]. eexists. split; [reflexivity|]. apply (calm_change s _ a); cbn; auto; rewrite ?upd_same; intros; try discriminate.
        -- apply incl_refl.
        -- rewrite upd_other by assumption. auto.
        -- unfold owner. cbn. rewrite upd_same, Eb. split; (intros [H|[[q H]|(i & t & k & H)]]; [left; exact H|discriminate|discriminate]).
        -- injection H as <- _. auto.
        -- injection H as <-. left; reflexivity.
      * eexists. split; [reflexivity|]. apply Simple; cbn; auto; intros; rewrite ?upd_same, ?upd_other by assumption; try congruence; split; congruence.
    + destruct (count s a) as [|[|n]] eqn:Ec.
      * eexists. split; [reflexivity|]. apply Simple; cbn; auto; try tauto; rewrite ?Ec; tauto.
      * cbn [go_on dev_unlock]. eexists. split; [reflexivity|]. apply (calm_change s _ a); cbn; auto; rewrite ?upd_same; intros; try discriminate.
        -- apply incl_refl.
        -- rewrite !upd_other by assumption. auto.
        -- unfold owner. cbn. rewrite !upd_same, Ec. split; [intros _; left; discriminate|intros _; right; left; eauto].
        -- injection H as <- <-. auto.
      * eexists. split; [reflexivity|]. apply Simple; cbn; auto; intros; rewrite ?upd_same, ?upd_other by assumption; try congruence; split; congruence.
    + eexists. split; [reflexivity|]. apply Simple; cbn; auto; tauto.
  - destruct (busy s a) as [[c p]|] eqn:Eb; [|eauto]. assert (La : In (proc w a) (live s)) by (apply (b_live w s B); left; congruence). destruct (o_unl s (c_own s K) a c p Eb) as [->|[-> ->]].
    + pose proof (b_dev w s B D a p Eb) as Ec.
      assert (Back : (forall i t k, p <> Print i t k) -> exists s', go_on s a Lock (Ret 0) = Ok s' /\ calm s'). { intros Np. eexists. split; [reflexivity|]. destruct (returned_0 s a Lock (or_intror I)) as (Q & Q1 & Q2). eapply calm_back; eauto. }
      destruct (c_phase s K a p Eb) as [->|[->|[(j & -> & Hj)|[(q & -> & Hq)|(i & ->)]]]]; cbn [syscall]; try specialize (Back ltac:(discriminate)).
      * destruct f; [exact Back|]. destruct (named s) eqn:En; cbn [dev_make].
        -- cbn [go_on]. eexists. split; [reflexivity|]. apply (calm_on s a _ _ K B Eb); try discriminate. right; left; reflexivity.
        -- rewrite dev_text_is by apply P. cbn [print_text go_on]. eexists. split; [reflexivity|]. assert (F : free s) by (intros b Ho; apply (owner_named s b (c_own s K) Ho En)). set (s' := set_busy _ _).
           split.
           ++ apply (own_create s s' a (fresh s)); [exact (c_own s K)|exact F|reflexivity|apply upd_same|intros j Nj; apply upd_other; exact Nj|intros b Nb; cbn; rewrite upd_other by exact Nb; auto|exact Ec|cbn; apply upd_same].
           ++ intros _. exists a. right; right. exists (fresh s), (dt (mine a)), (Ret 1). cbn. apply upd_same.
           ++ intros b p H. cbn in H. unfold upd in H. destruct (Nat.eqb_spec b a) as [->|]; [injection H as <-; do 4 right; eauto|]. apply (cphase_more s); [apply incl_refl| |apply (c_phase s K); exact H].
              intros j L. cbn. unfold upd. destruct (j =? fresh s); [left; reflexivity|exact L].
      * destruct f; [exact Back|]. destruct (named s) as [j|] eqn:En; [|exact Back]. cbn [dev_opened go_on]. eexists. split; [reflexivity|]. apply (calm_on s a _ _ K B Eb); try discriminate. right; right; left. exists j. split; [reflexivity|].
        destruct (c_named s K) as (o & Oo); [congruence|]. destruct (o_text s (c_own s K) o Oo) as (i & Ei & T & _). assert (i = j) by congruence. subst i. destruct T as [T|T]; [left; exact T|right]. exists (proc w o). split; [|exact T]. apply (b_live w s B). destruct Oo as [H|[[q H]|(x & t & k & H)]]; [auto|left; congruence|left; congruence].
      * destruct f; [exact Back|]. destruct (first_line (texts s j)) as [l|] eqn:El; [|exact Back]. cbn [dev_line]. destruct Hj as [Hj|(n & Hn & Hj)]; [rewrite Hj in El; discriminate|]. destruct (dt_line (pid w n) (P _)) as (l' & E' & Tr). rewrite Hj, E' in El. injection El as <-. rewrite Tr, me_atoi by apply P.
        destruct ((pid w n =? 0)%Z || (pid w n =? -1)%Z); [exact Back|]. cbn [go_on]. eexists. split; [reflexivity|]. apply (calm_on s a _ _ K B Eb); try discriminate. right; right; right; left. exists (pid w n). split; [reflexivity|]. exists n. auto.
      * destruct Hq as (n & Hn & E). assert (G : gone w s q f = false). { unfold gone. pose proof (P n). destruct (Z.ltb_spec 0 q); [|lia]. apply negb_false_iff. apply existsb_exists. exists n. split; [exact Hn|apply Z.eqb_eq; exact E]. } rewrite G. exact Back.
      * cbn [go_on]. eexists. split; [reflexivity|].
        set (s' := returned _ _ _ _).
        assert (Sn : named s' = named s) by (unfold s'; destruct f; reflexivity).
        assert (St' : forall j, texts s' j = if f then texts s j else upd (texts s) i (texts s i ++ dt (mine a)) j) by (unfold s'; destruct f; reflexivity).
        assert (Sb : forall b, b <> a -> busy s' b = busy s b /\ count s' b = count s b) by (intros b Nb; unfold s'; destruct f; cbn; rewrite !upd_other by exact Nb; auto).
        assert (Sc : count s' a = 1) by (unfold s'; destruct f; cbn; apply upd_same).
        assert (Sa : busy s' a = None) by (unfold s'; destruct f; cbn; apply upd_same).
        assert (Sl : live s' = live s) by (unfold s'; destruct f; reflexivity).
        destruct (own_write s s' a i f (c_own s K) Eb Sn St' Sb Sc Sa) as [Kw Ow].
        split; [exact Kw|intros _; exists a; left; congruence|].
        intros x q H. destruct (Nat.eq_dec x a) as [->|Nx]; [congruence|]. destruct (Sb x Nx) as [E1 _]. rewrite E1 in H. apply (cphase_more s); [rewrite Sl; apply incl_refl| |apply (c_phase s K); exact H].
        intros j L. unfold ltext. rewrite St', Sl. destruct f; [exact L|]. unfold upd. destruct (Nat.eqb_spec j i); [|exact L]. right. exists (proc w a). split; [exact La|].
        destruct (o_text s (c_own s K) a) as (i' & _ & _ & Q); [right; right; eauto|]. destruct (Q _ _ _ Eb) as (<- & _ & _ & ->). reflexivity.
    + pose proof (b_dev2 w s B D a _ Eb) as Ec. assert (Oa : owner s a) by (right; left; eauto). assert (f = false) as ->. { destruct f; [|reflexivity]. exfalso. apply C. exists Unlock, dev_unlock. split; [exact Eb|exact I]. }
      unfold dev_unlock. cbn [syscall]. destruct (named s) eqn:En; [|destruct (owner_named s a (c_own s K) Oa En)]. cbn [go_on]. eexists. split; [reflexivity|]. set (s' := returned _ _ _ _).
      assert (Eo : forall b, b <> a -> busy s' b = busy s b /\ count s' b = count s b) by (intros b Nb; cbn; rewrite upd_other by exact Nb; auto).
      assert (Ea : busy s' a = None) by (cbn; apply upd_same).
      assert (G : forall x c p, busy s' x = Some (c, p) -> busy s x = Some (c, p)). { intros x c p H. destruct (Nat.eq_dec x a) as [->|Nx]; [congruence|]. destruct (Eo x Nx) as [E1 _]. congruence. }
      split; [|intros H; destruct H; reflexivity|intros x p H; apply G in H; apply (cphase_more s); [apply incl_refl|auto|apply (c_phase s K); exact H]].
      apply own_none; [|exact (o_read s (c_own s K))|intros x c q H; apply G in H; destruct (o_unl s (c_own s K) x c q H) as [->|[-> _]]; discriminate].
      intros b Hb. destruct (Nat.eq_dec b a) as [->|Nb]; [unfold owner in Hb; rewrite Ea in Hb; cbn in Hb; destruct Hb as [H|[[x H]|(x & t & k & H)]]; congruence|]. apply Nb. apply (o_uniq s (c_own s K)); [|exact Oa]. destruct (Eo b Nb) as [E1 E2]. unfold owner in *. rewrite E1, E2 in Hb. exact Hb.
Qed.
Lemma serial_init o : (forall t, o = Some t -> readable t) -> serial (init o).
Proof.
  intros R. split; [|discriminate|discriminate]. apply own_none; [|intros j; cbn; destruct o; [apply R; reflexivity|exact nil_readable]|discriminate]. intros a [H|[[p H]|(i & t & k & H)]]; [apply H; reflexivity|discriminate|discriminate].
Qed.
Lemma calm_init : calm (init None).
Proof. split; [|cbn; congruence|discriminate]. apply own_none; [|intros j; exact nil_readable|discriminate]. intros a [H|[[p H]|(i & t & k & H)]]; [apply H; reflexivity|discriminate|discriminate]. Qed.
End Dev.
(** What is kept by each step is kept *)
Lemma always_run (w : world) (I : st -> Prop) (cond : st -> event -> Prop) :
  (forall s e, I s -> book w s -> cond s e -> exists s', step w s e = Ok s' /\ I s') ->
  forall l s, I s -> book w s -> always cond w s l -> exists s', run w s l = Ok s' /\ I s' /\ book w s'.
Proof.
  intros S l. induction l as [|e l IH]; intros s K B A; cbn [run]; [eauto|]. destruct A as [C A]. destruct (S s e K B C) as (s1 & E & K1). rewrite E in *. cbn [bind]. apply IH; [exact K1|eapply book_step; eauto|exact A].
Qed.
