(** Lock files: text, and the bookkeeping of who holds *)
From Verif Require Import Base Ctype DecSpec UrlModel IntFmtModel IntFmtProofs LockModel LockSpec.
Local Open Scope nat_scope.

(** ** Text *)
Lemma isd_not c : digit c -> Ascii.eqb c newline = false /\ Ascii.eqb c nul = false /\ isspace c = false.
Proof.
  unfold digit. intros H. assert (E : cc c = 48 \/ cc c = 49 \/ cc c = 50 \/ cc c = 51 \/ cc c = 52 \/ cc c = 53 \/ cc c = 54 \/ cc c = 55 \/ cc c = 56 \/ cc c = 57) by (unfold cc in *; lia).
  unfold cc in E. rewrite <- (ascii_nat_embedding c). repeat (destruct E as [E|E]; [rewrite E; auto|]). rewrite E; auto.
Qed.
Lemma upto_plain u v : Forall (fun c => Ascii.eqb c newline = false) u -> upto_newline (u ++ newline :: v) = u.
Proof. induction 1 as [|c u Hc _ IH]; [reflexivity|]. cbn [app upto_newline]. rewrite Hc, IH. reflexivity. Qed.
Lemma cstr_plain u : Forall (fun c => Ascii.eqb c nul = false) u -> cstr u = u.
Proof. induction 1 as [|c u Hc _ IH]; [reflexivity|]. cbn [cstr]. rewrite Hc, IH. reflexivity. Qed.
Lemma line_plain u : Forall (fun c => Ascii.eqb c newline = false /\ Ascii.eqb c nul = false) u -> first_line (u ++ [newline]) = Some u.
Proof.
  intros H. unfold first_line. destruct u as [|c u]; [reflexivity|]. cbn [app]. change (c :: u ++ [newline]) with ((c :: u) ++ [newline]). rewrite upto_plain, cstr_plain; [reflexivity| |]; eapply Forall_impl; [|exact H|  |exact H]; cbn; tauto.
Qed.
Lemma drop_spaces n l : drop_space (repeat " "%char n ++ l) = drop_space l.
Proof. induction n as [|n IH]; [reflexivity|exact IH]. Qed.
Lemma drop_digits l : Forall digit l -> drop_space l = l.
Proof. destruct 1 as [|c l Hc _]; [reflexivity|]. cbn. destruct (isd_not c Hc) as (_ & _ & ->). reflexivity. Qed.
Lemma trim_spaces n l : Forall digit l -> l <> [] -> trim_string (repeat " "%char n ++ l) = l.
Proof.
  intros H N. unfold trim_string. rewrite rev_app_distr. destruct (exists_last N) as (l' & c & ->). apply Forall_app in H. destruct H as [H1 H2]. rewrite rev_app_distr. cbn [rev app drop_space].
  destruct (isd_not c (Forall_inv H2)) as (_ & _ & ->).
  replace (rev (c :: rev l' ++ rev (repeat " "%char n))) with (repeat " "%char n ++ l' ++ [c]) by (cbn [rev]; rewrite rev_app_distr, !rev_involutive, app_assoc; reflexivity).
  rewrite drop_spaces. apply drop_digits. apply Forall_app. auto.
Qed.
Definition ft (me : Z) : bytes := sdec me ++ [newline].
Definition dt (me : Z) : bytes := repeat " "%char (10 - length (sdec me)) ++ sdec me ++ [newline].
Section Texts.
Variable me : Z.
Hypothesis R : (0 < me < 2 ^ 31)%Z.
Lemma me_big : (0 <= me < big)%Z.
Proof. unfold big. lia. Qed.
Lemma sdec_pos : sdec me = dec me.
Proof. unfold sdec. destruct (Z.ltb_spec me 0); [lia|reflexivity]. Qed.
Lemma me_digits : Forall digit (sdec me) /\ sdec me <> [].
Proof. rewrite sdec_pos. split; [apply dec_digits; lia|apply dec_nonempty, me_big]. Qed.
Lemma me_atoi : atoi (sdec me) = Ok me.
Proof. rewrite <- (app_nil_r (sdec me)). apply atoi_signed; [unfold int_min, int_max; lia|exact I]. Qed.
Lemma file_text_is : file_text me = Ok (ft me).
Proof. unfold file_text. rewrite signed_ok; [reflexivity|lia|cbn; lia]. Qed.
Lemma dev_text_is : dev_text me = Ok (dt me).
Proof. unfold dev_text. rewrite signed_ok; [reflexivity|lia|cbn; lia]. Qed.
Lemma ft_line : first_line (ft me) = Some (sdec me).
Proof. apply line_plain. eapply Forall_impl; [|apply me_digits]. intros c H. pose proof (isd_not c H). tauto. Qed.
Lemma dt_line : exists l, first_line (dt me) = Some l /\ trim_string l = sdec me.
Proof.
  exists (repeat " "%char (10 - length (sdec me)) ++ sdec me). split; [|apply trim_spaces; apply me_digits]. unfold dt. rewrite app_assoc. apply line_plain. apply Forall_app. split.
  - apply Forall_forall. intros c H. apply repeat_spec in H. subst c. auto.
  - eapply Forall_impl; [|apply me_digits]. intros c H. pose proof (isd_not c H). tauto.
Qed.
End Texts.

(** ** The bookkeeping *)
Lemma upd_same {A} (f : nat -> A) i x : upd f i x i = x.
Proof. unfold upd. rewrite Nat.eqb_refl. reflexivity. Qed.
Lemma upd_other {A} (f : nat -> A) i x j : j <> i -> upd f i x j = f j.
Proof. unfold upd. intros H. destruct (Nat.eqb_spec j i); congruence. Qed.
Lemma held_app w l o a : held w (l ++ [o]) a = hold1 w a (held w l a) o.
Proof. unfold held. rewrite fold_left_app. reflexivity. Qed.
Local Arguments held : simpl never.
Lemma syscall_rest w s p f : let s' := fst (syscall w s p f) in live s' = live s /\ busy s' = busy s /\ count s' = count s /\ past s' = past s.
Proof. destruct p; cbn; try (repeat split; reflexivity); destruct f; cbn; try (repeat split; reflexivity); destruct (named s); repeat split; reflexivity. Qed.
(** The counts are what was seen; WvLockDev locks only what is not locked; what is busy or
    holds is alive, and numbers are not used twice *)
Record book (w : world) (s : st) : Prop := Book
  { b_count : forall a, count s a = held w (past s) a;
    b_dev : what w = Dev -> forall a p, busy s a = Some (Lock, p) -> count s a = 0;
    b_dev2 : what w = Dev -> forall a p, busy s a = Some (Unlock, p) -> count s a = 0;
    b_live : forall a, (busy s a <> None \/ count s a <> 0) -> In (proc w a) (live s);
    b_pids : forall n m, In n (live s) -> In m (live s) -> pid w n = pid w m -> n = m }.
Lemma book_init w o : book w (init o).
Proof. split; cbn; try discriminate; try tauto; intros; tauto. Qed.
Lemma is_live_in s n : is_live s n = true <-> In n (live s).
Proof. unfold is_live. rewrite existsb_exists. split; [intros (m & H & E); apply Nat.eqb_eq in E; subst; exact H|intros H; exists n; split; [exact H|apply Nat.eqb_refl]]. Qed.
Lemma book_same w s s' : book w s -> live s' = live s -> busy s' = busy s -> count s' = count s -> past s' = past s -> book w s'.
Proof. intros [A1 A2 A2' A3 A4] E1 E2 E3 E4. split; rewrite ?E1, ?E2, ?E3, ?E4; auto. Qed.
Lemma book_go_on w s a c p s' : book w s -> In (proc w a) (live s) -> (what w = Dev -> c <> Check -> count s a = 0) -> go_on s a c p = Ok s' -> book w s'.
Proof.
  intros [A1 A2 A2' A3 A4] Hl Hd E.
  assert (Hr : forall r, book w (returned s a c r)).
  { intros r. unfold returned. destruct c; [destruct (Z.eqb_spec r 0) as [Hr|Hr]|..].
    all: split; cbn [busy note set_busy set_count live count past]; [intros b; rewrite held_app; cbn [hold1]|intros D b q; unfold upd|intros D b q; unfold upd|intros b; unfold upd|exact A4].
    all: repeat match goal with |- context [?b =? ?a] => destruct (Nat.eqb_spec b a) as [->|?] end; cbn [andb negb]; rewrite ?(proj2 (Z.eqb_eq r 0) Hr), ?(proj2 (Z.eqb_neq r 0) Hr); cbn [andb negb]; rewrite ?upd_same, ?upd_other by congruence; auto.
    all: try discriminate; try (apply A2; exact D); try (apply A2'; exact D).
    destruct (what w) eqn:Ew; [reflexivity|]. rewrite <- A1, (Hd eq_refl); [reflexivity|discriminate]. }
  assert (Hb : book w (set_busy s (upd (busy s) a (Some (c, p))))).
  { split; cbn [busy set_busy live count past]; [exact A1|intros D b q; unfold upd|intros D b q; unfold upd|intros b; unfold upd|exact A4].
    - destruct (Nat.eqb_spec b a) as [->|]; [intros Q; injection Q as -> _; apply Hd; [exact D|discriminate]|apply A2; exact D].
    - destruct (Nat.eqb_spec b a) as [->|]; [intros Q; injection Q as -> _; apply Hd; [exact D|discriminate]|apply A2'; exact D].
    - destruct (Nat.eqb_spec b a) as [->|]; auto. }
  destruct p; cbn [go_on] in E; try discriminate; injection E as <-; auto.
Qed.
Lemma book_note w s o : book w s -> (forall a, hold1 w a (held w (past s) a) o = held w (past s) a) -> book w (note s o).
Proof. intros [A1 A2 A2' A3 A4] H. split; cbn; auto. intros a. rewrite held_app, H. apply A1. Qed.
Lemma book_step w s e s' : book w s -> step w s e = Ok s' -> book w s'.
Proof.
  intros K E. destruct e as [n|n|a c|a f]; cbn [step] in E.
  - destruct (existsb _ _) eqn:Ex; injection E as <-; [exact K|]. destruct K as [A1 A2 A2' A3 A4]. split; cbn; auto; [intros a; rewrite held_app; cbn; apply A1|].
    assert (N : forall m, In m (live s) -> pid w m <> pid w n).
    { intros m Hm Q. assert (T : existsb (fun m => (m =? n) || (pid w m =? pid w n)%Z) (live s) = true) by (apply existsb_exists; exists m; split; [exact Hm|]; rewrite Q, Z.eqb_refl; apply orb_true_r). congruence. }
    intros m1 m2 [<-|H1] [<-|H2] Q; auto; [exfalso; apply (N m2); auto|exfalso; apply (N m1); auto].
  - destruct (is_live s n); injection E as <-; [|exact K]. destruct K as [A1 A2 A2' A3 A4]. split; cbn.
    + intros a. rewrite held_app. cbn. destruct (proc w a =? n); auto.
    + intros D a p. destruct (proc w a =? n); [discriminate|]. eauto.
    + intros D a p. destruct (proc w a =? n); [discriminate|]. eauto.
    + intros a. destruct (Nat.eqb_spec (proc w a) n); [tauto|]. intros H. apply filter_In. split; [auto|]. destruct (Nat.eqb_spec (proc w a) n); [contradiction|reflexivity].
    + intros m1 m2 H1 H2. apply filter_In in H1, H2. apply A4; tauto.
  - destruct (is_live s (proc w a)) eqn:El; [|injection E as <-; exact K]. apply is_live_in in El. destruct (busy s a) eqn:Eb; [injection E as <-; exact K|].
    assert (Kn : c <> Unlock -> book w (note s (Called a c))) by (intros N; apply book_note; [exact K|]; intros b; cbn; destruct c; congruence).
    assert (Ku : (what w = Dev -> count s a <= 1) -> book w (set_count (note s (Called a Unlock)) (upd (count s) a 0))).
    { intros H. destruct K as [A1 A2 A2' A3 A4]. split; cbn [busy note set_count live count past]; [|intros D b p Hb; unfold upd; destruct (Nat.eqb_spec b a); eauto|intros D b p Hb; unfold upd; destruct (Nat.eqb_spec b a); eauto|intros b; unfold upd; destruct (Nat.eqb_spec b a) as [->|]; auto|exact A4].
      intros b. rewrite held_app. cbn. unfold upd. rewrite (Nat.eqb_sym a b). destruct (Nat.eqb_spec b a) as [->|]; [|apply A1]. specialize (A1 a). destruct (what w); [reflexivity|]. specialize (H eq_refl). lia. }
    destruct (what w) eqn:Ew.
    + destruct c; cbn [call_file] in E; (eapply book_go_on; [..|exact E]); cbn; auto; try discriminate; try (apply Kn; discriminate); try congruence; try (intros; congruence).
      apply Ku. discriminate.
    + destruct c; cbn [call_dev] in E; cbn [count note] in E.
      * destruct (count s a) as [|n] eqn:Ec; [eapply book_go_on; [..|exact E]; cbn; auto; apply Kn; discriminate|]. injection E as <-. specialize (Kn ltac:(discriminate)). destruct Kn as [A1 A2 A2' A3 A4].
        split; cbn [busy note set_count live count past] in *; [|intros D b p Hb; unfold upd; destruct (Nat.eqb_spec b a); [congruence|eauto]|intros D b p Hb; unfold upd; destruct (Nat.eqb_spec b a); [congruence|eauto]|intros b; unfold upd; destruct (Nat.eqb_spec b a) as [->|]; auto|exact A4].
        intros b. rewrite held_app. cbn [hold1]. rewrite Ew. unfold upd. rewrite (Nat.eqb_sym a b). destruct (Nat.eqb_spec b a) as [->|]; cbn [andb]; [|apply A1]. cbn. rewrite <- A1, Ec. reflexivity.
      * destruct (count s a) as [|[|n]] eqn:Ec.
        -- injection E as <-. destruct K as [A1 A2 A2' A3 A4]. split; cbn [busy note set_count live count past] in *; auto. intros b. rewrite !held_app. cbn [hold1]. rewrite Ew, (Nat.eqb_sym a b). destruct (Nat.eqb_spec b a) as [->|]; [|apply A1]. rewrite <- A1. lia.
        -- eapply book_go_on; [..|exact E]; cbn [count set_count note live busy]; [apply Ku; intros; lia|auto|intros; apply upd_same].
        -- injection E as <-. destruct K as [A1 A2 A2' A3 A4].
           split; cbn [busy note set_count live count past] in *; [|intros D b p Hb; unfold upd; destruct (Nat.eqb_spec b a); [congruence|eauto]|intros D b p Hb; unfold upd; destruct (Nat.eqb_spec b a); [congruence|eauto]|intros b; unfold upd; destruct (Nat.eqb_spec b a) as [->|]; auto|exact A4].
           intros b. rewrite !held_app. cbn [hold1]. rewrite Ew. unfold upd. rewrite (Nat.eqb_sym a b). destruct (Nat.eqb_spec b a) as [->|]; cbn [andb]; [|apply A1]. rewrite <- A1, Ec. lia.
      * injection E as <-. apply book_note; [apply Kn; discriminate|]. reflexivity.
  - destruct (busy s a) as [[c p]|] eqn:Eb; [|injection E as <-; exact K]. destruct (syscall w s p f) as [s1 p1] eqn:Es. pose proof (syscall_rest w s p f) as H. rewrite Es in H. cbn in H. destruct H as (H1 & H2 & H3 & H4).
    eapply book_go_on; [eapply book_same; eauto| | |exact E].
    + rewrite H1. apply (b_live w s K). left. congruence.
    + rewrite H3. intros D N. destruct c; [eapply (b_dev w s K); eauto|eapply (b_dev2 w s K); eauto|congruence].
Qed.
