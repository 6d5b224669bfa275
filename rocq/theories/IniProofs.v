(** Facts about single names and values in an .ini file. *)
From Verif Require Import Base BaseFacts Ctype TclModel TclSpec TclProofs KeyModel KeySpec UrlModel UrlProofs TempModel IniModel IniSpec.
Local Open Scope char_scope.
Local Open Scope list_scope.

Lemma in_set_iff l c : in_set l c = true <-> In c l.
Proof.
  unfold in_set. rewrite existsb_exists. split.
  - intros (x & Hx & E). apply Ascii.eqb_eq in E. subst. exact Hx.
  - intros H. exists c. split; [exact H|apply Ascii.eqb_refl].
Qed.
Lemma white_isspace c : isspace c = true <-> white c.
Proof.
  unfold isspace, white, cc. rewrite orb_true_iff, andb_true_iff, Nat.eqb_eq, !Nat.leb_le. split; intros [H|H]; auto; left.
  - rewrite <- (ascii_nat_embedding c), H. reflexivity.
  - rewrite H. reflexivity.
Qed.
Lemma white_start_iff s : white_start s <-> match s with c :: _ => isspace c = true | [] => False end.
Proof.
  destruct s as [|c s]; split.
  - intros (? & ? & E & _). discriminate.
  - tauto.
  - intros (? & ? & E & H). injection E as <- <-. apply white_isspace, H.
  - intros H. exists c, s. split; [reflexivity|]. apply white_isspace, H.
Qed.
Lemma white_end_iff s : white_end s <-> s <> [] /\ isspace (last s nul) = true.
Proof.
  split.
  - intros (r & c & -> & H). rewrite last_last. split; [destruct r; discriminate|apply white_isspace, H].
  - intros [N H]. exists (List.removelast s), (last s nul). split; [apply app_removelast_last, N|apply white_isspace, H].
Qed.

(** * Reading *)
Section Scan.
Variables (stop : byte -> bool) (loose : bool).
Definition sstep (st : bool * nat) (c : byte) : option (bool * nat) :=
  let (h, d) := st in
  if h then Some (false, d)
  else if (d =? 0)%nat && stop c then None
  else if Ascii.eqb c "\" then Some (true, d)
  else if Ascii.eqb c "{" then Some (false, S d)
  else if Ascii.eqb c "}" then match d with S d => Some (false, d) | O => if loose then Some (false, 0) else None end
  else Some (false, d).
Fixpoint scan (st : bool * nat) (s : bytes) : option (bool * nat) :=
  match s with [] => Some st | c :: r => match sstep st c with Some st => scan st r | None => None end end.
Lemma scan_app st a b : scan st (a ++ b) = match scan st a with Some st => scan st b | None => None end.
Proof. revert st. induction a as [|c a IH]; intros st; cbn; [reflexivity|]. destruct (sstep st c); auto. Qed.
Lemma scan_snoc st a c : scan st (a ++ [c]) = match scan st a with Some st => sstep st c | None => None end.
Proof. rewrite scan_app. destruct (scan st a) as [x|]; [|reflexivity]. cbn. destruct (sstep x c); reflexivity. Qed.
Lemma Reads_scan (stopP : byte -> Prop) (looseP : Prop) : (forall c, stop c = true <-> stopP c) -> (loose = true <-> looseP) ->
  forall s h d, Reads stopP looseP s h d <-> scan (false, 0) s = Some (h, d).
Proof.
  intros HS HL. assert (HS' : forall c d, (d = 0 -> ~ stopP c) <-> (d =? 0)%nat && stop c = false).
  { intros c d. rewrite andb_false_iff, Nat.eqb_neq. rewrite <- (HS c). destruct (stop c); destruct d; split; intros; try (right; reflexivity); try (left; congruence); intuition (auto; congruence). }
  intros s h d. split.
  - induction 1; [reflexivity| | | | | |]; rewrite scan_snoc, ?IHReads; unfold sstep.
    + reflexivity.
    + apply HS' in H0. rewrite H0. reflexivity.
    + apply HS' in H0. rewrite H0. reflexivity.
    + reflexivity.
    + apply HL in H0. rewrite <- (HS "}") in H1. destruct (stop "}"); [congruence|]. cbn. rewrite H0. reflexivity.
    + apply HS' in H3. rewrite H3. apply Ascii.eqb_neq in H0, H1, H2. rewrite H0, H1, H2. reflexivity.
  - revert h d. induction s as [|c s IH] using rev_ind; intros h d.
    + cbn. intros E. injection E as <- <-. constructor.
    + rewrite scan_snoc. destruct (scan (false, 0) s) as [[h0 d0]|]; [|discriminate]. specialize (IH h0 d0 eq_refl).
      unfold sstep. destruct h0; [intros E; injection E as <- <-; constructor; exact IH|].
      destruct ((d0 =? 0)%nat && stop c) eqn:E0; [discriminate|]. rewrite <- HS' in E0.
      destruct (Ascii.eqb_spec c "\") as [->|N1]; [intros E; injection E as <- <-; apply R_hide; auto|].
      destruct (Ascii.eqb_spec c "{") as [->|N2]; [intros E; injection E as <- <-; apply R_open; auto|].
      destruct (Ascii.eqb_spec c "}") as [->|N3].
      * destruct d0; [destruct loose; [|discriminate]|]; intros E; injection E as <- <-; [apply R_loose; [exact IH|tauto|auto]|apply R_close; auto].
      * intros E; injection E as <- <-. apply R_plain; auto.
Qed.
End Scan.
Lemma contained_scan stop (stopP : byte -> Prop) s : (forall c, stop c = true <-> stopP c) ->
  contained stopP s <-> scan stop true (false, 0) s = Some (false, 0).
Proof. intros H. apply Reads_scan; [exact H|tauto]. Qed.
Definition nostop (_ : byte) : bool := false.
Lemma strict_scan s h d : Reads never False s h d <-> scan nostop false (false, 0) s = Some (h, d).
Proof. apply Reads_scan; unfold nostop, never; intuition discriminate. Qed.

(** What is read strictly is read loosely. *)
Lemma scan_loose stop s : forall st x, scan stop false st s = Some x -> scan stop true st s = Some x.
Proof.
  induction s as [|c s IH]; intros [h d] x; cbn [scan]; [auto|]. unfold sstep. destruct h; [apply IH|].
  destruct (_ && _); [discriminate|]. destruct (Ascii.eqb c "\"); [apply IH|]. destruct (Ascii.eqb c "{"); [apply IH|].
  destruct (Ascii.eqb c "}"); [|apply IH]. destruct d; [discriminate|apply IH].
Qed.

(** * When the writer quotes *)
Lemma needs_loop_ok seps s : forall h d insp,
  needs_loop seps (Z.of_nat d) h insp s = true <->
  (exists a c b, s = a ++ c :: b /\ scan nostop false (h, d) a = Some (false, 0) /\ in_set seps c = true) \/
  (exists h' d', scan nostop false (h, d) s = Some (h', d') /\ (h' = true \/ d' <> 0 \/ (match s with [] => insp | _ => isspace (last s nul) end) = true)).
Proof.
  induction s as [|c s IH]; intros h d insp.
  - cbn [needs_loop scan]. rewrite !orb_true_iff, negb_true_iff, Z.eqb_neq. split.
    + intros H. right. exists h, d. split; [reflexivity|]. destruct H as [[H|H]|H]; auto. right; left. lia.
    + intros [(a & x & b & E & _)|(h' & d' & E & H)]; [destruct a; discriminate|]. injection E as <- <-. destruct H as [H|[H|H]]; auto. right. lia.
  - cbn [needs_loop]. destruct (negb h && (Z.of_nat d =? 0)%Z && in_set seps c) eqn:E0.
    + rewrite !andb_true_iff, negb_true_iff, Z.eqb_eq in E0. destruct E0 as [[-> Ed] Es]. replace d with 0 in * by lia.
      split; [|reflexivity]. intros _. left. exists [], c, s. auto.
    + assert (Hn : ~ (h = false /\ d = 0 /\ in_set seps c = true)).
      { intros (-> & -> & Es). rewrite Es in E0. discriminate. }
      assert (L : match s with [] => isspace c | _ => isspace (last s nul) end = isspace (last (c :: s) nul)) by (destruct s; reflexivity).
      assert (K : forall h1 d1, sstep nostop false (h, d) c = Some (h1, d1) ->
        (needs_loop seps (Z.of_nat d1) h1 (isspace c) s = true <->
         (exists a x b, c :: s = a ++ x :: b /\ scan nostop false (h, d) a = Some (false, 0) /\ in_set seps x = true) \/
         (exists h' d', scan nostop false (h, d) (c :: s) = Some (h', d') /\ (h' = true \/ d' <> 0 \/ isspace (last (c :: s) nul) = true)))).
      { intros h1 d1 E1. rewrite IH, L. cbn [scan]. rewrite E1. split; (intros [(a & x & b & E & S1 & Hx)|H]; [left|right; exact H]).
        - exists (c :: a), x, b. rewrite E. cbn [scan]. rewrite E1. auto.
        - destruct a as [|y a]; [cbn in S1; injection S1 as -> ->; injection E as <- <-; exfalso; auto|].
          injection E as <- E. cbn [scan] in S1. rewrite E1 in S1. exists a, x, b. auto. }
      revert K. unfold sstep, nostop. rewrite andb_false_r. destruct h; cbn [negb andb].
      * intros K. rewrite <- (K false d eq_refl). destruct (Z.ltb_spec (Z.of_nat d) 0); [lia|]. reflexivity.
      * destruct (Ascii.eqb c "\"); [intros K; rewrite <- (K true d eq_refl); destruct (Z.ltb_spec (Z.of_nat d) 0); [lia|reflexivity]|].
        destruct (Ascii.eqb c "{"); [intros K; rewrite <- (K false (S d) eq_refl); destruct (Z.ltb_spec (Z.of_nat d + 1) 0); [lia|]; replace (Z.of_nat d + 1)%Z with (Z.of_nat (S d)) by lia; reflexivity|].
        destruct (Ascii.eqb c "}") eqn:Ec.
        -- destruct d as [|d].
           ++ intros _. destruct (Z.ltb_spec (Z.of_nat 0 - 1) 0); [|lia]. split; [discriminate|].
              intros [(a & x & b & E & S1 & Hx)|(h' & d' & E & _)]; exfalso.
              ** destruct a as [|y a]; [injection E as <- <-; apply Hn; auto|]. injection E as <- E. cbn [scan] in S1. unfold sstep, nostop in S1. rewrite andb_false_r, Ec in S1.
                 apply Ascii.eqb_eq in Ec. subst c. discriminate.
              ** cbn [scan] in E. unfold sstep, nostop in E. rewrite andb_false_r, Ec in E. apply Ascii.eqb_eq in Ec. subst c. discriminate.
           ++ intros K; rewrite <- (K false d eq_refl). destruct (Z.ltb_spec (Z.of_nat (S d) - 1) 0); [lia|]. replace (Z.of_nat (S d) - 1)%Z with (Z.of_nat d) by lia. reflexivity.
        -- intros K; rewrite <- (K false d eq_refl). destruct (Z.ltb_spec (Z.of_nat d) 0); [lia|reflexivity].
Qed.
Lemma needs_quoted (sepsP : byte -> Prop) seps s : (forall c, sepsP c <-> In c seps) ->
  absolutely_needs_escape s seps = true <-> quoted sepsP s.
Proof.
  intros HS.
  assert (H : needs_loop seps 0 false false s = true <->
    (exists a c b, s = a ++ c :: b /\ Reads never False a false 0 /\ sepsP c) \/
    (exists h d, Reads never False s h d /\ (h = true \/ d <> 0 \/ white_end s))).
  { change 0%Z with (Z.of_nat 0). rewrite needs_loop_ok. split; (intros [(a & c & b & E & S1 & Hc)|(h & d & S1 & Hd)]; [left; exists a, c, b|right; exists h, d]).
    - rewrite strict_scan, HS, <- in_set_iff. auto.
    - rewrite strict_scan, white_end_iff. split; [exact S1|]. destruct Hd as [Hd|[Hd|Hd]]; auto. destruct s; [discriminate|]. right; right. split; [discriminate|exact Hd].
    - rewrite strict_scan, HS, <- in_set_iff in *. auto.
    - rewrite strict_scan, white_end_iff in *. split; [exact S1|]. destruct Hd as [Hd|[Hd|[Hn Hd]]]; auto. destruct s; [congruence|]. auto. }
  unfold quoted. rewrite <- H. unfold absolutely_needs_escape. rewrite white_start_iff. destruct s as [|c s]; [tauto|].
  destruct (isspace c); intuition (auto; congruence).
Qed.

(** * Reading a quoted text back *)
Lemma trim_spec s : exists a b, s = a ++ trim_string s ++ b /\ Forall (fun c => isspace c = true) (a ++ b) /\
  ~ white_start (trim_string s) /\ ~ white_end (trim_string s).
Proof.
  assert (D : forall s, exists a, s = a ++ drop_space s /\ Forall (fun c => isspace c = true) a /\ ~ white_start (drop_space s)).
  { clear. induction s as [|c s (a & E & Ha & Hs)]; cbn [drop_space].
    - exists []. rewrite white_start_iff. auto.
    - destruct (isspace c) eqn:Ec.
      + exists (c :: a). cbn [app]. rewrite <- E. auto.
      + exists []. rewrite white_start_iff. split; [reflexivity|]. split; [constructor|]. congruence. }
  unfold trim_string. destruct (D (rev s)) as (b & Eb & Hb & Nb). set (m := drop_space (rev s)) in *.
  destruct (D (rev m)) as (a & Ea & Ha & Na). set (t := drop_space (rev m)) in *. exists a, (rev b).
  split; [|split; [|split; [exact Na|]]].
  - apply (f_equal (@rev _)) in Eb. rewrite rev_involutive, rev_app_distr in Eb. rewrite Eb, Ea, <- app_assoc. reflexivity.
  - apply Forall_app. split; [exact Ha|]. apply Forall_rev, Hb.
  - intros (r & c & E & Hc). apply Nb. rewrite E in Ea. apply (f_equal (@rev _)) in Ea. rewrite rev_involutive, rev_app_distr, rev_app_distr in Ea. cbn in Ea.
    rewrite Ea. exists c. eauto.
Qed.
Lemma trim_id s : ~ white_start s -> ~ white_end s -> trim_string s = s.
Proof.
  intros H1 H2. destruct (trim_spec s) as (a & b & E & F & _). apply Forall_app in F. destruct F as [Fa Fb].
  destruct a as [|c a]; [|destruct H1; rewrite E; exists c; eexists; split; [reflexivity|apply white_isspace, (Forall_inv Fa)]].
  destruct b as [|c b _] using rev_ind; [rewrite app_nil_r in E; symmetry; exact E|].
  destruct H2. rewrite E. exists (trim_string s ++ b), c. cbn [app]. rewrite <- app_assoc. split; [reflexivity|].
  apply Forall_app in Fb. destruct Fb as [_ Fb]. apply white_isspace, (Forall_inv Fb).
Qed.
Lemma trim_len s : length (trim_string s) <= length s /\ (length s <= length (trim_string s) -> trim_string s = s).
Proof.
  destruct (trim_spec s) as (a & b & E & _). pose proof (f_equal (@length _) E) as L. rewrite !app_length in L. split; [lia|].
  intros H. destruct a; [|cbn in L; lia]. destruct b; [|cbn in L; lia]. rewrite app_nil_r in E. symmetry. exact E.
Qed.
Lemma trim_not s : trim_string s = s -> ~ white_start s /\ ~ white_end s.
Proof. intros E. destruct (trim_spec s) as (_ & _ & _ & _ & H). rewrite E in H. exact H. Qed.

Lemma unbackslash_len s : forall h, length (unbackslash h s) <= length s.
Proof. induction s as [|c s IH]; intros h; cbn; [lia|]. pose proof (IH true). pose proof (IH false). destruct (Ascii.eqb c "\"); [destruct h|]; cbn; lia. Qed.
Lemma unbackslash_len_bs s : In "\" s -> length (unbackslash false s) < length s.
Proof.
  induction s as [|c s IH]; cbn [In unbackslash]; [tauto|]. intros H. destruct (Ascii.eqb_spec c "\").
  - pose proof (unbackslash_len s true). cbn. lia.
  - destruct H as [H|H]; [congruence|]. specialize (IH H). cbn. lia.
Qed.
Lemma unbackslash_id s : ~ In "\" s -> unbackslash false s = s.
Proof.
  induction s as [|c s IH]; cbn [In unbackslash]; [reflexivity|]. intros H. destruct (Ascii.eqb_spec c "\"); [subst; tauto|]. rewrite IH by tauto. reflexivity.
Qed.
Lemma unbackslash_app a b : forall h, exists h', unbackslash h (a ++ b) = unbackslash h a ++ unbackslash h' b.
Proof.
  induction a as [|c a IH]; intros h; cbn [app unbackslash]; [exists h; reflexivity|].
  destruct (IH true) as [h1 E1]. destruct (IH false) as [h2 E2]. destruct (Ascii.eqb c "\"); [destruct h|].
  - exists h2. rewrite E2. reflexivity.
  - exists h1. exact E1.
  - exists h2. rewrite E2. reflexivity.
Qed.
Lemma unbackslash_plain_any s : ~ In "\" s -> forall h, unbackslash h s = s.
Proof.
  intros H h. destruct s as [|c s]; [reflexivity|]. cbn [unbackslash]. cbn in H. destruct (Ascii.eqb_spec c "\"); [subst; tauto|]. rewrite unbackslash_id by tauto. reflexivity.
Qed.
Lemma unbackslash_in c s : forall h, In c (unbackslash h s) -> In c s.
Proof.
  induction s as [|x s IH]; intros h; cbn [unbackslash]; [tauto|]. destruct (Ascii.eqb x "\"); [destruct h|]; cbn [In]; intros H.
  - destruct H; [auto|right; eauto].
  - right; eauto.
  - destruct H; [auto|right; eauto].
Qed.
Lemma removelast_in {A} (c : A) s : In c (List.removelast s) -> In c s.
Proof. induction s as [|x [|y s] IH]; [tauto|intros []|]. change (List.removelast (x :: y :: s)) with (x :: List.removelast (y :: s)). cbn [In] in *. tauto. Qed.
Lemma unescape_emit_in c s o : unescape_emit s = Ok o -> In c o -> In c s.
Proof.
  unfold unescape_emit. destruct s as [|x s]; [intros E; injection E as <-; auto|]. destruct (_ && _).
  - intros E; injection E as <-. intros H. right. apply removelast_in, H.
  - destruct (_ && _).
    + destruct s as [|y s]; [discriminate|]. intros E; injection E as <-. intros H. right. apply removelast_in. eapply unbackslash_in, H.
    + intros E. assert (o = unbackslash false (x :: s)) by congruence. subst o. apply unbackslash_in.
Qed.
Lemma removelast_len {A} (s : list A) : length (List.removelast s) <= length s.
Proof. induction s as [|x [|y s] IH]; cbn in *; lia. Qed.
Lemma unescape_emit_len s o : unescape_emit s = Ok o -> length o <= length s.
Proof.
  unfold unescape_emit. destruct s as [|x s]; [intros E; injection E as <-; auto|]. destruct (_ && _).
  - intros E; injection E as <-. pose proof (removelast_len s). cbn [length]. lia.
  - destruct (_ && _).
    + destruct s as [|y s]; [discriminate|]. intros E. assert (o = unbackslash false (List.removelast (y :: s))) by congruence. subst o.
      pose proof (unbackslash_len (List.removelast (y :: s)) false). pose proof (removelast_len (y :: s)). change (length (x :: y :: s)) with (S (length (y :: s))). lia.
    + intros E. assert (o = unbackslash false (x :: s)) by congruence. subst o. apply unbackslash_len.
Qed.
Lemma nul_free_sub (a b : bytes) : (forall c, In c a -> In c b) -> nul_free b -> nul_free a.
Proof. unfold nul_free. auto. Qed.
Lemma escape_str_ok n s : nul_free s -> escape_str n s = Ok (esc_pure n s).
Proof. intros H. unfold escape_str. rewrite escape_total by exact H. reflexivity. Qed.
Lemma unescape_str_ok s : nul_free s -> unescape_str s = unescape_emit s.
Proof.
  intros H. unfold unescape_str, wvtcl_unescape. destruct (unescape_emit s) as [o| |] eqn:E; cbn [bind]; try reflexivity.
  rewrite make_string_ok. cbn [bind of_opt]. rewrite cstr_nul_free; [reflexivity|]. eapply nul_free_sub; [|exact H]. intros c. apply (unescape_emit_in c _ _ E).
Qed.

(** A text that is not quoted *)
Lemma wrapped_case s : s <> [] ->
  match s with
  | [] => True
  | c :: r => ((Ascii.eqb c "{" && Ascii.eqb (last s nul) "}") || (Ascii.eqb c """" && Ascii.eqb (last s nul) """")) = true
  end <-> wrapped s.
Proof.
  intros N. destruct s as [|c r]; [congruence|]. rewrite orb_true_iff, !andb_true_iff, !Ascii.eqb_eq. unfold wrapped. split.
  - intros [[-> L]|[-> L]].
    + left. destruct r as [|x r] using rev_ind; [discriminate|]. exists r. rewrite app_comm_cons, last_last in L. subst. reflexivity.
    + right. destruct r as [|x r] using rev_ind; [auto|]. left. exists r. rewrite app_comm_cons, last_last in L. subst. reflexivity.
  - intros [(x & E)|[(x & E)|E]]; injection E as -> ->; rewrite ?app_comm_cons, ?last_last; auto.
Qed.
Lemma raw_back s : unescape_emit (trim_string s) = Ok s <-> ~ In "\" s /\ ~ wrapped s /\ ~ white_start s /\ ~ white_end s.
Proof.
  split.
  - intros E. pose proof (unescape_emit_len _ _ E) as L. pose proof (proj2 (trim_len s) L) as T. rewrite T in E, L. apply trim_not in T.
    destruct s as [|c r]; [unfold wrapped; repeat split; [intros []|intros [(?&?)|[(?&?)|?]]; discriminate|tauto|tauto]|].
    unfold unescape_emit in E. pose proof (wrapped_case (c :: r) ltac:(discriminate)) as W. cbn iota in W.
    destruct (Ascii.eqb c "{" && Ascii.eqb (last (c :: r) nul) "}") eqn:E1.
    + exfalso. assert (E' : List.removelast r = c :: r) by congruence. pose proof (removelast_len r) as L1. rewrite E' in L1. cbn in L1. lia.
    + destruct (Ascii.eqb c """" && Ascii.eqb (last (c :: r) nul) """") eqn:E2.
      * exfalso. destruct r as [|y r]; [discriminate|]. assert (E' : unbackslash false (List.removelast (y :: r)) = c :: y :: r) by congruence.
        pose proof (unbackslash_len (List.removelast (y :: r)) false) as L1. pose proof (removelast_len (y :: r)) as L2. rewrite E' in L1. cbn [length] in *. lia.
      * assert (E' : unbackslash false (c :: r) = c :: r) by congruence. repeat split; try tauto.
        -- intros Hin. apply unbackslash_len_bs in Hin. rewrite E' in Hin. lia.
        -- intros Hw. apply W in Hw. discriminate.
  - intros (H1 & H2 & H3 & H4). rewrite trim_id by assumption. destruct s as [|c r]; [reflexivity|]. unfold unescape_emit.
    pose proof (wrapped_case (c :: r) ltac:(discriminate)) as W. cbn iota in W.
    destruct (Ascii.eqb c "{" && Ascii.eqb (last (c :: r) nul) "}"); [destruct H2; apply W; reflexivity|].
    destruct (Ascii.eqb c """" && Ascii.eqb (last (c :: r) nul) """"); [destruct H2; apply W; reflexivity|].
    f_equal. apply unbackslash_id, H1.
Qed.

Section Quoted.
Variables (n : mask) (nasty : byte -> Prop).
Hypothesis HN : forall c, mset n c = true <-> nasty c.
Lemma doit_iff c : doit n c = true <-> special c \/ nasty c.
Proof. unfold doit, always_nasty, special. rewrite <- HN, !orb_true_iff, !Ascii.eqb_eq. tauto. Qed.
Lemma special_not_white c : special c -> ~ white c.
Proof. unfold white. intros [->|[->|[->| ->]]] [H|H]; try discriminate; cbn in H; lia. Qed.
Lemma ndoit_pos s : ndoit n s <> 0 <-> exists c, In c s /\ (special c \/ nasty c).
Proof.
  induction s as [|c s IH]; cbn [ndoit In]; [split; [congruence|intros (? & [] & _)]|].
  destruct (doit n c) eqn:E.
  - split; [|lia]. intros _. exists c. rewrite <- doit_iff. auto.
  - rewrite Nat.add_0_l, IH. split; intros (x & H1 & H2); exists x; [auto|]. destruct H1 as [->|H1]; [|auto]. rewrite <- doit_iff in H2. congruence.
Qed.
Lemma mode_case s :
  match esc_mode (esc_scan n s) with
  | Embrace => balanced s /\ exists c, In c s /\ (special c \/ nasty c)
  | Verbatim => forall c, In c s -> ~ special c /\ ~ nasty c
  | Backslash => ~ balanced s
  end.
Proof.
  unfold esc_mode. rewrite esc_scan_unprint. pose proof (scan_balanced n s) as B. destruct (_ || _ || _); cbn [negb andb].
  - intros H. apply B in H. discriminate.
  - destruct (Nat.eqb_spec (ndoit n s) 0) as [E|E].
    + intros c Hc. assert (~ (special c \/ nasty c)); [|tauto]. intros Hx. assert (ndoit n s <> 0); [|congruence]. apply ndoit_pos. eauto.
    + split; [apply B; reflexivity|]. apply ndoit_pos, E.
Qed.
Lemma backslash_out_app a b : backslash_out n (a ++ b) = backslash_out n a ++ backslash_out n b.
Proof. induction a as [|c a IH]; cbn [backslash_out app]; [reflexivity|]. rewrite IH, app_assoc. reflexivity. Qed.
Lemma backslash_white_end s : white_end (backslash_out n s) <-> white_end s.
Proof.
  destruct s as [|c s _] using rev_ind; [tauto|]. rewrite backslash_out_app, !white_end_iff. cbn [backslash_out]. rewrite last_last.
  replace (last (backslash_out n s ++ (if doit n c then ["\"; c] else [c]) ++ []) nul) with c.
  - assert (backslash_out n s ++ (if doit n c then ["\"; c] else [c]) ++ [] <> []) by (destruct (backslash_out n s); [destruct (doit n c)|]; discriminate).
    assert (s ++ [c] <> []) by (destruct s; discriminate). tauto.
  - rewrite app_nil_r. destruct (doit n c).
    + change ["\"; c] with (["\"] ++ [c]). rewrite app_assoc, last_last. reflexivity.
    + rewrite last_last. reflexivity.
Qed.
Lemma backslash_white_start s : white_start (backslash_out n s) <-> exists c r, s = c :: r /\ white c /\ ~ nasty c.
Proof.
  rewrite white_start_iff. destruct s as [|c s]; cbn [backslash_out]; [split; [tauto|intros (? & ? & E & _); discriminate]|].
  destruct (doit n c) eqn:E; cbn [app].
  - split; [discriminate|]. intros (x & r & Ex & Hw & Hn). injection Ex as <- <-. apply doit_iff in E. destruct E; [|tauto]. apply special_not_white in H. tauto.
  - rewrite white_isspace. split.
    + intros H. exists c, s. split; [reflexivity|]. split; [exact H|]. intros Hn. assert (doit n c = true) by (apply doit_iff; auto). congruence.
    + intros (x & r & Ex & Hw & Hn). injection Ex as <- <-. exact Hw.
Qed.
Lemma backslash_white_prefix a : forall s m, backslash_out n s = a ++ m -> Forall (fun c => isspace c = true) a ->
  exists s', s = a ++ s' /\ m = backslash_out n s'.
Proof.
  induction a as [|c a IH]; intros s m E F; [exists s; auto|]. destruct s as [|x s]; [discriminate|]. cbn [backslash_out] in E.
  destruct (doit n x).
  - injection E as <- _. apply Forall_inv in F. discriminate.
  - cbn [app] in E. injection E as -> E. destruct (IH s m E (Forall_inv_tail F)) as (s' & -> & ->). exists s'. auto.
Qed.
Lemma unescape_bs s m b : backslash_out n s = m ++ b -> m <> [] -> unescape_emit m = Ok (unbackslash false m).
Proof.
  intros E N. destruct m as [|c m]; [congruence|]. destruct s as [|x s]; [discriminate|]. cbn [backslash_out] in E. cbn [app] in E.
  assert (c <> "{" /\ c <> """").
  { destruct (doit n x) eqn:D; cbn [app] in E; injection E as <- _; [split; discriminate|]. apply doit_false in D. tauto. }
  destruct H as [H1 H2]. apply Ascii.eqb_neq in H1, H2. unfold unescape_emit. rewrite H1, H2. reflexivity.
Qed.
Lemma quoted_back s : s <> [] -> unescape_emit (trim_string (esc_pure n s)) = Ok s <-> quotable nasty s.
Proof.
  intros N. unfold quotable.
  assert (T : trim_string (esc_pure n s) = esc_pure n s -> unescape_emit (trim_string (esc_pure n s)) = Ok s) by (intros ->; apply unescape_escape_emit).
  revert T. pose proof (mode_case s) as M. unfold esc_pure. destruct s as [|c s]; [congruence|]. destruct (esc_mode _).
  - intros T. split.
    + intros E. apply raw_back in E. right. split; [tauto|]. intros x r Ex Hw. injection Ex as <- <-. exfalso. destruct E as (_ & _ & E & _). apply E. exists c, s. auto.
    + intros [[_ (x & Hx & H)]|[H1 H2]]; [apply M in Hx; tauto|]. apply T, trim_id; [|exact H1]. intros (x & r & Ex & Hw). apply (M x); [rewrite Ex; left; reflexivity|eauto].
  - intros T. split.
    + intros E. right. set (e := backslash_out n (c :: s)) in *. destruct (trim_spec e) as (a & b & Ee & F & _). apply Forall_app in F. destruct F as [Fa Fb].
      destruct (backslash_white_prefix a (c :: s) (trim_string e ++ b) Ee Fa) as (s' & Es & Em).
      destruct (trim_string e) as [|d m] eqn:Et; [cbn in E; discriminate|].
      rewrite (unescape_bs s' (d :: m) b (eq_sym Em) ltac:(discriminate)) in E. assert (E' : unbackslash false (d :: m) = c :: s) by congruence. clear E.
      assert (U : unbackslash false ((d :: m) ++ b) = s') by (rewrite Em; apply unbackslash_out).
      destruct (unbackslash_app (d :: m) b false) as [h' Eh]. rewrite U, E', unbackslash_plain_any in Eh.
      2: { intros Hb. rewrite Forall_forall in Fb. apply Fb in Hb. discriminate. }
      pose proof (f_equal (@length _) Eh) as L. pose proof (f_equal (@length _) Es) as L2. rewrite app_length in L, L2.
      destruct a; [|cbn [length] in *; lia]. destruct b; [|cbn [length] in *; lia]. rewrite app_nil_r in Ee. cbn [app] in Ee.
      assert (Tid : trim_string e = e) by congruence. apply trim_not in Tid. unfold e in Tid. rewrite backslash_white_end, backslash_white_start in Tid.
      split; [tauto|]. intros x r Ex Hw. rewrite <- HN. destruct (mset n x) eqn:Ens; [reflexivity|]. exfalso. apply (proj1 Tid). exists x, r. split; [exact Ex|]. split; [exact Hw|]. rewrite <- HN. congruence.
    + intros [[H _]|[H1 H2]]; [tauto|]. apply T, trim_id.
      * rewrite backslash_white_start. intros (x & r & Ex & Hw & Hn). apply Hn, (H2 x r Ex Hw).
      * rewrite backslash_white_end. exact H1.
  - intros T. split; [intros _; left; exact M|]. intros _. apply T, trim_id.
    + rewrite white_start_iff. discriminate.
    + rewrite white_end_iff, app_comm_cons, last_last. intros [_ H]. discriminate.
Qed.
End Quoted.

(** * What is written for a text, and that it stays in its place *)
Definition txt (n : mask) (seps : bytes) (s : bytes) : bytes := if absolutely_needs_escape s seps then esc_pure n s else s.
Definition dec (e : bytes) : res bytes := unescape_emit (trim_string e).
Definition lineok (sp : mask) (s : bytes) : Prop := scan (mset sp) true (false, 0) s = Some (false, 0).

Lemma storable_back n seps (nasty sepsP stopP : byte -> Prop) s : s <> [] ->
  (forall c, mset n c = true <-> nasty c) -> (forall c, sepsP c <-> In c seps) ->
  storable nasty sepsP stopP s <-> dec (txt n seps s) = Ok s /\ (quoted sepsP s \/ contained stopP s).
Proof.
  intros N HN HS. unfold dec, txt, storable, clean. pose proof (needs_quoted sepsP seps s HS) as Q. destruct (absolutely_needs_escape s seps).
  - rewrite (quoted_back n nasty HN s N). assert (quoted sepsP s) by (apply Q; reflexivity). split; [|tauto].
    intros [(C & B & W & S1 & S2)|[_ H1]]; [|tauto]. split; [|tauto]. right. split; [exact S2|]. intros c r E Hw. exfalso. apply S1. exists c, r. auto.
  - rewrite raw_back. assert (~ quoted sepsP s) by (intros H; apply Q in H; discriminate). tauto.
Qed.

Lemma scan_mono (stop stop' : byte -> bool) l s : (forall c, stop' c = true -> stop c = true) ->
  forall st x, scan stop l st s = Some x -> scan stop' l st s = Some x.
Proof.
  intros H. induction s as [|c s IH]; intros [h d] x; cbn [scan]; [auto|]. unfold sstep. destruct h; [apply IH|].
  destruct ((d =? 0)%nat && stop c) eqn:E; [discriminate|]. assert (E' : (d =? 0)%nat && stop' c = false).
  { specialize (H c). destruct (d =? 0)%nat, (stop' c); auto. rewrite H in E by reflexivity. discriminate. }
  rewrite E'. destruct (Ascii.eqb c "\"); [apply IH|]. destruct (Ascii.eqb c "{"); [apply IH|].
  destruct (Ascii.eqb c "}"); [|apply IH]. destruct d; [destruct l; [|discriminate]|]; apply IH.
Qed.
(** The word scanner is the loose reader. *)
Lemma gw_run_scan sp : mset sp "\" = false -> forall s h c d,
  match scan (mset sp) true (h, d) s with
  | None => gw_run sp (GwSt h c d) s = None
  | Some (h', d') => exists c', gw_run sp (GwSt h c d) s = Some (GwSt h' c' d')
  end.
Proof.
  intros HB. induction s as [|x s IH]; intros h c d; cbn [scan gw_run]; [eauto|].
  unfold sstep, gw_step. cbn [g_esc g_brace]. destruct h; [apply IH|].
  destruct (Ascii.eqb_spec x "\") as [->|N1].
  - rewrite HB, andb_false_r. apply IH.
  - rewrite andb_true_r, !andb_false_r. cbn [andb]. destruct ((d =? 0)%nat && mset sp x); [reflexivity|].
    destruct (Ascii.eqb_spec x "{") as [->|N2]; [apply IH|]. destruct (Ascii.eqb_spec x "}") as [->|N3]; [|rewrite andb_false_r; apply IH].
    destruct d; cbn [Nat.ltb Nat.leb andb]; [apply IH|]. rewrite Nat.sub_succ, Nat.sub_0_r. apply IH.
Qed.
Lemma lineok_run sp s : mset sp "\" = false -> lineok sp s <-> exists c, gw_run sp (GwSt false false 0) s = Some (GwSt false c 0).
Proof.
  intros HB. unfold lineok. pose proof (gw_run_scan sp HB s false false 0) as H. destruct (scan _ _ _ _) as [[h d]|].
  - destruct H as [c' E]. rewrite E. split; [intros X; injection X as -> ->; eauto|intros [c X]; injection X as -> -> ->; reflexivity].
  - rewrite H. split; [discriminate|intros [c X]; discriminate].
Qed.
Lemma lineok_esc n sp s : usable_separators (mset n) (mset sp) -> lineok sp (esc_pure n s).
Proof. intros U. apply lineok_run; [apply U|]. exists (elem_cont n s). apply gw_run_elem, U. Qed.
Lemma lineok_txt n seps sp (sepsP stopP : byte -> Prop) s : usable_separators (mset n) (mset sp) -> (forall c, sepsP c <-> In c seps) ->
  (forall c, mset sp c = true -> stopP c) -> (exists l, forall c, stopP c <-> In c l) -> quoted sepsP s \/ contained stopP s -> lineok sp (txt n seps s).
Proof.
  intros U HS HP [l Hl] H. unfold txt. pose proof (needs_quoted sepsP seps s HS) as Q. destruct (absolutely_needs_escape s seps); [apply lineok_esc, U|].
  destruct H as [H|H]; [apply Q in H; discriminate|]. apply (contained_scan (in_set l)) in H; [|intros c; rewrite in_set_iff, Hl; reflexivity].
  eapply scan_mono; [|exact H]. intros c Hc. apply in_set_iff, Hl, HP, Hc.
Qed.
Lemma lineok_app sp a b : lineok sp a -> lineok sp b -> lineok sp (a ++ b).
Proof. unfold lineok. intros Ha Hb. rewrite scan_app, Ha. exact Hb. Qed.
Lemma lineok_head sp c s : lineok sp (c :: s) -> mset sp c = false.
Proof. unfold lineok. cbn [scan sstep Nat.eqb andb]. destruct (mset sp c); [discriminate|reflexivity]. Qed.

(** The masks at work *)
Lemma mset_list l c0 c : mset (Mask (in_set l) c0) c = true <-> In c l.
Proof. apply in_set_iff. Qed.
Lemma use_sep (l1 l2 : bytes) c1 c2 : (forall c, In c l2 -> In c l1) -> ~ In "{" l2 -> ~ In "\" l2 ->
  usable_separators (mset (Mask (in_set l1) c1)) (mset (Mask (in_set l2) c2)).
Proof.
  intros H H1 H2. split; [|split].
  - intros c Hc. left. apply (proj2 (mset_list l1 c1 c)), H, (proj1 (mset_list l2 c2 c)), Hc.
  - destruct (mset _ "{") eqn:E; [|reflexivity]. apply mset_list in E. tauto.
  - destruct (mset _ "\") eqn:E; [|reflexivity]. apply mset_list in E. tauto.
Qed.
Definition NL := WVTCL_NASTY_NEWLINES.
Ltac insolve := cbn; intros; repeat match goal with H : _ \/ _ |- _ => destruct H as [<-|H] end; intuition (auto; discriminate).
Lemma use_key_nl : usable_separators (mset key_nasties) (mset NL).
Proof. apply use_sep; insolve. Qed.
Lemma use_key_eq : usable_separators (mset key_nasties) (mset equals).
Proof. apply use_sep; insolve. Qed.
Lemma use_section_nl : usable_separators (mset section_nasties) (mset NL).
Proof. apply use_sep; insolve. Qed.
Lemma use_value_nl : usable_separators (mset WVTCL_NASTY_SPACES) (mset NL).
Proof. apply use_sep; unfold spaces; insolve. Qed.
