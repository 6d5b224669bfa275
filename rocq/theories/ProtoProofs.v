(** Proofs about the tokenizer of WvProtoStream. *)
From Verif Require Import Base Ctype UrlModel ProtoSpec ProtoModel.
Local Open Scope char_scope.

Definition ws (c : byte) : bool := existsb (Ascii.eqb c) whitespace.
Lemma ws_sep c : c <> "000" -> ws c = true <-> sep c.
Proof.
  intros N. unfold ws, whitespace, sep. rewrite existsb_exists. split.
  - intros (x & I & E). apply Ascii.eqb_eq in E. subst x. cbn in I. intuition congruence.
  - intros H. exists c. rewrite Ascii.eqb_refl. split; [|reflexivity]. cbn. intuition auto.
Qed.

Lemma loop_app chl r : forall a i s, Forall (fun c => existsb (Ascii.eqb c) chl = negb r) a ->
  match_loop chl r i (a ++ s) = match_loop chl r (i + length a) s.
Proof.
  induction a as [|c a IH]; intros i s F; cbn [app length]; [f_equal; lia|]. inversion F as [|? ? E F']; subst. cbn [match_loop]. rewrite E.
  replace (Bool.eqb (negb r) r) with false by (destruct r; reflexivity). rewrite IH by exact F'. f_equal. lia.
Qed.

Fixpoint span (p : byte -> bool) (s : bytes) : bytes * bytes :=
  match s with [] => ([], []) | c :: s' => if p c then let '(a, b) := span p s' in (c :: a, b) else ([], s) end.
Lemma span_ok p s : let '(a, b) := span p s in s = a ++ b /\ Forall (fun c => p c = true) a /\ match b with [] => True | c :: _ => p c = false end.
Proof.
  induction s as [|c s IH]; cbn [span]; [auto|]. destruct (p c) eqn:E; [|auto]. destruct (span p s) as [a b]. destruct IH as (-> & F & H).
  split; [reflexivity|]. split; [constructor; assumption|exact H].
Qed.

Definition nulfree (s : bytes) : Prop := ~ In "000" s.

(** What next_token does. *)
Lemma next_cases s : nulfree s ->
  (Forall sep s /\ next_token s = (s, None)) \/
  (exists a w r, s = a ++ w ++ r /\ Forall sep a /\ word w /\ match r with [] => True | c :: _ => sep c end /\ next_token s = (r, Some w)).
Proof.
  intros N. pose proof (span_ok ws s) as H. destruct (span ws s) as [a b] eqn:E1. destruct H as (-> & FA & HB).
  assert (SA : Forall sep a). { apply Forall_forall. intros c I. rewrite Forall_forall in FA. apply ws_sep; [|apply FA, I]. intros ->. apply N, in_or_app; auto. }
  unfold next_token. destruct b as [|c b].
  - left. rewrite app_nil_r in *. split; [exact SA|].
    assert (M : buf_match whitespace a = 0). { unfold buf_match. rewrite <- (app_nil_r a), loop_app by exact FA. reflexivity. }
    rewrite M. cbn [skipn]. assert (M2 : buf_notmatch whitespace a = 0).
    { unfold buf_notmatch. destruct a as [|x a]; [reflexivity|]. cbn [match_loop]. inversion FA as [|? ? FX]; subst. unfold ws in FX. rewrite FX. reflexivity. }
    rewrite M2. reflexivity.
  - right. assert (M : buf_match whitespace (a ++ c :: b) = length a).
    { unfold buf_match. rewrite loop_app by exact FA. cbn [match_loop]. unfold ws in HB. rewrite HB. reflexivity. }
    rewrite M. assert (SK : skipn (length a) (a ++ c :: b) = c :: b) by (rewrite skipn_app, skipn_all, Nat.sub_diag; reflexivity). rewrite SK.
    pose proof (span_ok (fun c => negb (ws c)) (c :: b)) as H. destruct (span (fun c => negb (ws c)) (c :: b)) as [w r] eqn:E2. destruct H as (E & FW & HR).
    assert (W : w <> []). { intros ->. cbn [span] in E2. rewrite HB in E2. cbn [negb] in E2. destruct (span _ b). discriminate. }
    exists a, w, r. rewrite E. split; [reflexivity|]. split; [exact SA|].
    assert (NW : forall x, In x w -> x <> "000"). { intros x I ->. apply N. apply in_or_app. right. rewrite E. apply in_or_app. auto. }
    split.
    { split; [exact W|]. apply Forall_forall. intros x I S. rewrite Forall_forall in FW. specialize (FW x I). apply ws_sep in S; [|apply NW, I]. rewrite S in FW. discriminate. }
    split.
    { destruct r as [|x r]; [exact I|]. apply ws_sep; [intros ->; apply N, in_or_app; right; rewrite E; apply in_elt|]. destruct (ws x); [reflexivity|discriminate]. }
    assert (L : buf_notmatch whitespace (w ++ r) = length w).
    { unfold buf_notmatch. rewrite loop_app.
      - destruct r as [|x r]; [reflexivity|]. cbn [match_loop]. destruct (ws x) eqn:X; [|discriminate]. unfold ws in X. rewrite X. reflexivity.
      - eapply Forall_impl; [|exact FW]. cbn beta. intros x X. unfold ws in X. cbn [negb]. destruct (existsb _ _); [discriminate|reflexivity]. }
    rewrite L. destruct w as [|x w]; [congruence|]. change (length (x :: w)) with (S (length w)) at 1. cbv iota.
    rewrite skipn_app, skipn_all, Nat.sub_diag, firstn_app, firstn_all, Nat.sub_diag. cbn [firstn skipn app]. rewrite app_nil_r. reflexivity.
Qed.

Lemma tokenize_ok : forall fuel s, nulfree s -> length s < fuel ->
  exists buf ts, tokenize_loop fuel s = Ok (buf, ts) /\ Forall sep buf /\ words s ts.
Proof.
  induction fuel as [|fuel IH]; intros s N L; [lia|]. cbn [tokenize_loop]. destruct (next_cases s N) as [[F E]|(a & w & r & -> & A & W & R & E)]; rewrite E.
  - exists s, []. split; [reflexivity|]. split; [exact F|]. constructor; exact F.
  - destruct (IH r) as (buf & ts & T & B & O).
    + intros I. apply N. apply in_or_app. right. apply in_or_app. auto.
    + rewrite !app_length in L. destruct W as [W _]. destruct w; [congruence|]. cbn in L. lia.
    + rewrite T. cbn [bind]. eexists _, _. split; [reflexivity|]. split; [exact B|]. destruct r as [|c r].
      * rewrite app_nil_r. assert (X : ts = []).
        { inversion O as [|? ? ? [W' _] E'|? ? ? ? ? ? [W' _] ? ? E']; [reflexivity| |]; exfalso; destruct w0; try congruence; apply app_eq_nil in E'; destruct E'; discriminate. }
        subst. constructor; assumption.
      * assert (X : words r ts).
        { inversion O as [? F|? ? F W' E'|? ? ? ? ? F W' S' O' E']; subst.
          - constructor. inversion F; assumption.
          - destruct a0 as [|y a0]; cbn [app] in E'; [exfalso; destruct W' as [W1 W2]; destruct w0; [congruence|]; inversion W2; subst; cbn in E'; congruence|].
            injection E' as <- <-. constructor; [inversion F; assumption|exact W'].
          - destruct a0 as [|y a0]; cbn [app] in E'; [exfalso; destruct W' as [W1 W2]; destruct w0; [congruence|]; inversion W2; subst; cbn in E'; congruence|].
            injection E' as <- <-. constructor; [inversion F; assumption|exact W'|exact S'|exact O']. }
        constructor; assumption.
Qed.

(** There is only one way to read a line. *)
Lemma sep_head a w s b v t : Forall sep a -> word w -> Forall sep b -> word v -> match s with [] => True | c :: _ => sep c end ->
  match t with [] => True | c :: _ => sep c end -> a ++ w ++ s = b ++ v ++ t -> w = v /\ s = t.
Proof.
  intros A [W1 W2] C [V1 V2] S T. revert b C. induction A as [|x a X A IH]; intros b C E.
  - destruct C as [|y b Y C].
    + cbn [app] in E. clear W1 V1. revert v V2 E. induction W2 as [|x w X W2 IH]; intros v V2 E; destruct V2 as [|y v Y V2]; cbn [app] in E.
      * auto.
      * exfalso. subst s. auto.
      * exfalso. subst t. auto.
      * injection E as <- E. destruct (IH v V2 E) as [-> ->]. auto.
    + exfalso. destruct w as [|x w]; [congruence|]. apply Forall_inv in W2. cbn [app] in E. injection E as -> _. auto.
  - destruct C as [|y b Y C].
    + exfalso. destruct v as [|y v]; [congruence|]. apply Forall_inv in V2. cbn [app] in E. injection E as -> _. auto.
    + cbn [app] in E. injection E as <- E. exact (IH b C E).
Qed.
Lemma sep_no_word s a w t : Forall sep s -> word w -> s = a ++ w ++ t -> False.
Proof.
  intros F [W1 W2] ->. apply Forall_app in F. destruct F as [_ F]. apply Forall_app in F. destruct F as [F _]. destruct w; [congruence|]. inversion F; inversion W2; subst. auto.
Qed.
Lemma words_unique s ts us : words s ts -> words s us -> ts = us.
Proof.
  intros H. revert us. induction H as [s F|a w A W|a w c s ts A W C H IH]; intros us H2.
  - inversion H2 as [s0 F' E1 E2|b v B' V E1 E2|b v d t vs B' V D T E1 E2]; [reflexivity| |]; exfalso; rewrite <- E1 in F.
    + apply (sep_no_word (b ++ v) b v []); [exact F|exact V|rewrite app_nil_r; reflexivity].
    + apply (sep_no_word (b ++ v ++ d :: t) b v (d :: t)); [exact F|exact V|reflexivity].
  - inversion H2 as [s0 F' E1 E2|b v B' V E1 E2|b v d t vs B' V D T E1 E2].
    + exfalso. apply (sep_no_word (a ++ w) a w []); [exact F'|exact W|rewrite app_nil_r; reflexivity].
    + destruct (sep_head b v [] a w []) as [-> _]; auto. rewrite !app_nil_r. exact E1.
    + exfalso. destruct (sep_head b v (d :: t) a w []) as [_ X]; auto; [rewrite app_nil_r; exact E1|discriminate].
  - inversion H2 as [s0 F' E1 E2|b v B' V E1 E2|b v d t vs B' V D T E1 E2].
    + exfalso. apply (sep_no_word (a ++ w ++ c :: s) a w (c :: s)); [exact F'|exact W|reflexivity].
    + exfalso. destruct (sep_head b v [] a w (c :: s)) as [_ X]; auto; [rewrite app_nil_r; exact E1|discriminate].
    + destruct (sep_head b v (d :: t) a w (c :: s)) as [-> X]; auto. injection X as -> ->. f_equal. apply IH, T.
Qed.

(** ** Commands *)
Lemma strcmp_iff a b : strcmp0 a b = true <-> a = b.
Proof.
  revert b. induction a as [|x a IH]; intros [|y b]; cbn [strcmp0]; try (split; congruence). destruct (Ascii.eqb_spec x y) as [->|N]; [|split; congruence].
  rewrite IH. split; congruence.
Qed.
Lemma strcase_iff a b : strcasecmp0 a b = true <-> map lower a = map lower b.
Proof.
  revert b. induction a as [|x a IH]; intros [|y b]; cbn [strcasecmp0 map]; try (split; congruence).
  change (tolower_c x) with (lower x). change (tolower_c y) with (lower y). destruct (Ascii.eqb_spec (lower x) (lower y)) as [E|N]; [|split; congruence].
  rewrite IH, E. split; congruence.
Qed.
Lemma test_iff cs t l : (negb cs && strcasecmp0 t l || cs && strcmp0 t l)%bool = true <-> matches cs t l.
Proof. destruct cs; cbn [negb andb orb matches]; [apply strcmp_iff|]. rewrite orb_false_r. apply strcase_iff. Qed.
Lemma tokanal_ok cs t : forall lookup i,
  (tokanal_loop t lookup cs i = (-1)%Z /\ forall l, In l lookup -> ~ matches cs t l) \/
  (exists a l b, lookup = a ++ l :: b /\ tokanal_loop t lookup cs i = (i + Z.of_nat (length a))%Z /\ matches cs t l /\ forall x, In x a -> ~ matches cs t x).
Proof.
  induction lookup as [|l lookup IH]; intros i; cbn [tokanal_loop]; [left; split; [reflexivity|intros _ []]|].
  destruct (negb cs && strcasecmp0 t l || cs && strcmp0 t l)%bool eqn:E.
  - right. exists [], l, lookup. split; [reflexivity|]. split; [cbn; lia|]. split; [apply test_iff, E|intros _ []].
  - assert (N : ~ matches cs t l) by (rewrite <- test_iff; congruence). destruct (IH (i + 1)%Z) as [[R H]|(a & x & b & -> & R & M & H)].
    + left. split; [exact R|]. intros x [<-|I]; auto.
    + right. exists (l :: a), x, b. split; [reflexivity|]. split; [rewrite R; cbn [length]; lia|]. split; [exact M|]. intros y [<-|I]; auto.
Qed.
