(** C64: what a pattern matches. *)
From Verif Require Import Base BaseFacts GlobModel GlobSpec GlobProofs.
From Coq Require Import Lia.
Local Open Scope nat_scope.

(** The conversion of any text ends, and gives an expression or an error. *)
Theorem C64_total (t : option bytes) : exists r, glob_to_regex t = Ok r.
Proof.
  destruct t as [t|]; [|eexists; reflexivity]. cbn [glob_to_regex].
  destruct (proj1 (conv_good (2 * length t + 1)) normal_quit NORMAL t (le_n _)) as (v & -> & _). destruct v; eexists; reflexivity.
Qed.
Print Assumptions C64_total.

(** The expression a well-formed pattern is converted to can be compiled, in one way, and
    is found in a string exactly if the pattern matches the whole string. *)
Theorem C64_matches (g : glob) : wf false g ->
  exists text e, glob_to_regex (Some (gtext g)) = Ok (inr text) /\ compiles text e /\ (forall e', compiles text e' -> e' = e) /\
                 forall s, found e s <-> lang g s.
Proof.
  intros W. exists (B "^" ++ gregex g ++ B "$"), (whole g).
  split; [apply glob_regex, W|]. split; [apply whole_compiles, W|]. split; [|intros; apply whole_found].
  intros e' H. eapply compiles_inj; [exact H|apply whole_compiles, W].
Qed.
Print Assumptions C64_matches.

(** A text with a backslash before each character matches itself and nothing else. *)
Fixpoint quoted (t : bytes) : bytes := match t with [] => [] | c :: t => "\"%char :: c :: quoted t end.
Theorem C64_quoted (t : bytes) : ~ In nul t ->
  exists text e, glob_to_regex (Some (quoted t)) = Ok (inr text) /\ compiles text e /\ forall s, found e s <-> s = t.
Proof.
  intros N. set (q := fold_right (fun c g => GThen (IEsc c) g) GEnd).
  assert (T : gtext (q t) = quoted t) by (induction t as [|c t IH]; [reflexivity|]; cbn in *; rewrite IH; tauto).
  assert (W : wf false (q t)).
  { clear T. induction t as [|c t IH]; [exact I|]. cbn in *. split; [intros ->; tauto|apply IH; tauto]. }
  assert (L : forall s, lang (q t) s <-> s = t).
  { clear. induction t as [|c t IH]; intros s; [reflexivity|]. cbn. split.
    - intros (a & b & -> & -> & H). apply IH in H. subst. reflexivity.
    - intros ->. exists [c], t. split; [reflexivity|]. split; [reflexivity|]. apply IH. reflexivity. }
  destruct (C64_matches (q t) W) as (text & e & E & C & _ & F). rewrite T in E. exists text, e. split; [exact E|]. split; [exact C|].
  intros s. rewrite F. apply L.
Qed.
Print Assumptions C64_quoted.

(** After any pattern, a backslash at the end, a brace or a bracket that is not closed,
    and a slash in brackets are errors. *)
Theorem C64_errors (g : glob) : wf false g ->
  glob_to_regex (Some (gtext g ++ B "\")) = Ok (inl EBackslash) /\
  (forall h, wf true h -> glob_to_regex (Some (gtext g ++ B "{" ++ gtext h)) = Ok (inl EBrace)) /\
  glob_to_regex (Some (gtext g ++ B "[")) = Ok (inl EBracket) /\
  (forall c s, c <> "/"%char -> ~ In "/"%char s -> ~ In "]"%char s -> glob_to_regex (Some (gtext g ++ B "[" ++ c :: s)) = Ok (inl EBracket)) /\
  (forall r, glob_to_regex (Some (gtext g ++ B "[/" ++ r)) = Ok (inl ESlash)) /\
  (forall c s r, c <> "/"%char -> ~ In "/"%char s -> ~ In "]"%char s -> glob_to_regex (Some (gtext g ++ B "[" ++ c :: s ++ B "/" ++ r)) = Ok (inl ESlash)).
Proof.
  intros W. split; [eapply glob_fails; [exact W|apply fail_backslash]|].
  split; [intros h H; eapply glob_fails; [exact W|apply fail_brace, H]|].
  split; [eapply (glob_fails g _ _ []); [exact W|exists 2; reflexivity]|].
  split; [intros c s H1 H2 H3|split; [intros r|intros c s r H1 H2 H3]].
  - eapply glob_fails; [exact W|]. rewrite <- (app_nil_r s).
    apply (fail_bracket c s []); auto; [intros q; exists 1; reflexivity|intros (_ & _ & k & E); discriminate].
  - eapply (glob_fails g _ _ []); [exact W|]. exists 3. cbn. destruct r; reflexivity.
  - eapply glob_fails; [exact W|]. apply (fail_bracket c s); auto; [intros q; exists 1; reflexivity|intros (_ & _ & k & E); discriminate].
Qed.
Print Assumptions C64_errors.

Ltac tidy := repeat match goal with
  | |- _ /\ _ => split | |- Forall _ _ => constructor | |- ~ _ => intro | |- _ -> _ => intro | |- forall _, _ => intro | |- True => exact I
  | H : exists _, _ |- _ => destruct H | H : _ \/ _ |- _ => destruct H | H : False |- _ => destruct H | H : _ = _ |- _ => discriminate H | H : _ /\ _ |- _ => destruct H
  end.
(** Finding: brackets that begin with an exclamation mark match a slash, though star and
    question mark do not and a slash in brackets is an error. *)
Theorem C64_negated_slash_refuted :
  exists g, wf false g /\ gtext g = B "a[!b]c" /\ lang g (B "a/c").
Proof.
  exists (GThen (ILit "a") (GThen (ISet true (SChr "b") []) (GThen (ILit "c") GEnd))).
  split; [cbn; unfold plain_in_set; cbn; tidy|]. split; [reflexivity|].
  exists (B "a"), (B "/c"). split; [reflexivity|]. split; [reflexivity|]. exists (B "/"), (B "c"). split; [reflexivity|]. split.
  - exists "/"%char. split; [reflexivity|]. intros H. apply in_set_cons in H as [H|H]; [cbn in H; discriminate|inversion H].
  - exists (B "c"), []. repeat split; reflexivity.
Qed.
Print Assumptions C64_negated_slash_refuted.

(** Finding: a closing bracket after the exclamation mark ends the text of the set but
    not the set: what is written cannot be compiled.  Two circumflexes make the set a
    negated one: it matches the characters it does not list. *)
Theorem C64_set_refuted :
  (exists text, glob_to_regex (Some (B "[!]a]")) = Ok (inr text) /\ forall e, ~ compiles text e) /\
  (exists text e, glob_to_regex (Some (B "[^^a]")) = Ok (inr text) /\ compiles text e /\ found e (B "b") /\ ~ found e (B "a")).
Proof.
  split.
  - exists (B "^([^])a]$"). split; [reflexivity|]. intros e (n & H). specialize (H (40 + n) ltac:(lia)). discriminate H.
  - exists (B "^(\^|[^a])$"), (RCat RBol (RCat (RAlt (RCat (RChr "^") REps) (RCat (RSet true [SChr "a"]) REps)) (RCat REol REps))).
    split; [reflexivity|]. split; [exists 20; intros f Hf; do 20 (destruct f; [lia|]); reflexivity|]. split.
    + exists [], (B "b"), []. split; [reflexivity|]. apply mt_cat. exists [], (B "b"). repeat split; [constructor|].
      apply mt_cat. exists (B "b"), []. repeat split; [|apply mt_cat_eps; constructor].
      apply mt_alt. right. apply mt_cat_eps. constructor. intros H. apply in_set_cons in H as [H|H]; [cbn in H; discriminate|inversion H].
    + intros (pre & mid & post & E & M). apply mt_cat in M as (a & b & -> & M1 & M2). inversion M1; subst.
      apply mt_cat in M2 as (x & y & -> & M2 & M3). apply (proj1 (mt_cat_eps _ _ _ _)) in M3. inversion M3; subst.
      cbn in E. rewrite !app_nil_r in E. subst. apply mt_alt in M2 as [M2|M2]; apply (proj1 (mt_cat_eps _ _ _ _)) in M2.
      * apply mt_chr in M2. discriminate.
      * apply mt_set in M2 as (c & E & H). injection E as <-. apply H. apply in_set_cons. left. reflexivity.
Qed.
Print Assumptions C64_set_refuted.

(** Cases. *)
Definition ex_glob : glob :=
  GThen (ILit "a") (GThen IAny (GThen (ILit ".") (GThen (IAlt (AMore (GThen (ILit "c") (GThen IOne GEnd)) (AOne (GThen (IEsc ",") GEnd))))
    (GThen (ISet false (SChr "]") [SRange "0" "9"; SChr "^"]) GEnd)))).
Example ex_glob_wf : wf false ex_glob.
Proof. cbn; unfold wf_first, wf_sitem, plain_in_set, starts. cbn. tidy; try lia; try (right; reflexivity); cbn; tidy; try lia; try discriminate. Qed.
Example ex_glob_text : gtext ex_glob = B "a*.{c?,\,}[]0-9^]" /\ glob_to_regex (Some (gtext ex_glob)) = Ok (inr (B "^a([^/]*)\.(c([^/])|,)([]0-9^])$")).
Proof. split; reflexivity. Qed.
Example ex_glob_hat : glob_to_regex (Some (B "[^]x[^a]")) = Ok (inr (B "^\^x(\^|[a])$")).
Proof. reflexivity. Qed.
