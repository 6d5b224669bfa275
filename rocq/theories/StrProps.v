(** C66: searching, replacing and cutting strings; C67: file and directory names. *)
From Verif Require Import Base BaseFacts Ctype StrModel StrSpec StrProofs.
From Coq Require Import Lia ZArith.
Local Open Scope nat_scope.

(** Every occurrence from the left is replaced; there is one such result. *)
Theorem C66_replace (s a b : bytes) : a <> [] ->
  exists r, strreplace (S (length s)) (Some s) (Some a) (Some b) = Ok r /\ replaced a b s r /\ forall r', replaced a b s r' -> r' = r.
Proof.
  intros N. destruct (replace_ok a b N (S (length s)) s (Nat.lt_succ_diag_r _)) as (r & E & R). exists r. split; [exact E|]. split; [exact R|].
  intros r' R'. eapply replaced_fun; eauto.
Qed.
Print Assumptions C66_replace.
(** Finding: replacing the empty string never ends. *)
Theorem C66_replace_empty_refuted : forall s b fuel, strreplace fuel (Some s) (Some []) (Some b) = NoFuel.
Proof. intros. apply replace_forever. Qed.
Print Assumptions C66_replace_empty_refuted.

(** The text before and after the first occurrence *)
Theorem C66_before_after (s a : bytes) : s <> [] -> a <> [] ->
  (forall p r, first_at a s p r -> beforestr (Some s) (Some a) = Some p /\ afterstr (Some s) (Some a) = Some r) /\
  (absent a s -> beforestr (Some s) (Some a) = Some s /\ afterstr (Some s) (Some a) = Some []) /\
  ((exists p r, first_at a s p r) \/ absent a s).
Proof.
  intros Ns Na. unfold beforestr, afterstr. rewrite !nothing_some by assumption. cbn [orb]. split; [|split].
  - intros p r F. rewrite (strstr_first _ _ _ _ F). rewrite skipn_app, skipn_all, Nat.sub_diag. auto.
  - intros N. rewrite (strstr_absent _ _ N). auto.
  - pose proof (strstr_spec a s) as H. destruct (strstr s a) as [[p m]|]; [left|right; exact H]. destruct H as (r & _ & F). eauto.
Qed.
Print Assumptions C66_before_after.

(** A part of a string *)
Theorem C66_substr (s : bytes) (pos len : nat) : (Z.of_nat (length s) < 2 ^ 32)%Z -> (Z.of_nat (pos + len) < 2 ^ 32)%Z -> s <> [] \/ pos = 0 ->
  substr (Some s) (Z.of_nat pos) (Z.of_nat len) = Ok (Some (firstn len (skipn pos s))).
Proof.
  intros L1 L2 H. unfold substr.
  destruct (Nat.eq_dec (length s) 0) as [E|E].
  - destruct s; [|discriminate]. destruct H as [H| ->]; [contradiction|]. cbn [length].
    change (Z.of_nat 0 >? (Z.of_nat 0 - 1) mod 2 ^ 64)%Z with false. change (Z.of_nat 0 >? Z.of_nat 0)%Z with false. cbn iota.
    rewrite (Z.mod_small (Z.of_nat 0 + Z.of_nat len)) by lia. replace (Z.of_nat 0 + Z.of_nat len <? Z.of_nat 0)%Z with false by (symmetry; apply Z.ltb_ge; lia). cbn. rewrite firstn_nil. reflexivity.
  - rewrite (Z.mod_small (Z.of_nat (length s) - 1)) by lia.
    destruct (Z.gtb_spec (Z.of_nat pos) (Z.of_nat (length s) - 1)).
    + rewrite skipn_all2, firstn_nil by lia. reflexivity.
    + replace (Z.of_nat pos >? Z.of_nat (length s))%Z with false by (symmetry; rewrite Z.gtb_ltb; apply Z.ltb_ge; lia).
      rewrite (Z.mod_small (Z.of_nat pos + Z.of_nat len)) by lia. rewrite !Nat2Z.id, skipn_length.
      destruct (Z.ltb_spec (Z.of_nat pos + Z.of_nat len) (Z.of_nat (length s))).
      * replace (Z.of_nat len >? Z.of_nat (length s - pos))%Z with false by (symmetry; rewrite Z.gtb_ltb; apply Z.ltb_ge; lia). reflexivity.
      * rewrite firstn_all2 by (rewrite skipn_length; lia). reflexivity.
Qed.
Print Assumptions C66_substr.
(** Finding: despite its documentation ("error checking prevents seg fault") substr
    reads outside an empty string, and with a length near the greatest unsigned int, as
    for "all the rest", writes outside its copy. *)
Theorem C66_substr_refuted : substr (Some []) 1 1 = Fault /\ substr (Some (B "abc")) 1 (2 ^ 32 - 1) = Fault.
Proof. split; reflexivity. Qed.
Print Assumptions C66_substr_refuted.

(** Runs of a character become one. *)
Theorem C66_undupe (s : bytes) (c : byte) : stretched c (undupe false s c) s /\ forall r, stretched c r s -> r = undupe false s c.
Proof.
  pose proof (undupe_ok c _ s (Nat.lt_succ_diag_r _)) as H. split; [exact H|]. intros r R. eapply stretched_fun; eauto.
Qed.
Print Assumptions C66_undupe.

(** Counting a character; not the terminator *)
Theorem C66_count (s : bytes) (c : byte) : (c <> nul -> strcount s c = Ok (count_occ Ascii.ascii_dec s c)) /\ strcount s nul = Fault.
Proof. split; [apply strcount_ok|apply strcount_nul]. Qed.
Print Assumptions C66_count.

(** Joining with one separator: those at the end of the first and at the start of the
    second string are taken off. *)
Theorem C66_spacecat (a b : bytes) (sep : byte) : sep <> nul ->
  spacecat a b sep false = Ok (a ++ [sep] ++ b) /\
  (a = [] \/ (exists x, In x a /\ x <> sep) ->
   exists a' b' n m, a = a' ++ repeat sep n /\ ~ ends_with sep a' /\ b = repeat sep m ++ b' /\ ~ begins_with sep b' /\
     spacecat a b sep true = Ok (a' ++ [sep] ++ b')).
Proof.
  intros N. split; [reflexivity|]. intros H. destruct (rstrip_run sep a) as (n & Ea & Na). destruct (lstrip_run sep b) as (m & Eb & Nb).
  exists (rev (lstrip (rev a) sep)), (lstrip b sep), n, m. repeat split; auto. unfold spacecat.
  assert (X : (if Ascii.eqb sep nul then Fault else Ok (rev (lstrip (rev a) sep) ++ sep :: lstrip b sep)) = Ok (rev (lstrip (rev a) sep) ++ [sep] ++ lstrip b sep))
    by (destruct (Ascii.eqb_spec sep nul); [contradiction|reflexivity]).
  destruct a as [|x a]; [exact X|]. destruct (rev (lstrip (rev (x :: a)) sep)) as [|y a'] eqn:E; [|exact X].
  exfalso. destruct H as [H|(z & I & Nz)]; [discriminate|]. rewrite Ea in I. cbn in I. apply repeat_spec in I. contradiction.
Qed.
Print Assumptions C66_spacecat.
(** Finding: if the first string has only separators, the loop runs over its start. *)
Theorem C66_spacecat_refuted (sep : byte) (n : nat) (b : bytes) : spacecat (repeat sep (S n)) b sep true = Fault.
Proof.
  unfold spacecat. cbn [repeat]. change (sep :: repeat sep n) with (repeat sep (S n)).
  replace (lstrip (rev (repeat sep (S n))) sep) with (@nil byte); [reflexivity|].
  destruct (rstrip_run sep (repeat sep (S n))) as (k & E & N). destruct (lstrip_run sep (rev (repeat sep (S n)))) as (j & E2 & N2).
  destruct (lstrip (rev (repeat sep (S n))) sep) as [|y l] eqn:X; [reflexivity|]. exfalso. apply N2. exists l. f_equal.
  assert (I : In y (rev (repeat sep (S n)))) by (rewrite E2; apply in_app_iff; right; left; reflexivity). apply in_rev, repeat_spec in I. exact I.
Qed.
Print Assumptions C66_spacecat_refuted.

(** One full stop, question or exclamation mark is taken off the end; an empty string is
    read outside. *)
Theorem C66_depunctuate (s : bytes) (c : byte) :
  (In c (B ".?!") -> depunctuate (s ++ [c]) = Ok s) /\ (~ In c (B ".?!") -> depunctuate (s ++ [c]) = Ok (s ++ [c])) /\ depunctuate [] = Fault.
Proof.
  unfold depunctuate. rewrite rev_app_distr. cbn. split; [|split; [|reflexivity]].
  - rewrite rev_involutive. unfold punct. intros [<-|[<-|[<-|[]]]]; reflexivity.
  - intros N. unfold punct. destruct (Ascii.eqb_spec c "."); [subst; tauto|]. destruct (Ascii.eqb_spec c "?"); [subst; tauto|]. destruct (Ascii.eqb_spec c "!"); [subst; tauto|]. reflexivity.
Qed.
Print Assumptions C66_depunctuate.

(** The start of a string is snipped off if it is the given one. *)
Theorem C66_snip (h n : bytes) : (forall r, h = n ++ r -> snip_string (Some h) (Some n) = Some r) /\ ((forall r, h <> n ++ r) -> snip_string (Some h) (Some n) = Some h).
Proof.
  unfold snip_string. pose proof (strstr_spec n h) as H. split.
  - intros r ->. rewrite (strstr_first n (n ++ r) [] r); [|split; [reflexivity|cbn; lia]]. rewrite skipn_app, skipn_all, Nat.sub_diag. reflexivity.
  - intros N. destruct (strstr h n) as [[[|x p] m]|]; [|reflexivity|reflexivity]. destruct H as (r & -> & E & _). exfalso. apply (N r). exact E.
Qed.
Print Assumptions C66_snip.

(** Escaping with backslashes can be undone, and leaves at most twice the length. *)
Theorem C66_backslash (s : bytes) : unbs (backslash_escape (Some s)) = s /\ length (backslash_escape (Some s)) <= 2 * length s.
Proof.
  split; [apply unbs_escape|]. induction s as [|c s IH]; [cbn; lia|]. cbn [backslash_escape bs_escape] in *. destruct (isalnum c); cbn [length]; lia.
Qed.
Print Assumptions C66_backslash.

(** A path [t], not ending in a slash, with any number of slashes after it: with a
    directory and without one. *)
Theorem C67_names (d f : bytes) (n : nat) : f <> [] -> ~ In "/"%char f ->
  getfilename (d ++ B "/" ++ f ++ repeat "/"%char n) = Ok f /\
  getdirname (d ++ B "/" ++ f ++ repeat "/"%char n) = Ok (match d with [] => B "/" | _ => d end) /\
  getfilename (f ++ repeat "/"%char n) = Ok f /\
  getdirname (f ++ repeat "/"%char n) = Ok (B ".").
Proof.
  intros N F. unfold getfilename, getdirname.
  assert (A : d ++ B "/" ++ f ++ repeat "/"%char n = (d ++ "/"%char :: f) ++ repeat "/"%char n) by (rewrite <- app_assoc; reflexivity). rewrite A.
  destruct (filename_strip n (d ++ "/"%char :: f) _ (Nat.lt_succ_diag_r _)) as (f1 & L1 & E1). destruct (dirname_strip n (d ++ "/"%char :: f) _ (Nat.lt_succ_diag_r _)) as (f2 & L2 & E2).
  destruct (filename_strip n f _ (Nat.lt_succ_diag_r _)) as (f3 & L3 & E3). destruct (dirname_strip n f _ (Nat.lt_succ_diag_r _)) as (f4 & L4 & E4).
  rewrite E1, E2, E3, E4. destruct f1, f2, f3, f4; try lia. cbn [filename dirname]. rewrite (strrchr_at d f F), (strrchr_none f F).
  destruct f as [|c f]; [contradiction|]. repeat split; destruct d; reflexivity.
Qed.
Print Assumptions C67_names.
(** Every path that is not only slashes is of one of these forms. *)
Theorem C67_forms (p : bytes) : (exists x, In x p /\ x <> "/"%char) ->
  exists f n, f <> [] /\ ~ In "/"%char f /\ (p = f ++ repeat "/"%char n \/ exists d, p = d ++ B "/" ++ f ++ repeat "/"%char n).
Proof.
  intros (x & I & Nx). destruct (rstrip_run "/"%char p) as (n & E & N). set (t := rev (lstrip (rev p) "/"%char)) in *.
  assert (It : t <> []) by (intros Z; rewrite E, Z in I; apply repeat_spec in I; contradiction).
  pose proof (strrchr_spec t) as H. destruct (strrchr t) as [[d f]|].
  - destruct H as [Et Nf]. exists f, n. split; [|split; [exact Nf|right; exists d; rewrite E, Et, <- app_assoc; reflexivity]].
    intros ->. apply N. exists d. exact Et.
  - exists t, n. auto.
Qed.
Print Assumptions C67_forms.
(** Finding: the directory and the file name of the root are both empty. *)
Theorem C67_root_refuted (n : nat) : getdirname (repeat "/"%char (S n)) = Ok [] /\ getfilename (repeat "/"%char (S n)) = Ok [].
Proof.
  unfold getfilename, getdirname. 
  destruct (filename_strip (S n) [] _ (Nat.lt_succ_diag_r _)) as (f1 & L1 & E1). destruct (dirname_strip (S n) [] _ (Nat.lt_succ_diag_r _)) as (f2 & L2 & E2).
  cbn [app] in *. rewrite E1, E2. destruct f1, f2; try lia. split; reflexivity.
Qed.
Print Assumptions C67_root_refuted.

Example ex_str :
  strreplace 20 (Some (B "aaabaa")) (Some (B "aa")) (Some (B "xaax")) = Ok (B "xaaxabxaax") /\
  beforestr (Some (B "a=b=c")) (Some (B "=")) = Some (B "a") /\ afterstr (Some (B "a=b=c")) (Some (B "=")) = Some (B "b=c") /\
  substr (Some (B "hello")) 1 3 = Ok (Some (B "ell")) /\ substr (Some (B "hello")) 3 30 = Ok (Some (B "lo")) /\ substr (Some (B "hello")) 7 1 = Ok (Some []) /\
  undupe false (B "a//b///c") "/" = B "a/b/c" /\ strcount (B "a/b/c") "/" = Ok 2 /\
  spacecat (B "xx;;") (B ";yy") ";" true = Ok (B "xx;yy") /\ depunctuate (B "so!") = Ok (B "so") /\ snip_string (Some (B "foobar")) (Some (B "foo")) = Some (B "bar") /\
  backslash_escape (Some (B "a b")) = B "a\ b".
Proof. repeat split; reflexivity. Qed.
Example ex_names : getfilename (B "/usr//lib/") = Ok (B "lib") /\ getdirname (B "/usr//lib/") = Ok (B "/usr/") /\ getdirname (B "/usr") = Ok (B "/") /\ getdirname (B "usr/") = Ok (B ".").
Proof. repeat split; reflexivity. Qed.
