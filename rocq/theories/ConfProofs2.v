From Verif Require Import Base BaseFacts Ctype UrlModel IniModel IniSpec IniProofs IniProofs2 KeySpec IntFmtModel ConfModel ConfSpec ConfProofs.
Local Open Scope nat_scope.

(** ** Cutting *)
Lemma cut_iff : forall s c a b, cut s c = Some (a, b) <-> s = a ++ c :: b /\ ~ In c a.
Proof.
  induction s as [|x s IH]; intros c a b; cbn.
  - split; [discriminate|]. intros [E _]. destruct a; discriminate.
  - destruct (Ascii.eqb x c) eqn:E.
    + apply Ascii.eqb_eq in E. subst x. split.
      * intros [= <- <-]. auto.
      * intros [H N]. destruct a as [|y a]; cbn in H; inversion H; subst; [reflexivity|]. destruct N. left. reflexivity.
    + apply Ascii.eqb_neq in E. destruct (cut s c) as [[p q]|] eqn:C.
      * split.
        -- intros [= <- <-]. apply IH in C. destruct C as [-> N]. split; [reflexivity|]. intros [H|H]; auto.
        -- intros [H N]. destruct a as [|y a]; cbn in H; inversion H; subst; [congruence|].
           assert (X : Some (p, q) = Some (a, b)). { rewrite <- C. apply IH. split; [reflexivity|]. intros I. apply N. right. exact I. }
           inversion X; subst. reflexivity.
      * split; [discriminate|]. intros [H N]. destruct a as [|y a]; cbn in H; inversion H; subst; [congruence|].
        assert (X : cut (a ++ c :: b) c = Some (a, b)). { apply IH. split; [reflexivity|]. intros I. apply N. right. exact I. } congruence.
Qed.
Lemma cut_none : forall s c, cut s c = None <-> ~ In c s.
Proof.
  intros s c. split.
  - intros H I. apply in_split in I. 
    assert (X : exists a b, s = a ++ c :: b /\ ~ In c a).
    { clear H. destruct I as (a & b & ->). induction a as [|x a IHa]; [exists [], b; auto|].
      destruct (Ascii.eqb x c) eqn:E; [apply Ascii.eqb_eq in E; subst; exists [], (a ++ c :: b); auto|].
      apply Ascii.eqb_neq in E. destruct IHa as (p & q & Ep & Np). exists (x :: p), q. cbn. rewrite Ep. split; [reflexivity|]. intros [F|F]; auto. }
    destruct X as (a & b & E & N). assert (cut s c = Some (a, b)) by (apply cut_iff; auto). congruence.
  - intros N. destruct (cut s c) as [[a b]|] eqn:C; [|reflexivity]. apply cut_iff in C. destruct C as [-> _]. destruct N. apply in_or_app. right. left. reflexivity.
Qed.

(** ** Lines *)
Definition clean (s : bytes) : Prop := ~ In newline s.
Lemma split_lines_line : forall l cur t, clean l -> split_lines cur (l ++ newline :: t) = (rev cur ++ l) :: split_lines [] t.
Proof.
  induction l as [|c l IH]; intros cur t N; cbn [split_lines app].
  - rewrite Ascii.eqb_refl, app_nil_r. reflexivity.
  - destruct (Ascii.eqb c newline) eqn:E; [apply Ascii.eqb_eq in E; destruct N; left; auto|]. rewrite IH; [|intros I; apply N; right; exact I].
    cbn [rev]. rewrite <- app_assoc. reflexivity.
Qed.
Lemma cstr_id s : nul_free s -> cstr s = s.
Proof. unfold nul_free. induction s as [|c s IH]; cbn; [reflexivity|]. intros N. destruct (Ascii.eqb c nul) eqn:E; [apply Ascii.eqb_eq in E; destruct N; auto|]. rewrite IH; auto. Qed.
Lemma lines_cons l t : one_line l -> lines (l ++ newline :: t) = l :: lines t.
Proof. intros [N F]. unfold lines. rewrite split_lines_line; [|exact N]. cbn [map rev app]. rewrite cstr_id; auto. Qed.
Lemma lines_text_ok : forall s cur, clean cur -> Forall clean (split_lines cur s).
Proof.
  induction s as [|c s IH]; intros cur N; cbn [split_lines].
  - destruct (empty cur); constructor; [|constructor]. intros I. apply N. apply in_rev. exact I.
  - destruct (Ascii.eqb c newline) eqn:E.
    + constructor; [intros I; apply N, in_rev, I|]. apply IH. intros [].
    + apply IH. intros [I|I]; [subst; rewrite Ascii.eqb_refl in E; discriminate|auto].
Qed.
Lemma cstr_sub s c : In c (cstr s) -> In c s /\ c <> nul.
Proof.
  induction s as [|x s IH]; cbn; [tauto|]. destruct (Ascii.eqb x nul) eqn:E; [cbn; tauto|]. apply Ascii.eqb_neq in E. intros [->|I]; auto. destruct (IH I); auto.
Qed.
Lemma lines_ok s : Forall one_line (lines s).
Proof.
  unfold lines. apply Forall_map. eapply Forall_impl; [|apply (lines_text_ok s []); intros []]. intros l N. split.
  - intros I. apply cstr_sub in I. apply N, I.
  - intros I. apply cstr_sub in I. destruct I as [_ I]. congruence.
Qed.
Lemma trim_parts s : exists a b, s = a ++ trim_string s ++ b /\ Forall (fun c => isspace c = true) a /\ Forall (fun c => isspace c = true) b /\ trimmed (trim_string s).
Proof. destruct (trim_spec s) as (a & b & E & F & N1 & N2). apply Forall_app in F. destruct F. exists a, b. unfold trimmed. auto. Qed.
Lemma trim_sub s c : In c (trim_string s) -> In c s.
Proof. destruct (trim_parts s) as (a & b & E & _). intros I. rewrite E. apply in_or_app. right. apply in_or_app. left. exact I. Qed.
Lemma trim_one_line s : one_line s -> one_line (trim_string s).
Proof. intros [A C]. split; intros I; [apply A|apply C]; apply trim_sub, I. Qed.
Lemma trim_trimmed s : trimmed s -> trim_string s = s.
Proof. intros [A C]. apply trim_id; auto. Qed.
Lemma trimmed_head c s : trimmed (c :: s) -> isspace c = false.
Proof. intros [A _]. rewrite white_start_iff in A. destruct (isspace c); congruence. Qed.
Lemma trimmed_last c s : trimmed (s ++ [c]) -> isspace c = false.
Proof. intros [_ A]. destruct (isspace c) eqn:E; [|reflexivity]. destruct A. exists s, c. split; [reflexivity|]. apply white_isspace, E. Qed.
Lemma trimmed_iff c s d t : isspace c = false -> isspace d = false -> c :: s = t ++ [d] -> trimmed (c :: s).
Proof.
  intros H1 H2 E. split.
  - rewrite white_start_iff. congruence.
  - rewrite E. intros (r & x & E' & W). apply app_inj_tail in E'. destruct E' as [_ <-]. apply white_isspace in W. congruence.
Qed.
Lemma trimmed_app a b : a <> [] -> b <> [] -> trimmed a -> trimmed b -> forall m, trimmed (a ++ m ++ b).
Proof.
  intros Na Nb Ta Tb m. destruct a as [|c a]; [congruence|]. destruct b as [|d b _] using rev_ind; [congruence|]. cbn [app].
  apply trimmed_iff with (d := d) (t := c :: a ++ m ++ b); [eapply trimmed_head; eauto|eapply trimmed_last; eauto|]. cbn. rewrite <- !app_assoc. reflexivity.
Qed.

(** ** Entries a file can hold *)
Definition L (x : bytes * bytes) : bytes := if empty (snd x) then fst x ++ B " =" else fst x ++ B " = " ++ snd x.
Lemma line_L x : line_of x = L x ++ [newline].
Proof. unfold line_of, L. destruct (empty (snd x)); rewrite <- !app_assoc; reflexivity. Qed.
Definition section_like (s : bytes) : Prop := exists p, s = "["%char :: p ++ ["]"%char] /\ ~ In "]"%char p.
Lemma parse_section_iff s : parse_section s <> None <-> section_like s.
Proof.
  unfold parse_section, section_like. destruct s as [|c r].
  - split; [congruence|]. intros (p & E & _). discriminate.
  - destruct (Ascii.eqb c "[") eqn:E.
    + apply Ascii.eqb_eq in E. subst c. destruct (cut r "]") as [[n q]|] eqn:C.
      * apply cut_iff in C. destruct C as [-> N]. destruct q as [|d q].
        -- split; [|intros _; discriminate]. intros _. exists n. auto.
        -- split; [congruence|]. intros (p & E & N'). inversion E as [E1]. clear E.
           assert (X : cut (p ++ ["]"%char]) "]" = Some (n, d :: q)) by (rewrite <- E1; apply cut_iff; auto).
           assert (Y : cut (p ++ ["]"%char]) "]" = Some (p, [])) by (apply cut_iff; auto). congruence.
      * split; [congruence|]. intros (p & E & N'). inversion E as [E1]. rewrite E1 in C. apply cut_none in C. destruct C. apply in_or_app. right. left. reflexivity.
    + apply Ascii.eqb_neq in E. split; [congruence|]. intros (p & E' & _). congruence.
Qed.
Lemma parse_section_none s : parse_section s = None <-> ~ section_like s.
Proof. rewrite <- parse_section_iff. destruct (parse_section s) as [x|]; split; intros H; try congruence. exfalso. apply H. discriminate. Qed.
Definition sound (x : bytes * bytes) : Prop :=
  fst x <> [] /\ one_line (fst x) /\ trimmed (fst x) /\ ~ In "="%char (fst x) /\ one_line (snd x) /\ trimmed (snd x) /\ ~ section_like (L x).
Lemma ns c : isspace c = true -> c <> "]"%char /\ c <> "["%char /\ c <> "="%char.
Proof. intros H. repeat split; intros ->; discriminate. Qed.
Lemma not_in_white l c : Forall (fun c => isspace c = true) l -> isspace c = false -> ~ In c l.
Proof. intros F H I. rewrite Forall_forall in F. apply F in I. congruence. Qed.
Lemma eq_not_like n : ~ section_like (n ++ B " =").
Proof.
  intros (p & E & _). change (B " =") with ([" "%char] ++ ["="%char]) in E. rewrite app_assoc in E. change ("["%char :: p ++ ["]"%char]) with (("["%char :: p) ++ ["]"%char]) in E.
  apply app_inj_tail in E. destruct E. discriminate.
Qed.
(** A line that is not a section gives an entry that is printed as such *)
Lemma parsed_sound line n v : one_line line -> trimmed line -> ~ section_like line -> parse_value line = (n, v) -> n <> [] -> sound (n, v).
Proof.
  intros O T NS P NE. unfold parse_value in P. destruct (cut line "=") as [[a b]|] eqn:C.
  - apply cut_iff in C. destruct C as [E Na]. inversion P; subst n v; clear P.
    assert (Oa : one_line a). { destruct O as [O1 O2]. rewrite E in O1, O2. split; intros I; [apply O1|apply O2]; apply in_or_app; auto. }
    assert (Ob : one_line b). { destruct O as [O1 O2]. rewrite E in O1, O2. split; intros I; [apply O1|apply O2]; apply in_or_app; right; right; auto. }
    destruct (trim_parts a) as (a1 & a2 & Ea & Wa1 & Wa2 & Ta). destruct (trim_parts b) as (b1 & b2 & Eb & Wb1 & Wb2 & Tb).
    set (n := trim_string a) in *. set (v := trim_string b) in *.
    unfold sound; cbn [fst snd]. split; [exact NE|]. split; [apply trim_one_line, Oa|]. split; [exact Ta|]. split; [intros I; apply Na, trim_sub, I|].
    split; [apply trim_one_line, Ob|]. split; [exact Tb|]. intros SL. unfold L in SL; cbn [fst snd] in SL. destruct v as [|v0 v'] eqn:Ev.
    + cbn [empty] in SL. exact (eq_not_like n SL).
    + cbn [empty] in SL. destruct SL as (p & Ep & Np). destruct n as [|n0 n']; [congruence|]. cbn [app] in Ep. inversion Ep as [[E0 E1]]. clear Ep. subst n0.
      destruct (exists_last (l := v0 :: v') ltac:(discriminate)) as (vi & vl & Evl). rewrite Evl in *.
      assert (X : n' ++ B " = " ++ vi = p /\ vl = "]"%char). { apply app_inj_tail. rewrite <- E1. rewrite <- !app_assoc. reflexivity. }
      destruct X as [Xp ->]. apply NS.
      assert (a1 = []). { destruct a1 as [|x a1]; [reflexivity|]. rewrite E, Ea in T. cbn in T. apply trimmed_head in T. inversion Wa1; congruence. } subst a1.
      assert (b2 = []). { destruct b2 as [|x b2 _] using rev_ind; [reflexivity|]. rewrite E, Eb in T. rewrite !app_assoc in T. cbn [app] in T.
        assert (T' : trimmed ((a ++ "="%char :: (b1 ++ vi ++ ["]"%char]) ++ b2) ++ [x])). { rewrite <- app_assoc. cbn [app]. rewrite <- !app_assoc in *. cbn [app] in *. exact T. }
        apply trimmed_last in T'. apply Forall_app in Wb2. destruct Wb2 as [_ Wx]. inversion Wx; congruence. } subst b2.
      exists (n' ++ a2 ++ "="%char :: b1 ++ vi). split.
      * rewrite E, Ea, Eb. cbn [app]. rewrite app_nil_r, <- !app_assoc. cbn [app]. rewrite <- !app_assoc. reflexivity.
      * intros I. rewrite !in_app_iff in I. destruct I as [I|[I|[I|I]]].
        -- apply Np. rewrite <- Xp. apply in_or_app. auto.
        -- eapply not_in_white; [exact Wa2| |exact I]. reflexivity.
        -- discriminate.
        -- apply in_app_iff in I. destruct I as [I|I]; [eapply not_in_white; [exact Wb1| |exact I]; reflexivity|].
           apply Np. rewrite <- Xp. apply in_or_app. right. apply in_or_app. right. exact I.
  - inversion P; subst n v; clear P. apply cut_none in C. rewrite (trim_trimmed line T) in *.
    unfold sound; cbn [fst snd]. split; [exact NE|]. split; [exact O|]. split; [exact T|]. split; [exact C|]. split; [split; intros []|].
    split; [split; [rewrite white_start_iff; congruence|intros (r & c & E & _); destruct r; discriminate]|]. apply eq_not_like.
Qed.
Lemma one_line_app a b : one_line a -> one_line b -> one_line (a ++ b).
Proof. unfold one_line, nul_free. intros [A1 A2] [B1 B2]. split; intros I; apply in_app_iff in I; destruct I; tauto. Qed.
Lemma one_line_sp : one_line [" "%char]. Proof. split; intros [H|[]]; vm_compute in H; discriminate. Qed.
Lemma one_line_eq : one_line ["="%char]. Proof. split; intros [H|[]]; vm_compute in H; discriminate. Qed.
Lemma L_ok n v : sound (n, v) -> one_line (L (n, v)) /\ trimmed (L (n, v)) /\ parse_section (L (n, v)) = None /\ parse_value (L (n, v)) = (n, v).
Proof.
  intros (NE & On & Tn & Eq & Ov & Tv & NS). cbn [fst snd] in *.
  assert (Q : L (n, v) = (n ++ " "%char :: []) ++ "="%char :: (if empty v then [] else " "%char :: v)).
  { unfold L; cbn [fst snd]. destruct (empty v); rewrite <- app_assoc; reflexivity. }
  split; [|split; [|split]].
  - rewrite Q. apply one_line_app; [apply one_line_app; [exact On|exact one_line_sp]|]. change ("="%char :: (if empty v then [] else " "%char :: v)) with (["="%char] ++ (if empty v then [] else [" "%char] ++ v)).
    apply one_line_app; [exact one_line_eq|]. destruct (empty v); [split; intros []|]. apply one_line_app; [exact one_line_sp|exact Ov].
  - unfold L; cbn [fst snd]. destruct v as [|v0 v]; cbn [empty].
    + change (B " =") with ([" "%char] ++ ["="%char]). apply trimmed_app; [exact NE|discriminate|exact Tn|].
      apply trimmed_iff with (d := "="%char) (t := []); reflexivity.
    + apply trimmed_app; [exact NE|discriminate|exact Tn|exact Tv].
  - apply parse_section_none, NS.
  - unfold parse_value. rewrite Q.
    assert (C : cut ((n ++ [" "%char]) ++ "="%char :: (if empty v then [] else " "%char :: v)) "=" = Some (n ++ [" "%char], if empty v then [] else " "%char :: v)).
    { apply cut_iff. split; [reflexivity|]. intros I. apply in_app_iff in I. destruct I as [I|[I|[]]]; [tauto|discriminate]. }
    rewrite C. f_equal.
    + rewrite trim_rtrim, rtrim_white; [|reflexivity]. rewrite rtrim_id; [|apply Tn]. apply drop_space_head, Tn.
    + destruct v as [|v0 v]; cbn [empty]; [reflexivity|]. rewrite trim_rtrim, drop_rtrim; [|reflexivity]. rewrite <- trim_rtrim. apply trim_trimmed, Tv.
Qed.
(** Another name or value *)
Lemma tolower_fix d c : In d (B "[]= ") -> tolower c = d -> c = d.
Proof.
  intros I H. unfold tolower in H. destruct (isupper c) eqn:U; [|exact H]. exfalso. unfold isupper in U. apply andb_prop in U. destruct U as [U1 U2].
  apply Nat.leb_le in U1, U2. assert (X : cc d = cc c + 32). { rewrite <- H. unfold cc at 1. rewrite nat_ascii_embedding; [reflexivity|lia]. }
  assert (D : cc d < 97). { clear -I. cbn in I. destruct I as [<-|[<-|[<-|[<-|[]]]]]; vm_compute; lia. }
  lia.
Qed.
Lemma same_in d a b : In d (B "[]= ") -> same_text a b -> In d a -> In d b.
Proof.
  unfold same_text. intros D. revert b. induction a as [|c a IH]; intros [|e b] H I; cbn in *; try discriminate; try tauto. inversion H as [[H1 H2]].
  destruct I as [->|I]; [|right; eauto]. left. apply tolower_fix; [exact D|]. rewrite <- H1. cbn in D. destruct D as [<-|[<-|[<-|[<-|[]]]]]; reflexivity.
Qed.
Lemma sound_upd n m v w : sound (n, v) -> same_text m n -> sound (m, w) -> sound (m, v).
Proof.
  intros (_ & _ & _ & _ & Ov & Tv & NS) S (NE & On & Tn & Eq & _ & _ & _). cbn [fst snd] in *. unfold sound; cbn [fst snd].
  repeat (split; [assumption|]). intros SL. apply NS. unfold L in *; cbn [fst snd] in *. destruct v as [|v0 v'] eqn:Ev; cbn [empty] in *; [destruct (eq_not_like m SL)|].
  destruct SL as (p & Ep & Np). destruct m as [|m0 m']; [congruence|]. destruct n as [|n0 n']; [discriminate S|]. cbn [app] in Ep. inversion Ep as [[E0 E1]]. clear Ep. subst m0.
  destruct (exists_last (l := v0 :: v') ltac:(discriminate)) as (vi & vl & Evl). rewrite Evl in *.
  assert (X : m' ++ B " = " ++ vi = p /\ vl = "]"%char). { apply app_inj_tail. rewrite <- E1. rewrite <- !app_assoc. reflexivity. }
  destruct X as [Xp ->]. inversion S as [[S1 S2]].
  assert (n0 = "["%char) by (apply tolower_fix; [cbn; auto|rewrite <- S1; reflexivity]). subst n0.
  exists (n' ++ B " = " ++ vi). split; [cbn [app]; rewrite <- !app_assoc; reflexivity|].
  intros I. apply in_app_iff in I. destruct I as [I|I]; apply Np; rewrite <- Xp; apply in_app_iff; [left|right; exact I].
  apply (same_in "]" n' m'); [cbn; auto|symmetry; exact S2|exact I].
Qed.
