(** Proofs about patterns. *)
From Verif Require Import Base BaseFacts GlobModel GlobSpec.
From Coq Require Import Lia.
Local Open Scope nat_scope.

Ltac ceq c d := destruct (Ascii.eqb_spec c d).

(** * More fuel gives the same *)
Lemma emit_ok o r v : emit o r = Ok v -> exists w, r = Ok w /\ v = match w with COk l out => COk l (o ++ out) | CErr e => CErr e end.
Proof. unfold emit. destruct r; cbn; intros H; inversion H; eauto. Qed.
Lemma emit_mono o r r' v : (forall w, r = Ok w -> r' = Ok w) -> emit o r = Ok v -> emit o r' = Ok v.
Proof. intros H E. apply emit_ok in E as (w & E & ->). rewrite (H _ E). reflexivity. Qed.
Lemma conv_mono f :
  (forall q st s v, conv f q st s = Ok v -> conv (S f) q st s = Ok v) /\
  (forall q s v, brace f q s = Ok v -> brace (S f) q s = Ok v).
Proof.
  induction f as [|f [IH1 IH2]]; split; try discriminate.
  - intros q st s v H. cbn [conv] in H.
    change (conv (S (S f)) q st s) with
      (match s with
      | [] => Ok (match st with NORMAL => COk [] [] | BACKSLASH => CErr EBackslash | _ => CErr EBracket end)
      | c :: r =>
          match st with
          | NORMAL =>
              if q c then Ok (COk s [])
              else if Ascii.eqb c "\" then conv (S f) q BACKSLASH r
              else if Ascii.eqb c "[" then
                match r with
                | a :: b :: r2 => if Ascii.eqb a "^" && Ascii.eqb b "]" then emit (B "\^") (conv (S f) q NORMAL r2)
                                  else emit (B "(") (conv (S f) q BRACKET_FIRST r)
                | _ => emit (B "(") (conv (S f) q BRACKET_FIRST r)
                end
              else if Ascii.eqb c "*" then emit (B "([^/]*)") (conv (S f) q NORMAL r)
              else if Ascii.eqb c "?" then emit (B "([^/])") (conv (S f) q NORMAL r)
              else if Ascii.eqb c "{" then emit (B "(") (brace (S f) q r)
              else if re_special c then emit ["\"%char; c] (conv (S f) q NORMAL r)
              else emit [c] (conv (S f) q NORMAL r)
          | BACKSLASH => emit (if bs_special c then ["\"%char; c] else [c]) (conv (S f) q NORMAL r)
          | BRACKET_FIRST =>
              if Ascii.eqb c "!" then emit (B "[^") (conv (S f) q BRACKET r)
              else if Ascii.eqb c "^" then emit (B "\^|[") (conv (S f) q BRACKET r)
              else if Ascii.eqb c "/" then Ok (CErr ESlash)
              else emit ["["%char; c] (conv (S f) q BRACKET r)
          | BRACKET =>
              if Ascii.eqb c "]" then emit (B "])") (conv (S f) q NORMAL r)
              else if Ascii.eqb c "/" then Ok (CErr ESlash)
              else emit [c] (conv (S f) q BRACKET r)
          end
      end).
    destruct s as [|c r]; [exact H|].
    repeat first
      [ exact H
      | apply IH1; exact H
      | refine (emit_mono _ _ _ _ _ H); intros w; first [apply IH1|apply IH2]
      | match type of H with context[match ?x with _ => _ end] => destruct x end ].
  - intros q s v H. cbn [brace] in H.
    change (brace (S (S f)) q s) with
      (let! r := conv (S f) brace_quit NORMAL s in
      match r with
      | CErr e => Ok (CErr e)
      | COk l o =>
          match l with
          | c :: l => if Ascii.eqb c "}" then emit (o ++ B ")") (conv (S f) q NORMAL l)
                      else if Ascii.eqb c "," then emit (o ++ B "|") (brace (S f) q l)
                      else Ok (CErr EBrace)
          | [] => Ok (CErr EBrace)
          end
      end).
    destruct (conv f brace_quit NORMAL s) as [w| |] eqn:E; cbn in H; try discriminate.
    rewrite (IH1 _ _ _ _ E). cbn [bind].
    destruct w as [l o|e]; [|exact H]. destruct l as [|c l]; [exact H|].
    destruct (Ascii.eqb c "}"); [refine (emit_mono _ _ _ _ _ H); intros w; apply IH1|].
    destruct (Ascii.eqb c ","); [refine (emit_mono _ _ _ _ _ H); intros w; apply IH2|exact H].
Qed.
Lemma conv_le f f' q st s v : f <= f' -> conv f q st s = Ok v -> conv f' q st s = Ok v.
Proof. induction 1; auto. intros H1. apply conv_mono, IHle, H1. Qed.
Lemma brace_le f f' q s v : f <= f' -> brace f q s = Ok v -> brace f' q s = Ok v.
Proof. induction 1; auto. intros H1. apply conv_mono, IHle, H1. Qed.

(** * Enough fuel *)
Definition good (n : nat) (r : res conv_out) : Prop :=
  exists v, r = Ok v /\ match v with COk l _ => length l <= n | CErr _ => True end.
Lemma good_emit n o r : good n r -> good n (emit o r).
Proof. intros (v & -> & H). unfold emit. cbn. eexists; split; [reflexivity|]. destruct v; exact H. Qed.
Lemma good_le n m r : n <= m -> good n r -> good m r.
Proof. intros L (v & E & H). exists v; split; [exact E|]. destruct v; lia. Qed.
Lemma conv_good f :
  (forall q st s, 2 * length s + 1 <= f -> good (length s) (conv f q st s)) /\
  (forall q s, 2 * length s + 2 <= f -> good (length s) (brace f q s)).
Proof.
  induction f as [|f [IH1 IH2]]; split; intros; try lia.
  - cbn [conv]. destruct s as [|c r].
    + eexists; split; [reflexivity|]. destruct st; cbn; auto.
    + cbn [length] in *.
      assert (G1 : forall st', good (S (length r)) (conv f q st' r)) by (intros; eapply good_le; [|apply IH1; lia]; lia).
      assert (G2 : good (S (length r)) (brace f q r)) by (eapply good_le; [|apply IH2; lia]; lia).
      assert (G3 : good (S (length r)) (Ok (COk (c :: r) []))) by (eexists; split; [reflexivity|cbn; lia]).
      assert (G4 : forall e, good (S (length r)) (Ok (CErr e))) by (intros; eexists; split; [reflexivity|exact I]).
      destruct st.
      * destruct (q c); [exact G3|].
        destruct (Ascii.eqb c "\"); [apply G1|].
        destruct (Ascii.eqb c "[").
        { destruct r as [|a [|b r2]]; try (apply good_emit, G1).
          destruct (_ && _); apply good_emit; [|apply G1].
          eapply good_le; [|apply IH1; cbn in *; lia]. cbn. lia. }
        repeat match goal with |- context[if ?x then _ else _] => destruct x end; apply good_emit; auto.
      * apply good_emit, G1.
      * repeat match goal with |- context[if ?x then _ else _] => destruct x end; try apply good_emit; auto.
      * repeat match goal with |- context[if ?x then _ else _] => destruct x end; try apply good_emit; auto.
  - cbn [brace]. destruct (IH1 brace_quit NORMAL s) as (v & E & L); [lia|]. rewrite E. cbn [bind].
    assert (G4 : forall e, good (length s) (Ok (CErr e))) by (intros; eexists; split; [reflexivity|exact I]).
    destruct v as [[|c l] o|e]; auto. cbn in L.
    destruct (Ascii.eqb c "}"); [apply good_emit; eapply good_le; [|apply IH1]; lia|].
    destruct (Ascii.eqb c ","); [apply good_emit; eapply good_le; [|apply IH2]; lia|]. auto.
Qed.

(** * What is written for a pattern *)
Definition sregex (neg : bool) (f : sitem) (s : list sitem) : bytes :=
  if neg then B "([^" ++ stext f ++ concat (map stext s) ++ B "])"
  else match f, s with
       | SChr c, [] => if Ascii.eqb c "^" then B "\^" else B "([" ++ [c] ++ B "])"
       | SChr c, _ => if Ascii.eqb c "^" then B "(\^|[" ++ concat (map stext s) ++ B "])" else B "([" ++ [c] ++ concat (map stext s) ++ B "])"
       | _, _ => B "([" ++ stext f ++ concat (map stext s) ++ B "])"
       end.
Fixpoint gregex (g : glob) : bytes := match g with GEnd => [] | GThen i g => iregex i ++ gregex g end
with iregex (i : item) : bytes :=
  match i with
  | ILit c => if re_special c then ["\"%char; c] else [c]
  | IEsc c => if bs_special c then ["\"%char; c] else [c]
  | IAny => B "([^/]*)"
  | IOne => B "([^/])"
  | ISet neg f s => sregex neg f s
  | IAlt a => B "(" ++ aregex a
  end
with aregex (a : alts) : bytes := match a with AOne g => gregex g ++ B ")" | AMore g a => gregex g ++ B "|" ++ aregex a end.

Definition quit_of (inb : bool) := if inb then brace_quit else normal_quit.
(** An error, or what is left and what is written *)
Definition fin (l : gerr + bytes) (o : bytes) : conv_out := match l with inl e => CErr e | inr l => COk l o end.
Lemma emit_fin e l o : emit e (Ok (fin l o)) = Ok (fin l (e ++ o)).
Proof. destruct l; reflexivity. Qed.
Definition runs q st s l o : Prop := exists f, conv f q st s = Ok (fin l o).
Lemma runs_emit q st st' s s' l o e : (forall f, conv (S f) q st s = emit e (conv f q st' s')) -> runs q st' s' l o -> runs q st s l (e ++ o).
Proof. intros H (f & E). exists (S f). rewrite H, E. apply emit_fin. Qed.

Lemma bracket_chars q s k l o : (forall c, In c s -> c <> "]"%char /\ c <> "/"%char) ->
  runs q BRACKET k l o -> runs q BRACKET (s ++ k) l (s ++ o).
Proof.
  induction s as [|c s IH]; intros H R; [exact R|].
  cbn. change (c :: s ++ o) with ([c] ++ (s ++ o)).
  eapply runs_emit; [|apply IH; [intros; apply H; right; assumption|exact R]].
  intros f. cbn [conv]. destruct (H c (or_introl eq_refl)).
  ceq c "]"%char; [contradiction|]. ceq c "/"%char; [contradiction|reflexivity].
Qed.
Lemma bracket_end q k l o : runs q NORMAL k l o -> runs q BRACKET (B "]" ++ k) l (B "])" ++ o).
Proof. intros R. eapply runs_emit; [|exact R]. reflexivity. Qed.
Lemma plain_cases c : plain_in_set c -> c <> "]"%char /\ c <> "/"%char /\ c <> "-"%char /\ c <> "["%char.
Proof. intros [H _]. repeat split; intros ->; apply H; cbn; tauto. Qed.
Lemma stext_chars i c : wf_sitem i -> In c (stext i) -> c <> "]"%char /\ c <> "/"%char.
Proof.
  destruct i as [d|a b]; cbn.
  - intros H [<-|[]]. apply plain_cases in H. tauto.
  - intros (H1 & H2 & _). apply plain_cases in H1, H2. intros [<-|[<-|[<-|[]]]]; try tauto. split; discriminate.
Qed.
Lemma stexts_chars s c : Forall wf_sitem s -> In c (concat (map stext s)) -> c <> "]"%char /\ c <> "/"%char.
Proof.
  intros H I. apply in_concat in I as (x & Ix & I). apply in_map_iff in Ix as (i & <- & Ii).
  rewrite Forall_forall in H. eapply stext_chars; eauto.
Qed.
Lemma quit_bracket inb : quit_of inb "[" = false. Proof. now destruct inb. Qed.
(** The bracket that opens a set, when the text is not the degenerate one *)
Lemma open_bracket inb a r l o : ~ (a = "^"%char /\ exists r', r = "]"%char :: r') ->
  runs (quit_of inb) BRACKET_FIRST (a :: r) l o -> runs (quit_of inb) NORMAL ("["%char :: a :: r) l (B "(" ++ o).
Proof.
  intros H R. eapply runs_emit; [|exact R]. intros f. cbn [conv]. rewrite quit_bracket. cbn [Ascii.eqb Bool.eqb].
  destruct r as [|b r2]; [reflexivity|].
  ceq a "^"%char; [|reflexivity]. ceq b "]"%char; [|reflexivity]. exfalso. apply H. subst; eauto.
Qed.
Lemma first_char q c r l o : c <> "!"%char -> c <> "^"%char -> c <> "/"%char ->
  runs q BRACKET r l o -> runs q BRACKET_FIRST (c :: r) l (B "[" ++ [c] ++ o).
Proof.
  intros H1 H2 H3 R. change (B "[" ++ [c] ++ o) with (["["%char; c] ++ o). eapply runs_emit; [|exact R].
  intros f. cbn [conv]. ceq c "!"%char; [contradiction|]. ceq c "^"%char; [contradiction|]. ceq c "/"%char; [contradiction|reflexivity].
Qed.
Lemma first_hat q r l o : runs q BRACKET r l o -> runs q BRACKET_FIRST ("^"%char :: r) l (B "\^|[" ++ o).
Proof. intros R. eapply runs_emit; [|exact R]. reflexivity. Qed.
Lemma first_bang q r l o : runs q BRACKET r l o -> runs q BRACKET_FIRST ("!"%char :: r) l (B "[^" ++ o).
Proof. intros R. eapply runs_emit; [|exact R]. reflexivity. Qed.

Lemma conv_set inb neg f s k l o : wf_first neg f s -> Forall wf_sitem s -> runs (quit_of inb) NORMAL k l o ->
  runs (quit_of inb) NORMAL (itext (ISet neg f s) ++ k) l (sregex neg f s ++ o).
Proof.
  intros Hf Hs R. cbn [itext].
  assert (Rend : runs (quit_of inb) BRACKET (concat (map stext s) ++ B "]" ++ k) l (concat (map stext s) ++ B "])" ++ o)).
  { apply bracket_chars; [intros; eapply stexts_chars; eauto|]. apply bracket_end, R. }
  destruct neg; cbn [wf_first] in Hf.
  - assert (Rf : runs (quit_of inb) BRACKET (stext f ++ concat (map stext s) ++ B "]" ++ k) l (stext f ++ concat (map stext s) ++ B "])" ++ o))
      by (apply bracket_chars; [intros; eapply stext_chars; eauto|exact Rend]).
    cbn [sregex]. replace ((B "[" ++ B "!" ++ stext f ++ concat (map stext s) ++ B "]") ++ k) with ("["%char :: "!"%char :: stext f ++ concat (map stext s) ++ B "]" ++ k)
      by (cbn; rewrite <- !app_assoc; reflexivity).
    replace ((B "([^" ++ stext f ++ concat (map stext s) ++ B "])") ++ o) with (B "(" ++ B "[^" ++ stext f ++ concat (map stext s) ++ B "])" ++ o)
      by (cbn; rewrite <- !app_assoc; reflexivity).
    apply open_bracket; [intros [E _]; discriminate|]. apply first_bang, Rf.
  - destruct Hf as (Hw & Hb & Hh).
    assert (K : forall c r, stext f = c :: r -> c <> "^"%char -> (forall x, In x r -> x <> "]"%char /\ x <> "/"%char) ->
              runs (quit_of inb) NORMAL ((B "[" ++ [] ++ stext f ++ concat (map stext s) ++ B "]") ++ k) l ((B "([" ++ stext f ++ concat (map stext s) ++ B "])") ++ o)).
    { intros c r E Hc Hr. rewrite E.
      replace ((B "[" ++ [] ++ (c :: r) ++ concat (map stext s) ++ B "]") ++ k) with ("["%char :: c :: r ++ concat (map stext s) ++ B "]" ++ k)
        by (cbn; rewrite <- !app_assoc; reflexivity).
      replace ((B "([" ++ (c :: r) ++ concat (map stext s) ++ B "])") ++ o) with (B "(" ++ B "[" ++ [c] ++ r ++ concat (map stext s) ++ B "])" ++ o)
        by (cbn; rewrite <- !app_assoc; reflexivity).
      apply open_bracket; [tauto|]. apply first_char; auto.
      - intros ->. apply Hb. exists r. exact E.
      - destruct Hw as [Hw| ->]; [apply (stext_chars f); auto; rewrite E; left; reflexivity|]. injection E as <- <-. discriminate.
      - apply bracket_chars; auto. }
    destruct f as [c|a b].
    + ceq c "^"%char.
      * subst c. cbn [stext].
        destruct s as [|i s].
        { destruct R as (fu & R). exists (S fu). cbn [itext map concat app]. cbn [conv list_ascii_of_string B]. 
          unfold B in *; cbn [list_ascii_of_string app conv]. rewrite quit_bracket. cbn [Ascii.eqb Bool.eqb andb]. unfold B; cbn. rewrite R. apply emit_fin. }
        replace (sregex false (SChr "^") (i :: s)) with (B "(\^|[" ++ concat (map stext (i :: s)) ++ B "])") by reflexivity.
        replace ((B "[" ++ [] ++ ["^"%char] ++ concat (map stext (i :: s)) ++ B "]") ++ k) with ("["%char :: "^"%char :: concat (map stext (i :: s)) ++ B "]" ++ k)
          by (cbn; rewrite <- !app_assoc; reflexivity).
        replace ((B "(\^|[" ++ concat (map stext (i :: s)) ++ B "])") ++ o) with (B "(" ++ B "\^|[" ++ concat (map stext (i :: s)) ++ B "])" ++ o)
          by (cbn; rewrite <- !app_assoc; reflexivity).
        apply open_bracket; [|apply first_hat, Rend].
        intros [_ (r' & E)]. inversion Hs as [|? ? Hi _]; subst.
        destruct i as [d|a b]; cbn in E; injection E as E _; subst; cbn in Hi; [|destruct Hi as [Hi _]]; apply plain_cases in Hi; tauto.
      * replace (sregex false (SChr c) s) with (B "([" ++ stext (SChr c) ++ concat (map stext s) ++ B "])").
        -- apply (K c []); auto; try reflexivity.
        -- cbn [sregex stext]. destruct s; ceq c "^"%char; try contradiction; reflexivity.
    + replace (sregex false (SRange a b) s) with (B "([" ++ stext (SRange a b) ++ concat (map stext s) ++ B "])") by reflexivity.
      apply (K a ["-"%char; b]); auto; try reflexivity.
      * intros ->. destruct Hh as [E _]; [exists ["-"%char; b]; reflexivity|discriminate].
      * destruct Hw as [Hw|E]; [|discriminate]. intros x Hx. apply (stext_chars _ x Hw). right. exact Hx.
Qed.

Scheme glob_ind2 := Induction for glob Sort Prop
with item_ind2 := Induction for item Sort Prop
with alts_ind2 := Induction for alts Sort Prop.
Combined Scheme glob_mut from glob_ind2, item_ind2, alts_ind2.

Definition braces (inb : bool) (s : bytes) l (o : bytes) : Prop := exists f, brace f (quit_of inb) s = Ok (fin l o).
Lemma conv_glob :
  (forall g inb k l o, wf inb g -> runs (quit_of inb) NORMAL k l o -> runs (quit_of inb) NORMAL (gtext g ++ k) l (gregex g ++ o)) /\
  (forall i inb k l o, iwf inb i -> runs (quit_of inb) NORMAL k l o -> runs (quit_of inb) NORMAL (itext i ++ k) l (iregex i ++ o)) /\
  (forall a inb k l o, awf a -> runs (quit_of inb) NORMAL k l o -> braces inb (atext a ++ k) l (aregex a ++ o)).
Proof.
  apply glob_mut.
  - intros; assumption.
  - intros i IHi g IHg inb k l o [Hi Hg] R. cbn [gtext gregex]. rewrite <- !app_assoc. auto.
  - intros c inb k l o (H1 & H2 & H3) R. cbn [itext iregex].
    assert (Q : quit_of inb c = false).
    { destruct inb; [|reflexivity]. cbn. unfold brace_quit. ceq c ","%char; [subst; exfalso; apply (H3 eq_refl); cbn; tauto|].
      ceq c "}"%char; [subst; exfalso; apply (H3 eq_refl); cbn; tauto|reflexivity]. }
    assert (N : c <> "\"%char /\ c <> "["%char /\ c <> "*"%char /\ c <> "?"%char /\ c <> "{"%char)
      by (repeat split; intros ->; apply H1; cbn; tauto).
    destruct N as (N1 & N2 & N3 & N4 & N5).
    eapply runs_emit; [|exact R]. intros f. cbn [conv app]. rewrite Q.
    ceq c "\"%char; [contradiction|]. ceq c "["%char; [contradiction|]. ceq c "*"%char; [contradiction|].
    ceq c "?"%char; [contradiction|]. ceq c "{"%char; [contradiction|]. destruct (re_special c); reflexivity.
  - intros c inb k l o H R. cbn [itext iregex].
    assert (R2 : runs (quit_of inb) BACKSLASH (c :: k) l ((if bs_special c then ["\"%char; c] else [c]) ++ o)).
    { eapply runs_emit; [|exact R]. reflexivity. }
    destruct R2 as (f & E). exists (S f). cbn [app conv].
    replace (quit_of inb "\") with false by (destruct inb; reflexivity). exact E.
  - intros inb k l o _ R. eapply runs_emit; [|exact R]. intros f. destruct inb; reflexivity.
  - intros inb k l o _ R. eapply runs_emit; [|exact R]. intros f. destruct inb; reflexivity.
  - intros neg f s inb k l o [H1 H2] R. apply conv_set; auto.
  - intros a IH inb k l o H R. cbn [itext iregex]. destruct (IH inb k l o H R) as (f & E).
    exists (S f). rewrite <- !app_assoc. unfold B at 1. cbn [list_ascii_of_string app conv].
    replace (quit_of inb "{") with false by (destruct inb; reflexivity). cbn [Ascii.eqb Bool.eqb]. rewrite E. apply emit_fin.
  - intros g IH inb k l o H R. cbn [atext aregex].
    destruct (IH true (B "}" ++ k) (inr (B "}" ++ k)) [] H) as (f & E); [exists 1; reflexivity|]. change (quit_of true) with brace_quit in E. cbn [fin] in E.
    destruct R as (f2 & R). exists (S (max f f2)). rewrite <- !app_assoc. cbn [brace].
    rewrite (conv_le f (max f f2) _ _ _ _ (Nat.le_max_l _ _) E). cbn [bind app].
    unfold B at 1. cbn [list_ascii_of_string app Ascii.eqb Bool.eqb].
    rewrite (conv_le f2 (max f f2) _ _ _ _ (Nat.le_max_r _ _) R). rewrite emit_fin, app_nil_r, <- app_assoc. reflexivity.
  - intros g IH a IHa inb k l o [H Ha] R. cbn [atext aregex].
    destruct (IH true (B "," ++ atext a ++ k) (inr (B "," ++ atext a ++ k)) [] H) as (f & E); [exists 1; reflexivity|]. change (quit_of true) with brace_quit in E. cbn [fin] in E.
    destruct (IHa inb k l o Ha R) as (f2 & R2). exists (S (max f f2)). rewrite <- !app_assoc. cbn [brace].
    rewrite (conv_le f (max f f2) _ _ _ _ (Nat.le_max_l _ _) E). cbn [bind app].
    unfold B at 1. cbn [list_ascii_of_string app Ascii.eqb Bool.eqb].
    rewrite (brace_le f2 (max f f2) _ _ _ (Nat.le_max_r _ _) R2). rewrite emit_fin, app_nil_r, <- app_assoc. reflexivity.
Qed.
Lemma runs_whole s l o : runs normal_quit NORMAL s l o ->
  glob_to_regex (Some s) = Ok (match l with inl e => inl e | inr _ => inr (B "^" ++ o ++ B "$") end).
Proof.
  intros (f & E). cbn [glob_to_regex].
  destruct (proj1 (conv_good (2 * length s + 1)) normal_quit NORMAL s (le_n _)) as (v & E2 & _).
  assert (v = fin l o).
  { pose proof (conv_le _ (max f (2 * length s + 1)) _ _ _ _ (Nat.le_max_l _ _) E) as A.
    pose proof (conv_le _ (max f (2 * length s + 1)) _ _ _ _ (Nat.le_max_r _ _) E2) as A2. congruence. }
  subst v. rewrite E2. destruct l; reflexivity.
Qed.
Lemma glob_regex g : wf false g -> glob_to_regex (Some (gtext g)) = Ok (inr (B "^" ++ gregex g ++ B "$")).
Proof.
  intros W. apply (runs_whole _ (inr []) _). rewrite <- (app_nil_r (gtext g)), <- (app_nil_r (gregex g)).
  apply (proj1 conv_glob g false); [exact W|]. exists 1. reflexivity.
Qed.
(** Errors *)
Lemma glob_fails g k e o : wf false g -> runs normal_quit NORMAL k (inl e) o -> glob_to_regex (Some (gtext g ++ k)) = Ok (inl e).
Proof. intros W R. apply (runs_whole _ (inl e) (gregex g ++ o)). apply (proj1 conv_glob g false); auto. Qed.
Lemma fail_backslash : runs normal_quit NORMAL (B "\") (inl EBackslash) [].
Proof. exists 2. reflexivity. Qed.
Lemma fail_brace g : wf true g -> runs normal_quit NORMAL (B "{" ++ gtext g) (inl EBrace) [].
Proof.
  intros W. destruct (proj1 conv_glob g true [] (inr []) [] W) as (f & E); [exists 1; reflexivity|].
  change (quit_of true) with brace_quit in E. cbn [fin] in E. rewrite !app_nil_r in E.
  exists (S (S f)). unfold B. cbn [list_ascii_of_string app conv]. cbn [normal_quit Ascii.eqb Bool.eqb brace]. rewrite E. reflexivity.
Qed.
(** In brackets, the first character and the rest *)
Lemma fail_bracket c s k e : c <> "/"%char -> ~ In "/"%char s -> ~ In "]"%char s ->
  (forall q, runs q BRACKET k (inl e) []) -> ~ (c = "^"%char /\ s = [] /\ exists k', k = "]"%char :: k') ->
  runs normal_quit NORMAL ("["%char :: c :: s ++ k) (inl e) [].
Proof.
  intros H1 H2 H3 R H4.
  assert (R2 : runs (quit_of false) BRACKET (s ++ k) (inl e) (s ++ [])).
  { apply bracket_chars; [|apply R]. intros x I. split; intros ->; contradiction. }
  assert (R3 : exists o, runs (quit_of false) BRACKET_FIRST (c :: s ++ k) (inl e) o).
  { ceq c "^"%char; [subst; eexists; apply first_hat, R2|]. ceq c "!"%char; [subst; eexists; apply first_bang, R2|].
    eexists. apply first_char; eauto. }
  destruct R3 as (o & R3). destruct (open_bracket false c (s ++ k) (inl e) o) as (f & E); [|exact R3|exists f; exact E].
  intros (-> & r' & E). apply H4. split; [reflexivity|]. destruct s as [|x s]; [split; eauto|].
  cbn in E. injection E as -> _. exfalso. apply H3. left. reflexivity.
Qed.

(** * Parsing what is written *)
Definition alts_to s e r := exists n, forall f, n <= f -> p_alt f s = Some (e, r).
Definition cat_to s e r := exists n, forall f, n <= f -> p_cat f s = Some (e, r).
Definition atom_to s e r := exists n, forall f, n <= f -> p_atom f s = Some (e, r).
Ltac fuel n := exists (S n); intros [|fu] Hfu; [lia|].

Lemma set_head s k c r : Forall wf_sitem s -> concat (map stext s) ++ B "]" ++ k = c :: r -> c <> "-"%char.
Proof.
  destruct s as [|i s]; intros H E.
  - cbn in E. injection E as <- _. discriminate.
  - inversion H as [|? ? Hi _]; subst. destruct i as [d|a b]; cbn in E; injection E as -> _; cbn in Hi; [|destruct Hi as [Hi _]]; apply plain_cases in Hi; tauto.
Qed.
Lemma p_set_chr f first c r l r3 : (first = true \/ c <> "]"%char) -> c <> "["%char -> (forall m x, r = m :: x -> m <> "-"%char) ->
  p_set f false r = Some (l, r3) -> p_set (S f) first (c :: r) = Some (SChr c :: l, r3).
Proof.
  intros H1 H2 H3 E. cbn [p_set].
  replace (negb first && Ascii.eqb c "]") with false by (destruct H1 as [->|N]; [reflexivity|]; ceq c "]"%char; [contradiction|destruct first; reflexivity]).
  ceq c "["%char; [contradiction|]. cbn [andb].
  destruct r as [|m [|d r2]]; rewrite ?E; try reflexivity.
  ceq m "-"%char; [exfalso; eapply H3; eauto|]. cbn [andb]. reflexivity.
Qed.
Lemma p_set_range f first a b r l r3 : (first = true \/ a <> "]"%char) -> a <> "["%char -> b <> "]"%char -> Ascii.nat_of_ascii a <= Ascii.nat_of_ascii b ->
  p_set f false r = Some (l, r3) -> p_set (S f) first (a :: "-"%char :: b :: r) = Some (SRange a b :: l, r3).
Proof.
  intros H1 H2 H3 H4 E. cbn [p_set].
  replace (negb first && Ascii.eqb a "]") with false by (destruct H1 as [->|N]; [reflexivity|]; ceq a "]"%char; [contradiction|destruct first; reflexivity]).
  ceq a "["%char; [contradiction|]. cbn [andb]. ceq b "]"%char; [contradiction|].
  apply Nat.leb_le in H4. rewrite H4, E. reflexivity.
Qed.
Lemma p_set_item f first i r l r3 : wf_sitem i -> (forall m x, r = m :: x -> m <> "-"%char) ->
  p_set f false r = Some (l, r3) -> p_set (S f) first (stext i ++ r) = Some (i :: l, r3).
Proof.
  destruct i as [c|a b]; cbn [wf_sitem stext app].
  - intros H. apply plain_cases in H. intros; apply p_set_chr; tauto.
  - intros (H1 & H2 & H3). apply plain_cases in H1, H2. intros; apply p_set_range; tauto.
Qed.
Lemma p_set_items s k f : Forall wf_sitem s -> length (concat (map stext s) ++ B "]" ++ k) < f ->
  p_set f false (concat (map stext s) ++ B "]" ++ k) = Some (s, k).
Proof.
  revert f. induction s as [|i s IH]; intros f H L.
  - destruct f; [lia|]. reflexivity.
  - inversion H as [|? ? Hi Hs]; subst. destruct f; [lia|]. cbn [map concat] in *. rewrite <- app_assoc in *.
    apply p_set_item; auto; [intros m x E; eapply set_head; eauto|]. apply IH; auto.
    rewrite app_length in L. destruct i; cbn [stext length] in L; lia.
Qed.
Lemma p_set_first f s k : (wf_sitem f \/ f = SChr "]") -> Forall wf_sitem s ->
  p_set (S (length (stext f ++ concat (map stext s) ++ B "]" ++ k))) true (stext f ++ concat (map stext s) ++ B "]" ++ k) = Some (f :: s, k).
Proof.
  intros Hf Hs.
  assert (L : length (concat (map stext s) ++ B "]" ++ k) < length (stext f ++ concat (map stext s) ++ B "]" ++ k))
    by (rewrite (app_length (stext f)); destruct f; cbn [stext length]; lia).
  destruct Hf as [Hf| ->].
  - apply p_set_item; auto; [intros m x E; eapply set_head; eauto|]. apply p_set_items; auto.
  - apply p_set_chr; auto; [discriminate|intros m x E; eapply set_head; eauto|]. apply p_set_items; auto.
Qed.
Lemma atom_neg f s k : wf_sitem f -> Forall wf_sitem s -> atom_to (B "[^" ++ stext f ++ concat (map stext s) ++ B "]" ++ k) (RSet true (f :: s)) k.
Proof.
  intros Hf Hs. fuel 0. unfold B at 1. cbn [list_ascii_of_string app p_atom]. cbn [Ascii.eqb Bool.eqb].
  rewrite (p_set_first f s k); auto.
Qed.
Lemma atom_set f s k : (wf_sitem f \/ f = SChr "]") -> ~ starts "^" f -> Forall wf_sitem s ->
  atom_to (B "[" ++ stext f ++ concat (map stext s) ++ B "]" ++ k) (RSet false (f :: s)) k.
Proof.
  intros Hf Hh Hs. fuel 0. unfold B at 1. cbn [list_ascii_of_string app p_atom]. cbn [Ascii.eqb Bool.eqb].
  pose proof (p_set_first f s k Hf Hs) as P.
  destruct (stext f) as [|c t] eqn:E; [destruct f; discriminate|]. cbn [app] in *.
  ceq c "^"%char; [subst; exfalso; apply Hh; exists t; exact E|]. rewrite P. reflexivity.
Qed.

Definition calm (k : bytes) : Prop := exists c r, k = c :: r /\ isin (B "*+?{") c = false.
Definition not_end (s : bytes) : Prop := exists c r, s = c :: r /\ isin (B "|)") c = false.
Lemma cat_atom s e r e' r' : not_end s -> atom_to s e r -> calm r -> cat_to r e' r' -> cat_to s (RCat e e') r'.
Proof.
  intros (c & x & -> & N) (n & A) (q & r2 & -> & C) (m & K). fuel (max n m).
  cbn [p_cat]. rewrite N, A by lia. unfold isin in *. cbn [existsb B list_ascii_of_string] in C.
  destruct (Ascii.eqb q "*") eqn:E1; [discriminate|]. cbn [orb] in C.
  replace (existsb (Ascii.eqb q) (B "+?{")) with false by (symmetry; exact C). rewrite K by lia. reflexivity.
Qed.
Lemma alt_one s e r : cat_to s e (")"%char :: r) -> alts_to s e (")"%char :: r).
Proof. intros (n & K). fuel n. cbn [p_alt]. rewrite K by lia. reflexivity. Qed.
Lemma alt_more s e r e' r' : cat_to s e ("|"%char :: r) -> alts_to r e' r' -> alts_to s (RAlt e e') r'.
Proof. intros (n & K) (m & A). fuel (max n m). cbn [p_alt]. rewrite K by lia. cbn [Ascii.eqb Bool.eqb]. rewrite A by lia. reflexivity. Qed.
Lemma atom_group s e r : alts_to s e (")"%char :: r) -> atom_to (B "(" ++ s) e r.
Proof. intros (n & A). fuel n. unfold B. cbn [list_ascii_of_string app p_atom]. cbn [Ascii.eqb Bool.eqb]. rewrite A by lia. reflexivity. Qed.
Lemma cat_end c r : isin (B "|)") c = true -> cat_to (c :: r) REps (c :: r).
Proof. intros H. fuel 0. cbn [p_cat]. rewrite H. reflexivity. Qed.
Lemma cat_last s e c r : not_end s -> isin (B "|)") c = true -> atom_to s e (c :: r) -> cat_to s (RCat e REps) (c :: r).
Proof.
  intros N C A. eapply cat_atom; [exact N|exact A| |apply cat_end; exact C].
  exists c, r. split; [reflexivity|]. cbn in C |- *. ceq c "|"%char; [subst; reflexivity|]. ceq c ")"%char; [subst; reflexivity|discriminate].
Qed.
Lemma atom_esc c k : isin (B "^.[$()|*+?{\") c = true -> atom_to ("\"%char :: c :: k) (RChr c) k.
Proof. intros H. fuel 0. cbn [p_atom]. cbn [Ascii.eqb Bool.eqb]. rewrite H. reflexivity. Qed.
Lemma atom_chr c k : isin (B "^.[$()|*+?{\") c = false -> atom_to (c :: k) (RChr c) k.
Proof.
  intros H. fuel 0. cbn [p_atom]. unfold isin in *. cbn in H.
  repeat (apply Bool.orb_false_iff in H as [? H]).
  cbn [B list_ascii_of_string existsb]. repeat match goal with E : Ascii.eqb c _ = false |- _ => rewrite E; clear E end. reflexivity.
Qed.

(** The expression for a pattern *)
Definition sre (neg : bool) (f : sitem) (s : list sitem) : re :=
  if neg then RCat (RSet true (f :: s)) REps
  else match f, s with
       | SChr c, [] => if Ascii.eqb c "^" then RChr c else RCat (RSet false [f]) REps
       | SChr c, _ => if Ascii.eqb c "^" then RAlt (RCat (RChr c) REps) (RCat (RSet false s) REps) else RCat (RSet false (f :: s)) REps
       | _, _ => RCat (RSet false (f :: s)) REps
       end.
Fixpoint gre (g : glob) (t : re) : re := match g with GEnd => t | GThen i g => RCat (ire i) (gre g t) end
with ire (i : item) : re :=
  match i with
  | ILit c | IEsc c => RChr c
  | IAny => RCat (RStar (RSet true [SChr "/"])) REps
  | IOne => RCat (RSet true [SChr "/"]) REps
  | ISet neg f s => sre neg f s
  | IAlt a => are a
  end
with are (a : alts) : re := match a with AOne g => gre g REps | AMore g a => RAlt (gre g REps) (are a) end.

Lemma wf_head i s : wf_sitem i -> ~ starts "^" i -> Forall wf_sitem s -> forall k, atom_to (B "[" ++ concat (map stext (i :: s)) ++ B "]" ++ k) (RSet false (i :: s)) k.
Proof. intros. cbn [map concat]. rewrite <- app_assoc. apply atom_set; auto. Qed.
Lemma not_end_app c s r : isin (B "|)") c = false -> not_end ((c :: s) ++ r).
Proof. intros. exists c, (s ++ r). split; auto. Qed.
Lemma parse_set neg f s k : wf_first neg f s -> Forall wf_sitem s -> atom_to (sregex neg f s ++ k) (sre neg f s) k.
Proof.
  intros Hf Hs.
  assert (G : forall e t, atom_to (B "[" ++ t ++ B "]" ++ B ")" ++ k) e (B ")" ++ k) -> atom_to (B "(" ++ B "[" ++ t ++ B "]" ++ B ")" ++ k) (RCat e REps) k).
  { intros e t A. apply atom_group, alt_one. apply cat_last; [exists "["%char; eexists; split; reflexivity|reflexivity|exact A]. }
  destruct neg; cbn [wf_first] in Hf.
  - cbn [sregex sre]. replace ((B "([^" ++ stext f ++ concat (map stext s) ++ B "])") ++ k) with (B "(" ++ B "[" ++ (B "^" ++ stext f ++ concat (map stext s)) ++ B "]" ++ B ")" ++ k)
      by (cbn; rewrite <- !app_assoc; reflexivity).
    apply G. replace (B "[" ++ (B "^" ++ stext f ++ concat (map stext s)) ++ B "]" ++ B ")" ++ k) with (B "[^" ++ stext f ++ concat (map stext s) ++ B "]" ++ B ")" ++ k)
      by (cbn; rewrite <- !app_assoc; reflexivity). apply atom_neg; auto.
  - destruct Hf as (Hw & Hb & Hh).
    assert (K : ~ starts "^" f -> atom_to ((B "([" ++ stext f ++ concat (map stext s) ++ B "])") ++ k) (RCat (RSet false (f :: s)) REps) k).
    { intros N. replace ((B "([" ++ stext f ++ concat (map stext s) ++ B "])") ++ k) with (B "(" ++ B "[" ++ (stext f ++ concat (map stext s)) ++ B "]" ++ B ")" ++ k)
        by (cbn; rewrite <- !app_assoc; reflexivity).
      apply G. rewrite <- app_assoc. apply atom_set; auto. }
    destruct f as [c|a b].
    + ceq c "^"%char.
      * subst c. destruct s as [|i s].
        { apply (atom_esc "^"%char k). reflexivity. }
        inversion Hs as [|? ? Hi Hs']; subst.
        assert (Ni : ~ starts "^" i) by (eapply Hh; [exists []; reflexivity|reflexivity]).
        change (sre false (SChr "^") (i :: s)) with (RAlt (RCat (RChr "^") REps) (RCat (RSet false (i :: s)) REps)).
        replace (sregex false (SChr "^") (i :: s) ++ k) with (B "(" ++ ("\"%char :: "^"%char :: "|"%char :: B "[" ++ concat (map stext (i :: s)) ++ B "]" ++ B ")" ++ k))
          by (cbn; rewrite <- !app_assoc; reflexivity).
        apply atom_group. eapply alt_more.
        -- apply cat_last; [exists "\"%char; eexists; split; reflexivity|reflexivity|]. apply atom_esc. reflexivity.
        -- apply alt_one, cat_last; [exists "["%char; eexists; split; reflexivity|reflexivity|]. apply wf_head; auto.
      * assert (N : ~ starts "^" (SChr c)) by (intros (r & E); injection E as E; contradiction).
        specialize (K N). cbn [sregex sre stext] in *. destruct s; ceq c "^"%char; try contradiction; exact K.
    + apply K. intros N. destruct (Hh N) as [E _]. discriminate.
Qed.
Lemma special_bs c : bs_special c = isin (B "^.[$()|*+?{\") c.
Proof. destruct c as [[] [] [] [] [] [] [] []]; reflexivity. Qed.
Lemma special_re c : ~ In c (B "\[*?{") -> re_special c = isin (B "^.[$()|*+?{\") c.
Proof.
  intros H. rewrite <- special_bs. unfold re_special, bs_special, one_of. cbn in H |- *.
  ceq c "["%char; [subst; tauto|]. ceq c "{"%char; [subst; tauto|]. ceq c "*"%char; [subst; tauto|].
  ceq c "?"%char; [subst; tauto|]. ceq c "\"%char; [subst; tauto|]. reflexivity.
Qed.
(** How the text for an item begins *)
Definition fine (s : bytes) : Prop := exists c r, s = c :: r /\ isin (B "*+?{|)") c = false.
Lemma chr_fine c k : isin (B "^.[$()|*+?{\") c = false -> fine (c :: k).
Proof.
  intros H. exists c, k. split; [reflexivity|]. cbn in H |- *.
  repeat (apply Bool.orb_false_iff in H as [? H]).
  repeat match goal with E : Ascii.eqb c _ = false |- _ => rewrite E; clear E end. reflexivity.
Qed.
Lemma fine_cons c s : isin (B "*+?{|)") c = false -> fine (c :: s).
Proof. intros. exists c, s. auto. Qed.
Lemma item_fine inb i k : iwf inb i -> fine (iregex i ++ k).
Proof.
  destruct i as [c|c| | |neg f s|a]; cbn [iwf iregex].
  - intros (H & _). rewrite (special_re c H). destruct (isin _ c) eqn:E; [apply fine_cons; reflexivity|apply chr_fine, E].
  - intros _. rewrite special_bs. destruct (isin _ c) eqn:E; [apply fine_cons; reflexivity|apply chr_fine, E].
  - intros _. apply fine_cons. reflexivity.
  - intros _. apply fine_cons. reflexivity.
  - intros _. destruct neg; [apply fine_cons; reflexivity|]. cbn [sregex]. destruct f as [c|]; [|apply fine_cons; reflexivity].
    destruct s; destruct (Ascii.eqb c "^"); apply fine_cons; reflexivity.
  - intros _. apply fine_cons. reflexivity.
Qed.
Lemma fine_calm s : fine s -> calm s.
Proof. intros (c & r & -> & H). exists c, r. split; [reflexivity|]. unfold isin in *. cbn in H |- *.
  repeat (apply Bool.orb_false_iff in H as [? H]). repeat match goal with E : Ascii.eqb c _ = false |- _ => rewrite E; clear E end. reflexivity. Qed.
Lemma fine_not_end s : fine s -> not_end s.
Proof. intros (c & r & -> & H). exists c, r. split; [reflexivity|]. unfold isin in *. cbn in H |- *.
  repeat (apply Bool.orb_false_iff in H as [? H]). repeat match goal with E : Ascii.eqb c _ = false |- _ => rewrite E; clear E end. reflexivity. Qed.
Lemma glob_calm inb g k : wf inb g -> calm k -> calm (gregex g ++ k).
Proof. destruct g as [|i g]; cbn [wf gregex]; [auto|]. intros [Hi _] _. rewrite <- app_assoc. eapply fine_calm, item_fine; eauto. Qed.

Lemma parse_glob :
  (forall g inb k t r, wf inb g -> calm k -> cat_to k t r -> cat_to (gregex g ++ k) (gre g t) r) /\
  (forall i inb k, iwf inb i -> atom_to (iregex i ++ k) (ire i) k) /\
  (forall a k, awf a -> alts_to (aregex a ++ k) (are a) (B ")" ++ k)).
Proof.
  apply glob_mut.
  - intros; assumption.
  - intros i IHi g IHg inb k t r [Hi Hg] C K. cbn [gregex gre]. rewrite <- app_assoc. eapply cat_atom.
    + eapply fine_not_end, item_fine; eauto.
    + eapply IHi; eauto.
    + eapply glob_calm; eauto.
    + eapply IHg; eauto.
  - intros c inb k (H & _). cbn [iregex ire]. rewrite (special_re c H). destruct (isin _ c) eqn:E; [apply atom_esc, E|apply atom_chr, E].
  - intros c inb k _. cbn [iregex ire]. rewrite special_bs. destruct (isin _ c) eqn:E; [apply atom_esc, E|apply atom_chr, E].
  - intros inb k _. exists 12. intros f Hf. do 12 (destruct f; [lia|]). reflexivity.
  - intros inb k _. exists 12. intros f Hf. do 12 (destruct f; [lia|]). reflexivity.
  - intros neg f s inb k [H1 H2]. apply parse_set; auto.
  - intros a IH inb k H. cbn [iregex ire]. rewrite <- app_assoc. apply atom_group. apply (IH k H).
  - intros g IH k H. cbn [aregex are]. rewrite <- app_assoc. apply alt_one. eapply IH; [exact H| |apply cat_end; reflexivity].
    exists ")"%char, k. split; reflexivity.
  - intros g IH a IHa k [H Ha]. cbn [aregex are]. rewrite <- !app_assoc. eapply alt_more; [|apply IHa, Ha].
    eapply IH; [exact H| |apply cat_end; reflexivity]. eexists _, _. split; reflexivity.
Qed.

(** * What the expression matches *)
Lemma mt_eps pre s post : mt REps pre s post <-> s = [].
Proof. split; [inversion 1; reflexivity|intros ->; constructor]. Qed.
Lemma mt_chr c pre s post : mt (RChr c) pre s post <-> s = [c].
Proof. split; [inversion 1; reflexivity|intros ->; constructor]. Qed.
Lemma mt_set neg l pre s post : mt (RSet neg l) pre s post <-> exists c, s = [c] /\ if neg : bool then ~ in_set l c else in_set l c.
Proof. split; [inversion 1; subst; eauto|intros (c & -> & H); constructor; exact H]. Qed.
Lemma mt_cat r r' pre s post : mt (RCat r r') pre s post <-> exists a b, s = a ++ b /\ mt r pre a (b ++ post) /\ mt r' (pre ++ a) b post.
Proof. split; [inversion 1; subst; eauto 6|intros (a & b & -> & H1 & H2); constructor; assumption]. Qed.
Lemma mt_alt r r' pre s post : mt (RAlt r r') pre s post <-> mt r pre s post \/ mt r' pre s post.
Proof. split; [inversion 1; subst; auto|intros [H|H]; [apply M_alt1|apply M_alt2]; exact H]. Qed.
Lemma mt_cat_eps r pre s post : mt (RCat r REps) pre s post <-> mt r pre s post.
Proof.
  rewrite mt_cat. split.
  - intros (a & b & -> & H & H2). apply mt_eps in H2. subst b. rewrite app_nil_r. exact H.
  - intros H. exists s, []. rewrite app_nil_r. repeat split; auto. constructor.
Qed.
Lemma mt_any pre s post : mt (RStar (RSet true [SChr "/"])) pre s post <-> ~ In "/"%char s.
Proof.
  split.
  - intros H. remember (RStar _) as r eqn:E. induction H; try discriminate; [intros []|].
    injection E as ->. rewrite in_app_iff. intros [I|I]; [|exact (IHmt2 eq_refl I)].
    apply mt_set in H as (c & -> & H). destruct I as [->|[]]. apply H. left. reflexivity.
  - revert pre. induction s as [|c s IH]; intros pre H; [constructor|].
    change (c :: s) with ([c] ++ s). constructor.
    + constructor. intros I. apply Exists_cons in I as [I|I]; [|inversion I]. cbn in I. subst. apply H. left; reflexivity.
    + apply IH. intros I. apply H. right; exact I.
Qed.
Lemma in_set_cons i s c : in_set (i :: s) c <-> in_sitem i c \/ in_set s c.
Proof. unfold in_set. apply Exists_cons. Qed.
Lemma mt_sre neg f s pre x post : mt (sre neg f s) pre x post <-> ilang (ISet neg f s) x.
Proof.
  cbn [ilang]. unfold sre. destruct neg; [rewrite mt_cat_eps; apply mt_set|].
  destruct f as [c|a b]; [|rewrite mt_cat_eps; apply mt_set].
  destruct s as [|i s]; destruct (Ascii.eqb c "^").
  - rewrite mt_chr. split.
    + intros ->. exists c. split; [reflexivity|]. left. reflexivity.
    + intros (d & -> & H). apply in_set_cons in H as [H|H]; [cbn in H; congruence|inversion H].
  - rewrite mt_cat_eps. apply mt_set.
  - rewrite mt_alt, !mt_cat_eps, mt_chr, mt_set. split.
    + intros [->|(d & -> & H)]; [exists c|exists d]; (split; [reflexivity|]); apply in_set_cons; [left; reflexivity|right; exact H].
    + intros (d & -> & H). apply in_set_cons in H as [H|H]; [left; cbn in H; congruence|right; eauto].
  - rewrite mt_cat_eps. apply mt_set.
Qed.
Lemma mt_glob :
  (forall g t pre s post, mt (gre g t) pre s post <-> exists a b, s = a ++ b /\ lang g a /\ mt t (pre ++ a) b post) /\
  (forall i pre s post, mt (ire i) pre s post <-> ilang i s) /\
  (forall a pre s post, mt (are a) pre s post <-> alang a s).
Proof.
  assert (E : forall g, (forall t pre s post, mt (gre g t) pre s post <-> exists a b, s = a ++ b /\ lang g a /\ mt t (pre ++ a) b post) ->
              forall pre s post, mt (gre g REps) pre s post <-> lang g s).
  { intros g H pre s post. rewrite H. split.
    - intros (a & b & -> & L & M). apply mt_eps in M. subst b. rewrite app_nil_r. exact L.
    - intros L. exists s, []. rewrite app_nil_r. repeat split; auto. constructor. }
  apply glob_mut.
  - intros t pre s post. cbn [gre lang]. split.
    + intros H. exists [], s. rewrite app_nil_r. auto.
    + intros (a & b & -> & -> & H). rewrite app_nil_r in H. exact H.
  - intros i IHi g IHg t pre s post. cbn [gre lang]. rewrite mt_cat. split.
    + intros (a & b & -> & H1 & H2). apply IHi in H1. apply IHg in H2 as (a2 & b2 & -> & L & M).
      exists (a ++ a2), b2. rewrite !app_assoc in *. repeat split; auto. exists a, a2. auto.
    + intros (x & b & -> & (a & a2 & -> & L1 & L2) & M). exists a, (a2 ++ b). rewrite app_assoc in *. repeat split; auto.
      * apply IHi; exact L1.
      * apply IHg. exists a2, b. repeat split; auto.
  - intros c pre s post. apply mt_chr.
  - intros c pre s post. apply mt_chr.
  - intros pre s post. cbn [ire ilang]. rewrite mt_cat_eps. apply mt_any.
  - intros pre s post. cbn [ire ilang]. rewrite mt_cat_eps, mt_set. split; intros (c & -> & H); exists c; (split; [reflexivity|]).
    + intros ->. apply H. left. reflexivity.
    + intros I. apply in_set_cons in I as [I|I]; [cbn in I; contradiction|inversion I].
  - intros. apply mt_sre.
  - intros a IH. cbn [ire ilang]. exact IH.
  - intros g IH. cbn [are alang]. apply E, IH.
  - intros g IH a IHa pre s post. cbn [are alang]. rewrite mt_alt, IHa, (E g IH). reflexivity.
Qed.
Definition whole (g : glob) : re := RCat RBol (gre g (RCat REol REps)).
Lemma whole_compiles g : wf false g -> compiles (B "^" ++ gregex g ++ B "$") (whole g).
Proof.
  intros W.
  assert (K : cat_to (B "$") (RCat REol REps) []) by (exists 9; intros f Hf; do 9 (destruct f; [lia|]); reflexivity).
  assert (C : calm (B "$")) by (exists "$"%char, []; split; reflexivity).
  pose proof (proj1 parse_glob g false (B "$") _ _ W C K) as P.
  assert (T : cat_to (B "^" ++ gregex g ++ B "$") (whole g) []).
  { eapply cat_atom; [exists "^"%char; eexists; split; reflexivity| |eapply glob_calm; eauto|exact P]. fuel 0. reflexivity. }
  destruct T as (n & T). fuel n. cbn [p_alt]. rewrite T by lia. reflexivity.
Qed.
Lemma whole_found g s : found (whole g) s <-> lang g s.
Proof.
  unfold found, whole. split.
  - intros (pre & mid & post & -> & M). apply mt_cat in M as (a & b & -> & M1 & M2). inversion M1; subst.
    apply mt_glob in M2 as (x & y & -> & L & M2). apply (proj1 (mt_cat_eps _ _ _ _)) in M2. inversion M2; subst. cbn. rewrite !app_nil_r. exact L.
  - intros L. exists [], s, []. rewrite app_nil_r. split; [reflexivity|]. apply mt_cat. exists [], s. repeat split; [constructor|].
    apply mt_glob. exists s, []. rewrite app_nil_r. repeat split; auto. apply mt_cat_eps. constructor.
Qed.
Lemma compiles_inj t e e' : compiles t e -> compiles t e' -> e = e'.
Proof. intros (n & H) (m & H'). specialize (H (max n m) (Nat.le_max_l _ _)). specialize (H' (max n m) (Nat.le_max_r _ _)). congruence. Qed.
