From Verif Require Import Base BaseFacts Ctype UrlModel IniModel IniSpec IniProofs IniProofs2 KeySpec IntFmtModel ConfModel ConfSpec ConfProofs ConfProofs2.
Local Open Scope nat_scope.

(** ** What is kept *)
Definition stored (ss : list (bytes * entries)) (g : entries) : Prop :=
  distinct ss /\ Forall (fun x => good_section (fst x) /\ Forall sound (snd x)) ss /\
  distinct g /\ Forall sound g /\ Forall (fun x => snd x <> []) g.
Lemma set_first_none l e v n : none_of (set_first l e v) n <-> none_of l n.
Proof. induction l as [|[m w] l IH]; cbn [set_first]; [tauto|]. destruct (same m e); rewrite !none_cons; cbn [fst]; tauto. Qed.
Lemma set_first_distinct l e v : distinct l -> distinct (set_first l e v).
Proof.
  induction l as [|[m w] l IH]; cbn [set_first]; auto. rewrite distinct_cons. cbn [fst]. intros [N D]. destruct (same m e); rewrite distinct_cons; cbn [fst]; [tauto|].
  rewrite set_first_none. auto.
Qed.
Lemma set_first_Forall (P : bytes * bytes -> Prop) l e v : Forall P l -> (forall m w, In (m, w) l -> same_text m e -> P (m, v)) -> Forall P (set_first l e v).
Proof.
  induction l as [|[m w] l IH]; cbn [set_first]; auto. intros F H. inversion F; subst. destruct (same m e) eqn:E; constructor; auto.
  - apply (H m w); [left; reflexivity|apply same_iff, E].
  - apply IH; auto. intros m' w' I. apply (H m' w'). right. exact I.
Qed.
Lemma remove_first_in l e y : In y (remove_first l e) -> In y l.
Proof. induction l as [|[m w] l IH]; cbn; auto. destruct (same m e); [auto|]. intros [H|H]; auto. Qed.
Lemma remove_first_distinct l e : distinct l -> distinct (remove_first l e).
Proof.
  induction l as [|[m w] l IH]; cbn [remove_first]; auto. rewrite distinct_cons. cbn [fst]. intros [N D]. destruct (same m e); [exact D|]. rewrite distinct_cons. cbn [fst].
  split; [|auto]. intros y Hy. apply N. eapply remove_first_in; eauto.
Qed.
Lemma distinct_snoc {A} (l : list (bytes * A)) x : distinct l -> none_of l (fst x) -> distinct (l ++ [x]).
Proof.
  induction l as [|y l IH]; intros D N; cbn [app].
  - apply distinct_cons. split; [intros z []|]. intros a u b w d E. destruct a; discriminate.
  - apply distinct_cons in D. apply none_cons in N. destruct D as [D1 D2], N as [N1 N2]. apply distinct_cons. split; [|auto].
    intros z Hz. apply in_app_iff in Hz. destruct Hz as [Hz|[<-|[]]]; [apply D1, Hz|]. intros S. apply N1, st_sym, S.
Qed.
Lemma sect_set_distinct l e v : distinct l -> distinct (sect_set l e v).
Proof.
  intros D. unfold sect_set. destruct (empty v); [apply remove_first_distinct, D|]. destruct (find_entry l (rtrim e)) eqn:F; [apply set_first_distinct, D|].
  apply distinct_snoc; [exact D|]. apply find_entry_none, F.
Qed.
Lemma sect_set_sound l e v : Forall sound l -> ~ white_end e -> (v <> [] -> sound (e, v)) -> Forall sound (sect_set l e v).
Proof.
  intros F W S. unfold sect_set. rewrite (rtrim_id e W). destruct v as [|v0 v]; cbn [empty].
  - apply Forall_forall. intros y Hy. apply remove_first_in in Hy. rewrite Forall_forall in F. auto.
  - specialize (S ltac:(discriminate)). destruct (find_entry l e).
    + apply set_first_Forall; [exact F|]. intros m w I E. rewrite Forall_forall in F. apply sound_upd with (n := e) (w := w); auto.
    + apply Forall_app. split; [exact F|]. constructor; auto.
Qed.
Lemma sect_set_full l e v : Forall (fun x : bytes * bytes => snd x <> []) l -> Forall (fun x => snd x <> []) (sect_set l e v).
Proof.
  intros F. unfold sect_set. destruct v as [|v0 v]; cbn [empty].
  - apply Forall_forall. intros y Hy. apply remove_first_in in Hy. rewrite Forall_forall in F. auto.
  - destruct (find_entry l (rtrim e)).
    + apply set_first_Forall; [exact F|]. intros. discriminate.
    + apply Forall_app. split; [exact F|]. constructor; [discriminate|constructor].
Qed.
Lemma upd_sect_none l s f n : none_of (upd_sect l s f) n <-> none_of l n.
Proof. induction l as [|x l IH]; cbn [upd_sect]; [tauto|]. destruct (same (fst x) s); rewrite !none_cons; cbn [fst]; tauto. Qed.
Lemma upd_sect_distinct l s f : distinct l -> distinct (upd_sect l s f).
Proof.
  induction l as [|x l IH]; cbn [upd_sect]; auto. rewrite distinct_cons. intros [N D]. destruct (same (fst x) s); rewrite distinct_cons; cbn [fst]; [tauto|].
  rewrite upd_sect_none. auto.
Qed.
Lemma upd_sect_Forall (P : bytes -> Prop) (Q : entries -> Prop) l s f : (forall x, Q x -> Q (f x)) ->
  Forall (fun x => P (fst x) /\ Q (snd x)) l -> Forall (fun x => P (fst x) /\ Q (snd x)) (upd_sect l s f).
Proof.
  intros Hf. induction l as [|x l IH]; cbn [upd_sect]; auto. intros F. inversion F as [|? ? [H1 H2] H3]; subst. destruct (same (fst x) s); constructor; cbn [fst snd]; auto.
Qed.
Lemma del_sect_in l s y : In y (del_sect l s) -> In y l.
Proof. induction l as [|x l IH]; cbn; auto. destruct (same (fst x) s); [auto|]. intros [H|H]; auto. Qed.
Lemma del_sect_distinct l s : distinct l -> distinct (del_sect l s).
Proof.
  induction l as [|x l IH]; cbn [del_sect]; auto. rewrite distinct_cons. intros [N D]. destruct (same (fst x) s); [exact D|]. rewrite distinct_cons. split; [|auto].
  intros y Hy. apply N. eapply del_sect_in; eauto.
Qed.

(** ** Loading keeps it *)
Lemma parse_section_good line p : one_line line -> trimmed line -> parse_section line = Some p -> p <> [] -> good_section p.
Proof.
  intros O T P NE. unfold parse_section in P. destruct line as [|c r]; [discriminate|]. destruct (Ascii.eqb c "["); [|discriminate].
  destruct (cut r "]") as [[n [|]]|] eqn:C; try discriminate. inversion P; subst p. apply cut_iff in C. destruct C as [-> N].
  split; [exact NE|]. split.
  - apply trim_one_line. destruct O as [O1 O2]. split; intros I; [apply O1|apply O2]; right; apply in_or_app; left; exact I.
  - split; [|intros I; apply N, trim_sub, I]. destruct (trim_parts n) as (_ & _ & _ & _ & _ & H). exact H.
Qed.
Definition lstate : Type := list (bytes * entries) * entries * option bytes * bool.
Definition linv (x : lstate) : Prop := let '(ss, g, cur, quick) := x in stored ss g /\ (cur = None -> quick = false).
Lemma load_line_inv x line : linv x -> one_line line -> linv (load_line x line).
Proof.
  destruct x as [[[ss g] cur] quick]. intros [S Q] O. unfold load_line. apply trim_one_line in O. set (t := trim_string line) in *.
  assert (T : trimmed t) by (destruct (trim_parts line) as (_ & _ & _ & _ & _ & H); exact H). clearbody t. clear line.
  destruct S as (D1 & F1 & D2 & F2 & F3). destruct (parse_section t) as [p|] eqn:P.
  - destruct p as [|p0 p']; cbn [empty]; [repeat (split; auto)|]. set (p := p0 :: p') in *.
    assert (G : good_section p) by (apply (parse_section_good t p O T P); discriminate).
    destruct (find_sect ss p) eqn:F; (split; [|discriminate]).
    + repeat (split; auto).
    + split; [apply distinct_snoc; [exact D1|apply find_sect_none, F]|]. split; [|auto]. apply Forall_app. split; [exact F1|]. constructor; [|constructor]. cbn. auto.
  - destruct (parse_value t) as [n v] eqn:V. destruct n as [|n0 n']; cbn [empty]; [split; [repeat (split; auto)|exact Q]|]. set (n := n0 :: n') in *.
    assert (SD : sound (n, v)) by (apply (parsed_sound t n v O T); [apply parse_section_none, P|exact V|discriminate]).
    assert (W : ~ white_end n) by apply SD.
    destruct cur as [p|].
    + split; [|discriminate]. split; [apply upd_sect_distinct, D1|]. split; [|auto]. apply upd_sect_Forall; [|exact F1].
      intros l Fl. destruct quick; [|apply sect_set_sound; auto]. unfold quick_set. rewrite (rtrim_id n W). apply Forall_app. split; [exact Fl|]. constructor; auto.
    + rewrite (Q eq_refl). split; [|auto]. split; [exact D1|]. split; [exact F1|]. split; [apply sect_set_distinct, D2|]. split; [apply sect_set_sound; auto|apply sect_set_full, F3].
Qed.
Lemma load_text_inv ss g text ss' g' : stored ss g -> load_text ss g text = (ss', g') -> stored ss' g'.
Proof.
  intros S H. unfold load_text in H.
  assert (X : forall ls x, linv x -> Forall one_line ls -> linv (fold_left load_line ls x)).
  { induction ls as [|l ls IH]; intros x I F; cbn [fold_left]; [exact I|]. inversion F; subst. apply IH; auto. apply load_line_inv; auto. }
  specialize (X (lines text) (ss, g, None, false)). destruct (fold_left load_line (lines text) (ss, g, None, false)) as [[[a b] cu] q].
  inversion H; subst. apply X; [split; auto|apply lines_ok].
Qed.

(** ** Loading what was saved *)
Lemma lines_dump l t : Forall sound l -> lines (dump l ++ t) = map L l ++ lines t.
Proof.
  induction l as [|[n v] l IH]; intros F; [reflexivity|]. inversion F; subst. unfold dump. cbn [flat_map map app]. rewrite line_L, <- !app_assoc. cbn [app].
  rewrite lines_cons; [|apply L_ok; assumption]. f_equal. apply IH. assumption.
Qed.
Lemma sect_name_line n : good_section n -> let t := "["%char :: n ++ ["]"%char] in one_line t /\ trim_string t = t /\ parse_section t = Some n.
Proof.
  intros (NE & O & T & N) t. split; [|split].
  - apply (one_line_app ["["%char] (n ++ ["]"%char])); [split; intros [H|[]]; vm_compute in H; discriminate|].
    apply one_line_app; [exact O|split; intros [H|[]]; vm_compute in H; discriminate].
  - apply trim_trimmed. apply trimmed_iff with (d := "]"%char) (t := "["%char :: n); reflexivity.
  - unfold t, parse_section. rewrite Ascii.eqb_refl. assert (C : cut (n ++ ["]"%char]) "]" = Some (n, [])) by (apply cut_iff; auto). rewrite C.
    rewrite trim_trimmed; auto.
Qed.
Lemma lines_sect n l t : good_section n -> Forall sound l -> lines (sect_text (n, l) ++ t) = [] :: ("["%char :: n ++ ["]"%char]) :: map L l ++ lines t.
Proof.
  intros G F. unfold sect_text. cbn [fst snd]. rewrite <- !app_assoc. cbn [app].
  change (newline :: B "[" ++ n ++ B "]" ++ newline :: dump l ++ t) with ([] ++ newline :: B "[" ++ n ++ B "]" ++ newline :: dump l ++ t).
  rewrite (lines_cons []); [|split; intros []]. f_equal.
  change (B "[" ++ n ++ B "]" ++ newline :: dump l ++ t) with ("["%char :: n ++ ["]"%char] ++ newline :: dump l ++ t).
  replace ("["%char :: n ++ ["]"%char] ++ newline :: dump l ++ t) with (("["%char :: n ++ ["]"%char]) ++ newline :: dump l ++ t) by (cbn [app]; rewrite <- app_assoc; reflexivity).
  rewrite lines_cons; [|apply sect_name_line, G]. f_equal. apply lines_dump, F.
Qed.
Lemma load_glob ss : forall l g, distinct (g ++ l) -> Forall sound l -> Forall (fun x => snd x <> []) l ->
  fold_left load_line (map L l) (ss, g, None, false) = (ss, g ++ l, None, false).
Proof.
  induction l as [|[n v] l IH]; intros g D F V; [rewrite app_nil_r; reflexivity|]. inversion F as [|? ? SD F']; subst. inversion V as [|? ? NV V']; subst. cbn [snd] in NV.
  destruct (L_ok n v SD) as (O & T & P & E). cbn [map fold_left]. replace (load_line (ss, g, None, false) (L (n, v))) with (ss, g ++ [(n, v)], @None (list ascii), false).
  - rewrite IH; auto; rewrite <- app_assoc; [reflexivity|exact D].
  - unfold load_line. rewrite (trim_trimmed _ T), P, E. destruct SD as (NE & _ & [_ W] & _). cbn [fst] in *. destruct n as [|n0 n']; [congruence|]. cbn [empty].
    set (n := n0 :: n') in *. unfold sect_set. rewrite (rtrim_id n W). destruct v as [|v0 v]; [congruence|]. cbn [empty].
    assert (Q : find_entry g n = None).
    { apply find_entry_none. intros y Hy S. apply in_split in Hy. destruct Hy as (a & b & ->). apply (D a y b (n, v0 :: v) l); [rewrite <- app_assoc; reflexivity|exact S]. }
    rewrite Q. reflexivity.
Qed.
Lemma load_quick ss g n : none_of ss n -> forall l l0, Forall sound l ->
  fold_left load_line (map L l) (ss ++ [(n, l0)], g, Some n, true) = (ss ++ [(n, l0 ++ l)], g, Some n, true).
Proof.
  intros N. assert (U : forall l0 f, upd_sect (ss ++ [(n, l0)]) n f = ss ++ [(n, f l0)]).
  { intros l0 f. clear -N. induction ss as [|x ss IH]; cbn [app upd_sect fst snd]; [rewrite same_refl; reflexivity|]. apply none_cons in N. destruct N as [N1 N2].
    apply same_false in N1. rewrite N1, IH; auto. }
  induction l as [|[m v] l IH]; intros l0 F; [rewrite app_nil_r; reflexivity|]. inversion F as [|? ? SD F']; subst.
  destruct (L_ok m v SD) as (O & T & P & E). cbn [map fold_left].
  replace (load_line (ss ++ [(n, l0)], g, Some n, true) (L (m, v))) with (ss ++ [(n, l0 ++ [(m, v)])], g, Some n, true).
  - rewrite IH; auto. rewrite <- app_assoc. reflexivity.
  - unfold load_line. rewrite (trim_trimmed _ T), P, E. destruct SD as (NE & _ & [_ W] & _). cbn [fst] in *. destruct m as [|m0 m']; [congruence|]. cbn [empty].
    set (m := m0 :: m') in *. rewrite U. unfold quick_set. rewrite (rtrim_id m W). reflexivity.
Qed.
Lemma load_sects : forall l ss g cur quick, distinct (ss ++ l) -> Forall (fun x => good_section (fst x) /\ Forall sound (snd x)) l ->
  exists cur' quick', fold_left load_line (lines (flat_map sect_text l)) (ss, g, cur, quick) = (ss ++ l, g, cur', quick').
Proof.
  induction l as [|[n es] l IH]; intros ss g cur quick D F.
  - exists cur, quick. rewrite app_nil_r. reflexivity.
  - inversion F as [|? ? [G Fs] F']; subst. cbn [fst snd] in *. cbn [flat_map]. rewrite lines_sect; auto. cbn [fold_left].
    assert (E0 : load_line (ss, g, cur, quick) [] = (ss, g, cur, quick)) by reflexivity. rewrite E0.
    destruct (sect_name_line n G) as (O & T & P).
    assert (N : none_of ss n).
    { intros y Hy S. apply in_split in Hy. destruct Hy as (a & b & ->). apply (D a y b (n, es) l); [rewrite <- app_assoc; reflexivity|exact S]. }
    assert (E1 : load_line (ss, g, cur, quick) ("["%char :: n ++ ["]"%char]) = (ss ++ [(n, [])], g, Some n, true)).
    { unfold load_line. rewrite T, P. destruct G as [NE _]. destruct n as [|n0 n']; [congruence|]. cbn [empty]. apply find_sect_none in N. rewrite N. reflexivity. }
    rewrite E1, fold_left_app, load_quick; auto. cbn [app].
    destruct (IH (ss ++ [(n, es)]) g (Some n) true) as (cu & q & E); [rewrite <- app_assoc; exact D|exact F'|]. exists cu, q. refine (eq_trans E _). rewrite <- app_assoc. reflexivity.
Qed.
Lemma reload c : stored (sects c) (glob c) -> load_text [] [] (save_text c) = (sects c, glob c).
Proof.
  intros (D1 & F1 & D2 & F2 & F3). unfold load_text, save_text. rewrite lines_dump; auto. rewrite fold_left_app, load_glob; auto. cbn [app].
  destruct (load_sects (sects c) [] (glob c) None false) as (cu & q & E); auto.
  pose (f := fun x : lstate => let '(ss, g, _, _) := x in (ss, g)). exact (f_equal f E).
Qed.

(** ** Histories *)
Definition kept (c : conf) : Prop := stored (sects c) (glob c).
Lemma good_sound e v : good_entry e -> good_value v -> sound (e, v).
Proof.
  intros (NE & O & T & Eq & H) (Ov & Tv). unfold sound; cbn [fst snd]. repeat (split; [assumption|]). intros (p & E & _). unfold L in E; cbn [fst snd] in E.
  destruct e as [|c e]; [congruence|]. apply H. destruct (empty v); cbn in E; inversion E; reflexivity.
Qed.
Lemma step_kept c o : kept c -> good_op o -> kept (fst (step c o)).
Proof.
  intros K G. destruct o as [f|s e v|s|cb|s e k]; cbn [step fst]; auto.
  - destruct f; cbn [load_file fst]; auto. destruct (load_text (sects c) (glob c) b) as [ss g] eqn:E. cbn. exact (load_text_inv _ _ _ _ _ K E).
  - destruct G as (Gs & Ge & Gv). unfold conf_set. destruct K as (D1 & F1 & R).
    set (w := match v with Some v => v | None => [] end).
    assert (Gw : good_value w).
    { destruct v; [exact Gv|]. split; [split; intros []|]. split; [intros (x & r & E & _); discriminate|intros (r & x & E & _); destruct r; discriminate]. }
    clearbody w. clear Gv.
    assert (SS : forall l, Forall sound l -> Forall sound (sect_set l e w)).
    { intros l Fl. apply sect_set_sound; [exact Fl|apply Ge|]. intros _. apply good_sound; auto. }
    destruct (find_sect (sects c) s) as [x|] eqn:F.
    + destruct (exact _ w); cbn [fst]; split; cbn [sects glob with_sects]; auto. { apply upd_sect_distinct, D1. } split; [|exact R]. apply upd_sect_Forall; auto.
    + destruct (empty w); cbn [fst]; [split; auto|].
      assert (D1' : distinct (sects c ++ [(s, [])])) by (apply distinct_snoc; [exact D1|apply find_sect_none, F]).
      assert (F1' : Forall (fun x => good_section (fst x) /\ Forall sound (snd x)) (sects c ++ [(s, [])])) by (apply Forall_app; split; [exact F1|constructor; [cbn; auto|constructor]]).
      destruct (exact _ w); cbn [fst]; split; cbn [sects glob with_sects]; auto. { apply upd_sect_distinct, D1'. } split; [|exact R]. apply upd_sect_Forall; auto.
  - unfold delete_section. destruct (find_sect (sects c) s); auto. destruct K as (D1 & F1 & R). split; cbn [sects glob with_sects]; [apply del_sect_distinct, D1|].
    split; [|exact R]. apply Forall_forall. intros y Hy. apply del_sect_in in Hy. rewrite Forall_forall in F1. auto.
Qed.
Lemma run_kept : forall l c, kept c -> Forall good_op l -> kept (run c l).
Proof. induction l as [|o l IH]; intros c K F; cbn [run]; [exact K|]. inversion F; subst. apply IH; auto. apply step_kept; auto. Qed.
Lemma kept_nil : stored [] [].
Proof.
  assert (D : forall A, distinct (@nil (bytes * A))) by (intros A a x b y d E; destruct a; discriminate). repeat (split; [try apply D; auto|]); auto.
Qed.
Lemma kept_new f : kept (new_conf f).
Proof.
  unfold new_conf. destruct f; cbn [load_file fst]; try exact kept_nil. cbn [sects glob]. destruct (load_text [] [] b) as [ss g] eqn:E. cbn. exact (load_text_inv [] [] b ss g kept_nil E).
Qed.
Lemma new_reload c : kept c -> same_contents (new_conf (Text (save_text c))) c.
Proof. intros K. unfold new_conf, same_contents. cbn [load_file fst sects glob]. rewrite (reload c K). cbn. auto. Qed.
