(** Lines of a log. *)
From Verif Require Import Base BaseFacts Ctype UrlModel LogModel LogSpec.
Local Open Scope Z_scope.

(** * The specification *)
Lemma texts_cons split q r : exists u ts, texts split (Some q :: r) = {| src := src q; lvl := lvl q; txt := txt q ++ u |} :: ts.
Proof.
  cbn [texts]. unfold join. destruct (hd None r) as [x|].
  - destruct (texts split r) as [|t ts]; [exists [], []; rewrite app_nil_r; destruct q; reflexivity|]. destruct (negb split && same_head q x); [eauto|]. exists [], (t :: ts). rewrite app_nil_r. destruct q; reflexivity.
  - exists [], (texts split r). rewrite app_nil_r. destruct q; reflexivity.
Qed.
Lemma same_head_iff p q : same_head p q = true <-> src p = src q /\ lvl p = lvl q.
Proof. unfold same_head. destruct (src_dec (src p) (src q)); cbn; rewrite ?Z.eqb_eq; intuition congruence. Qed.
Lemma same_head_eq p q x : src p = src q -> lvl p = lvl q -> same_head p x = same_head q x.
Proof. unfold same_head. intros -> ->. reflexivity. Qed.
Definition mk s v t := {| src := s; lvl := v; txt := t |}.
Lemma texts_merge s v t u r : texts false (Some (mk s v t) :: Some (mk s v u) :: r) = texts false (Some (mk s v (t ++ u)) :: r).
Proof.
  cbn [texts hd]. unfold join at 1. assert (Q : same_head (mk s v t) (mk s v u) = true) by (apply same_head_iff; auto). rewrite Q. cbn [negb andb].
  unfold join. destruct (hd None r) as [x|]; [|reflexivity]. destruct (texts false r) as [|w ts]; [reflexivity|]. rewrite (same_head_eq (mk s v (t ++ u)) (mk s v u) x eq_refl eq_refl). destruct (same_head (mk s v u) x); cbn [src lvl txt mk]; [rewrite app_assoc|]; reflexivity.
Qed.
Lemma hd_texts b r x : hd None r = Some x -> exists u ts, texts b r = {| src := src x; lvl := lvl x; txt := u |} :: ts.
Proof. destruct r as [|[y|] r]; try discriminate. cbn [hd]. intros E. injection E as ->. destruct (texts_cons b x r) as (u & ts & ->). eauto. Qed.
Lemma lines_empty b s v r : lines b (Some (mk s v []) :: r) = lines b r.
Proof.
  unfold lines. cbn [texts]. unfold join. destruct (hd None r) as [x|] eqn:H; [|reflexivity]. destruct (hd_texts b r x H) as (u & ts & ->).
  destruct (negb b && same_head (mk s v []) x) eqn:Q; [|reflexivity]. apply andb_true_iff in Q. destruct Q as [_ Q]. apply same_head_iff in Q. cbn in Q. destruct Q as [-> ->]. reflexivity.
Qed.
Definition unbroken (t : bytes) : Prop := forall c, In c t -> is_break c = false.
Lemma fields_ne t : fields t <> [].
Proof. destruct t as [|c r]; cbn; [discriminate|]. destruct (is_break c); [discriminate|]. destruct (fields r); discriminate. Qed.
Lemma fields_unbroken t : unbroken t -> fields t = [t].
Proof. induction t as [|c r IH]; intros U; [reflexivity|]. cbn. rewrite (U c (or_introl eq_refl)), IH; [reflexivity|]. intros d D. apply U. right. exact D. Qed.
Lemma fields_break t c u : unbroken t -> is_break c = true -> fields (t ++ c :: u) = t :: fields u.
Proof. intros U K. induction t as [|d r IH]; cbn [app fields]; [rewrite K; reflexivity|]. rewrite (U d (or_introl eq_refl)), IH; [reflexivity|]. intros e D. apply U. right. exact D. Qed.
(** The line an unbroken text makes. *)
Definition line1 (s : option bytes) (v : Z) (t : bytes) : list piece := match t with [] => [] | _ => [mk s v (flat_map show t)] end.
Lemma lines_of_unbroken s v t : unbroken t -> lines_of (mk s v t) = line1 s v t.
Proof. intros U. unfold lines_of. cbn [src lvl txt mk]. rewrite (fields_unbroken t U). destruct t; reflexivity. Qed.
Lemma lines_of_break s v t c u : unbroken t -> is_break c = true -> lines_of (mk s v (t ++ c :: u)) = line1 s v t ++ lines_of (mk s v u).
Proof. intros U K. unfold lines_of. cbn [src lvl txt mk]. rewrite (fields_break t c u U K). destruct t; reflexivity. Qed.
Lemma lines_break b s v t c u r : unbroken t -> is_break c = true -> lines b (Some (mk s v (t ++ c :: u)) :: r) = line1 s v t ++ lines b (Some (mk s v u) :: r).
Proof.
  intros U K. unfold lines. cbn [texts]. unfold join. destruct (hd None r) as [x|] eqn:H.
  - destruct (hd_texts b r x H) as (w & ts & ->). rewrite (same_head_eq (mk s v (t ++ c :: u)) (mk s v u) x eq_refl eq_refl). destruct (negb b && same_head (mk s v u) x); cbn [flat_map src lvl txt mk].
    + rewrite <- app_assoc. cbn [app]. pose proof (lines_of_break s v t c (u ++ w) U K) as L. unfold mk in L. rewrite L, <- app_assoc. reflexivity.
    + rewrite (lines_of_break s v t c u U K), <- app_assoc. reflexivity.
  - cbn [flat_map]. rewrite (lines_of_break s v t c u U K), <- app_assoc. reflexivity.
Qed.
Lemma lines_none b s v t r : unbroken t -> lines b (Some (mk s v t) :: None :: r) = line1 s v t ++ lines b r.
Proof. intros U. unfold lines. cbn [texts hd join flat_map]. rewrite (lines_of_unbroken s v t U). reflexivity. Qed.
Lemma lines_diff b s v t q r : unbroken t -> negb b && same_head (mk s v t) q = false -> lines b (Some (mk s v t) :: Some q :: r) = line1 s v t ++ lines b (Some q :: r).
Proof.
  intros U H. unfold lines. remember (Some q :: r) as l eqn:L. cbn [texts]. unfold join. rewrite L at 1. cbn [hd]. rewrite H. destruct (texts b l); cbn [flat_map]; rewrite (lines_of_unbroken s v t U); reflexivity.
Qed.
Lemma lines_end b s v t : unbroken t -> lines b [Some (mk s v t)] = line1 s v t.
Proof. intros U. unfold lines. cbn [texts hd join flat_map]. rewrite (lines_of_unbroken s v t U), app_nil_r. reflexivity. Qed.

(** * Events as single bytes *)
Inductive atom := ABegin (p : bytes) | AByte (c : byte) | AEnd (s : option bytes) (v : Z).
Definition flat1 (e : event) : list atom := match e with Begin p => [ABegin p] | Mid s => map AByte s | End s v => [AEnd s v] end.
Definition flat (l : list event) : list atom := flat_map flat1 l.
Definition pfx (s : option bytes) (v : Z) : bytes := shown s ++ B "<" ++ nth (Z.to_nat v) loglevels [] ++ B ">: ".
Definition line_atoms (p : piece) : list atom := ABegin (pfx (src p) (lvl p)) :: map AByte (txt p ++ [newline]) ++ [AEnd (src p) (lvl p)].
Definition open_atoms (s : option bytes) (v : Z) (t : bytes) : list atom := match t with [] => [] | _ => ABegin (pfx s v) :: map AByte (flat_map show t) end.
Lemma flat_app a b : flat (a ++ b) = flat a ++ flat b.
Proof. apply flat_map_app. Qed.
Lemma flat_mid u l : flat (Mid u :: l) = map AByte u ++ flat l.
Proof. reflexivity. Qed.

Definition valid (v : Z) : Prop := 0 <= v < 10.
Lemma level_name_ok v : valid v -> level_name v = Ok (nth (Z.to_nat v) loglevels []).
Proof.
  intros V. unfold level_name, valid in *. destruct (Z.ltb_spec v 0); [lia|]. destruct (nth_error loglevels (Z.to_nat v)) eqn:E; [rewrite (nth_error_nth _ _ [] E); reflexivity|]. apply nth_error_None in E. assert (length loglevels = 10%nat) by reflexivity. lia.
Qed.

(** The receiver is in the middle of text [t] under the header [s], [v]. *)
Record at_ (r : rcv) (s : option bytes) (v : Z) (t : bytes) : Prop := {
  a_src : last_source r = s; a_lvl : last_level r = v; a_nl : at_newline r = negb (nonempty t);
  a_unb : unbroken t; a_pfx : valid v -> prefix r = pfx s v; a_ne : t <> [] -> valid v }.
Definition same_conf (r r' : rcv) : Prop := max_level r' = max_level r /\ custom r' = custom r /\ force r' = force r.
Lemma conf_refl r : same_conf r r. Proof. repeat split. Qed.
Lemma conf_trans a b c : same_conf a b -> same_conf b c -> same_conf a c.
Proof. unfold same_conf. intuition congruence. Qed.
Lemma end_at r s v t r' e : at_ r s v t -> end_line r = (r', e) -> at_ r' s v [] /\ same_conf r r' /\ open_atoms s v t ++ flat e = flat_map line_atoms (line1 s v t).
Proof.
  intros [A1 A2 A3 A4 A5 A6]. unfold end_line. rewrite A3. destruct t as [|c t]; cbn [nonempty negb]; intros E; injection E as <- <-.
  - split; [constructor; auto|]. split; [apply conf_refl|reflexivity].
  - split; [|split; [repeat split|]].
    + constructor; cbn [with_newline last_source last_level at_newline prefix]; auto; try congruence. intros d [].
    + cbn [line1 flat_map]. rewrite app_nil_r. unfold line_atoms. cbn [src lvl txt mk open_atoms]. rewrite map_app, A1, A2. cbn [app flat flat_map flat1 map]. rewrite <- app_assoc. reflexivity.
Qed.
Lemma show_print c : is_break c = false -> my_isprint c = true -> show c = [c].
Proof.
  intros K P. unfold my_isprint, isprint, cc in P. unfold is_break in K. apply orb_false_iff in K. destruct K as [K1 K2]. unfold show.
  apply orb_true_iff in P. rewrite andb_true_iff, !Nat.leb_le in P.
  destruct (Nat.eqb_spec (nat_of_ascii c) 9); [lia|]. destruct (Nat.ltb_spec (nat_of_ascii c) 32); [lia|]. destruct (Nat.eqb_spec (nat_of_ascii c) 127); [lia|]. reflexivity.
Qed.
Lemma show_tab : show tab = B " ". Proof. reflexivity. Qed.
Lemma show_hex c : Ascii.eqb c tab = false -> my_isprint c = false -> show c = hex c.
Proof.
  intros T P. unfold show, hex. unfold my_isprint, isprint, cc in P. apply orb_false_iff in P. destruct P as [P1 P2]. apply Nat.leb_gt in P2. apply andb_false_iff in P1. rewrite !Nat.leb_gt in P1.
  destruct (Nat.eqb_spec (nat_of_ascii c) 9) as [E|E]. { assert (c = tab) by (rewrite <- (ascii_nat_embedding c), E; reflexivity). subst. discriminate. }
  assert (Q : ((nat_of_ascii c <? 32) || (nat_of_ascii c =? 127))%nat = true). { destruct (Nat.ltb_spec (nat_of_ascii c) 32); [reflexivity|]. apply Nat.eqb_eq. lia. } rewrite Q. reflexivity.
Qed.
Lemma brk c : Ascii.eqb c newline || Ascii.eqb c cr = is_break c.
Proof. revert c. apply (byte_sweep (fun c => Bool.eqb (Ascii.eqb c newline || Ascii.eqb c cr) (is_break c))) || (intros c; apply eqb_prop; revert c; apply byte_sweep; vm_compute; reflexivity). Qed.
Lemma span_spec s : let (a, b) := span s in s = a ++ b /\ (forall c, In c a -> is_break c = false /\ my_isprint c = true).
Proof.
  induction s as [|c r IH]; cbn [span]; [split; [reflexivity|intros c []]|]. destruct (Ascii.eqb c newline || negb (my_isprint c)) eqn:E; [split; [reflexivity|intros d []]|].
  destruct (span r) as [a b]. destruct IH as [-> IH]. split; [reflexivity|]. intros d [<-|D]; [|apply IH, D]. apply orb_false_iff in E. destruct E as [E1 E2]. apply negb_false_iff in E2. split; [|exact E2]. rewrite <- brk, E1. cbn [orb]. destruct (Ascii.eqb_spec c cr) as [->|]; [discriminate E2|reflexivity].
Qed.
Lemma show_no_nl c : In newline (show c) -> False.
Proof. assert (Q : existsb (Ascii.eqb newline) (show c) = false). { apply negb_true_iff. revert c. apply byte_sweep. vm_compute. reflexivity. } intros H. assert (existsb (Ascii.eqb newline) (show c) = true) by (apply existsb_exists; exists newline; split; [exact H|reflexivity]). congruence. Qed.
(** Adding unbroken text to the line. *)
Lemma mid_at r s v t u r1 e1 r2 e2 : at_ r s v t -> valid v -> u <> [] -> unbroken u -> begin_line r = (r1, e1) -> mid_line r1 (flat_map show u) = (r2, e2) ->
  at_ r2 s v (t ++ u) /\ same_conf r r2 /\ open_atoms s v t ++ flat (e1 ++ e2) = open_atoms s v (t ++ u).
Proof.
  intros [A1 A2 A3 A4 A5 A6] V U B Eb Em.
  assert (R : r2 = r1 /\ e2 = [Mid (flat_map show u)]). { unfold mid_line in Em. injection Em as <- <-. split; [|reflexivity]. destruct (rev (flat_map show u)) as [|c w] eqn:Er; [reflexivity|]. destruct (Ascii.eqb_spec c newline) as [->|]; [|reflexivity]. exfalso. assert (I : In newline (flat_map show u)) by (apply in_rev; rewrite Er; left; reflexivity). apply in_flat_map in I. destruct I as (d & _ & I). exact (show_no_nl d I). }
  destruct R as [-> ->]. unfold begin_line in Eb. rewrite A3 in Eb.
  assert (Un : unbroken (t ++ u)). { intros c I. apply in_app_or in I. destruct I; auto. }
  destruct t as [|c t]; cbn [nonempty negb] in Eb; injection Eb as <- <-.
  - cbn [app] in *. split; [constructor; cbn [with_newline last_source last_level at_newline prefix]; auto; destruct u; [congruence|reflexivity]|]. split; [repeat split|]. rewrite (A5 V). destruct u as [|d u]; [congruence|]. cbn [open_atoms app flat flat_map flat1]. rewrite app_nil_r. reflexivity.
  - split; [constructor; auto; cbn; discriminate|]. split; [apply conf_refl|]. cbn [app flat flat_map flat1 open_atoms]. rewrite app_nil_r, flat_map_app. cbn [flat_map]. rewrite !map_app. cbn [app]. rewrite <- app_assoc. reflexivity.
Qed.
Lemma loop_ok fuel : forall r s v t u, at_ r s v t -> valid v -> (length u < fuel)%nat -> exists r' e t' ls, log_loop fuel r u = Ok (r', e) /\ at_ r' s v t' /\ same_conf r r' /\
  open_atoms s v t ++ flat e = flat_map line_atoms ls ++ open_atoms s v t' /\ forall b ops, lines b (Some (mk s v (t ++ u)) :: ops) = ls ++ lines b (Some (mk s v t') :: ops).
Proof.
  induction fuel as [|fuel IH]; intros r s v t u A V F; [lia|]. destruct u as [|c rest].
  { exists r, [], t, []. split; [reflexivity|]. split; [exact A|]. split; [apply conf_refl|]. split; [apply app_nil_r|]. intros b ops. rewrite app_nil_r. reflexivity. }
  cbn [length] in F. cbn [log_loop]. rewrite brk. destruct (is_break c) eqn:K.
  - destruct (end_line r) as [r1 e1] eqn:E. destruct (end_at _ _ _ _ _ _ A E) as (A1 & C1 & O1). destruct (IH r1 s v [] rest A1 V ltac:(lia)) as (r' & e & t' & ls & -> & A2 & C2 & O2 & L). cbn [bind].
    exists r', (e1 ++ e), t', (line1 s v t ++ ls). split; [reflexivity|]. split; [exact A2|]. split; [eapply conf_trans; eassumption|]. split.
    + rewrite flat_app, app_assoc, O1, flat_map_app, <- app_assoc. f_equal. exact O2.
    + intros b ops. rewrite (lines_break b s v t c rest ops (a_unb _ _ _ _ A) K). cbn [app] in L. rewrite L, <- app_assoc. reflexivity.
  - destruct (begin_line r) as [r1 e1] eqn:Eb.
    assert (Go : forall w u rest' r2 e2, mid_line r1 w = (r2, e2) -> w = flat_map show u -> u <> [] -> unbroken u -> c :: rest = u ++ rest' -> (length rest' < fuel)%nat ->
      exists r' e t' ls, (let! (r3, e3) := log_loop fuel r2 rest' in Ok (r3, e1 ++ e2 ++ e3)) = Ok (r', e) /\ at_ r' s v t' /\ same_conf r r' /\
      open_atoms s v t ++ flat e = flat_map line_atoms ls ++ open_atoms s v t' /\ forall b ops, lines b (Some (mk s v (t ++ c :: rest)) :: ops) = ls ++ lines b (Some (mk s v t') :: ops)).
    { intros w u rest' r2 e2 Em -> Un Ub Ec Le. destruct (mid_at _ _ _ _ _ _ _ _ _ A V Un Ub Eb Em) as (A1 & C1 & O1). destruct (IH r2 s v (t ++ u) rest' A1 V Le) as (r' & e & t' & ls & -> & A2 & C2 & O2 & L). cbn [bind].
      exists r', (e1 ++ e2 ++ e), t', ls. split; [reflexivity|]. split; [exact A2|]. split; [eapply conf_trans; eassumption|]. split.
      - rewrite app_assoc, flat_app, app_assoc, O1. exact O2.
      - intros b ops. rewrite Ec, app_assoc. apply L. }
    destruct (Ascii.eqb_spec c tab) as [->|Nt]; [|destruct (my_isprint c) eqn:P; cbn [negb]].
    + destruct (mid_line r1 (B " ")) as [r2 e2] eqn:Em. apply (Go (B " ") [tab] rest r2 e2 Em); try reflexivity; try lia; [discriminate|]. intros d [<-|[]]. exact K.
    + destruct (span (c :: rest)) as [a b] eqn:S. pose proof (span_spec (c :: rest)) as Q. rewrite S in Q. destruct Q as [Q1 Q2]. destruct (mid_line r1 a) as [r2 e2] eqn:Em.
      assert (Na : a <> []). { intros ->. cbn [span] in S. rewrite P in S. cbn [negb] in S. destruct (Ascii.eqb_spec c newline) as [->|]; [discriminate K|]. cbn [orb] in S. destruct (span rest); discriminate. }
      apply (Go a a b r2 e2 Em); auto.
      * clear -Q2. induction a as [|x a IH]; [reflexivity|]. cbn [flat_map]. destruct (Q2 x (or_introl eq_refl)). rewrite (show_print x) by assumption. cbn [app]. f_equal. apply IH. intros y Y. apply Q2. right. exact Y.
      * intros d D. apply Q2, D.
      * apply (f_equal (@length _)) in Q1. rewrite app_length in Q1. cbn [length] in Q1. destruct a; [congruence|]. cbn [length] in Q1. lia.
    + destruct (mid_line r1 (hex c)) as [r2 e2] eqn:Em. apply (Go (hex c) [c] rest r2 e2 Em); try lia; try reflexivity; try discriminate.
      * cbn [flat_map]. rewrite app_nil_r. symmetry. apply show_hex; [|exact P]. destruct (Ascii.eqb_spec c tab); [contradiction|reflexivity].
      * intros d [<-|[]]. exact K.
Qed.

(** * Thresholds *)
Lemma starts_ok s sub : starts_with s sub = true <-> exists b, s = sub ++ b.
Proof.
  revert s. induction sub as [|a sub IH]; intros s.
  { assert (Q : starts_with s [] = true) by (destruct s; reflexivity). rewrite Q. split; [intros _; exists s; reflexivity|reflexivity]. }
  destruct s as [|c s]; cbn [starts_with]; [split; [discriminate|intros [b E]; discriminate]|].
  rewrite andb_true_iff, IH, Ascii.eqb_eq. split; [intros [-> [b ->]]; exists b; reflexivity|intros [b E]; injection E as -> ->; eauto].
Qed.
Lemma strstr_ok s sub : strstr s sub = true <-> contains s sub.
Proof.
  unfold contains. induction s as [|c s IH]; cbn [strstr]; rewrite orb_true_iff, starts_ok.
  - split; [intros [[b E]|]; [exists [], b; exact E|discriminate]|]. intros (a & b & E). left. symmetry in E. apply app_eq_nil in E. destruct E as [_ E]. exists b. symmetry. exact E.
  - rewrite IH. split.
    + intros [[b E]|(a & b & ->)]; [exists [], b; exact E|exists (c :: a), b; reflexivity].
    + intros ([|d a] & b & E); [left; exists b; exact E|]. right. injection E as -> ->. eauto.
Qed.
Lemma limit_threshold max rules s th : limit max rules s th -> threshold rules s max = Ok th.
Proof.
  induction 1; cbn [threshold]; [reflexivity| |].
  - rewrite (proj2 (strstr_ok _ _)); [reflexivity|assumption].
  - destruct (strstr (map tolower n) sub) eqn:E; [apply strstr_ok in E; contradiction|assumption].
Qed.

(** * Whole histories *)
Definition said (o : op) : option piece := match o with Log s v t _ => Some (mk s v t) | Flush => None end.
Lemma str_eqb_ok a b : str_eqb a b = if src_dec a b then true else false.
Proof.
  destruct (src_dec a b) as [->|N].
  - destruct b as [y|]; [|reflexivity]. cbn [str_eqb]. destruct (list_eq_dec Ascii.ascii_dec y y); congruence.
  - destruct a as [x|], b as [y|]; try reflexivity; [|congruence]. cbn [str_eqb]. destruct (list_eq_dec Ascii.ascii_dec x y); congruence.
Qed.
Lemma make_prefix_ok r s v t : last_source r = s -> last_level r = v -> valid v -> at_newline r = negb (nonempty t) -> unbroken t -> exists r', make_prefix r = Ok r' /\ at_ r' s v t /\ same_conf r r'.
Proof.
  intros <- <- V N U. unfold make_prefix. rewrite (level_name_ok _ V). cbn [bind]. eexists. split; [reflexivity|]. split; [constructor; cbn [with_prefix last_source last_level at_newline prefix]; auto|repeat split].
Qed.
Lemma log_ok r s v t src1 lvl1 u now th : at_ r s v t -> threshold (custom r) src1 (max_level r) = Ok th ->
  (th < lvl1 -> log r src1 lvl1 u now = Ok (r, [])) /\
  (lvl1 <= th -> valid lvl1 -> exists r' e t' ls, log r src1 lvl1 u now = Ok (r', e) /\ at_ r' src1 lvl1 t' /\ same_conf r r' /\
    open_atoms s v t ++ flat e = flat_map line_atoms ls ++ open_atoms src1 lvl1 t' /\
    forall ops, lines (force r) (Some (mk s v t) :: Some (mk src1 lvl1 u) :: ops) = ls ++ lines (force r) (Some (mk src1 lvl1 t') :: ops)).
Proof.
  intros A T. unfold log. rewrite T. cbn [bind]. split; [intros H; apply Z.ltb_lt in H; rewrite H; reflexivity|]. intros H V. apply Z.ltb_ge in H. rewrite H.
  destruct (negb (str_eqb src1 (last_source r)) || negb (lvl1 =? last_level r) || force r) eqn:D.
  - destruct (end_line r) as [r1 e1] eqn:E. destruct (end_at _ _ _ _ _ _ A E) as (A1 & C1 & O1).
    destruct (make_prefix_ok (with_head r1 src1 lvl1 now) src1 lvl1 [] eq_refl eq_refl V) as (r2 & -> & A2 & C2); [apply (a_nl _ _ _ _ A1)|intros c []|]. cbn [bind].
    destruct (loop_ok (S (length u)) r2 src1 lvl1 [] u A2 V ltac:(lia)) as (r' & e & t' & ls & -> & A3 & C3 & O3 & L). cbn [bind]. exists r', (e1 ++ e), t', (line1 s v t ++ ls). split; [reflexivity|]. split; [exact A3|]. split; [|split].
    + eapply conf_trans; [exact C1|]. eapply conf_trans; [|exact C3]. exact C2.
    + rewrite flat_app, app_assoc, O1, flat_map_app, <- app_assoc. f_equal. exact O3.
    + intros ops. rewrite lines_diff; [cbn [app] in L; rewrite L, app_assoc; reflexivity|apply (a_unb _ _ _ _ A)|]. rewrite str_eqb_ok, (a_src _ _ _ _ A), (a_lvl _ _ _ _ A) in D. unfold same_head. cbn [src lvl mk]. destruct (force r); [reflexivity|]. cbn [negb andb]. rewrite orb_false_r in D. destruct (src_dec src1 s) as [->|Ns]; cbn [negb orb] in D.
      * destruct (src_dec s s); [|reflexivity]. rewrite Z.eqb_sym. apply negb_true_iff in D. exact D.
      * destruct (src_dec s src1); [congruence|reflexivity].
  - apply orb_false_iff in D. destruct D as [D Ff]. apply orb_false_iff in D. destruct D as [D1 D2]. apply negb_false_iff in D1. apply negb_false_iff in D2. apply Z.eqb_eq in D2. rewrite str_eqb_ok in D1. destruct (src_dec src1 (last_source r)) as [D1'|]; [|discriminate]. rewrite (a_src _ _ _ _ A) in D1'. rewrite (a_lvl _ _ _ _ A) in D2. subst src1 lvl1.
    assert (M : exists r2, (if (last_time r =? 0) || negb (now =? last_time r) then if at_newline r then let! r2 := make_prefix (with_time r now) in Ok (r2, []) else Ok (with_time r now, []) else Ok (r, [])) = Ok (r2, @nil event) /\ at_ r2 s v t /\ same_conf r r2).
    { destruct ((last_time r =? 0) || negb (now =? last_time r)); [|exists r; split; [reflexivity|split; [exact A|apply conf_refl]]]. cbv zeta. destruct A as [B1 B2 B3 B4 B5 B6]. destruct (at_newline r) eqn:N.
      - destruct (make_prefix_ok (with_time r now) s v t B1 B2 V) as (r2 & -> & A2 & C2); [cbn; congruence|exact B4|]. cbn [bind]. exists r2. split; [reflexivity|]. split; [exact A2|exact C2].
      - exists (with_time r now). split; [reflexivity|]. split; [constructor; cbn; auto; congruence|repeat split]. }
    destruct M as (r2 & -> & A2 & C2). cbn [bind]. destruct (loop_ok (S (length u)) r2 s v t u A2 V ltac:(lia)) as (r' & e & t' & ls & -> & A3 & C3 & O3 & L). cbn [bind]. exists r', e, t', ls. split; [reflexivity|]. split; [exact A3|]. split; [eapply conf_trans; eassumption|]. split; [exact O3|].
    intros ops. rewrite Ff. unfold lines at 1. rewrite texts_merge. apply L.
Qed.
Lemma run_lines rules max b l h : heard rules max l h -> Forall proper h -> forall ops r s v t, map said ops = l -> custom r = rules -> max_level r = max -> force r = b -> at_ r s v t ->
  exists r' e, run r (ops ++ [Flush]) = Ok (r', e) /\ open_atoms s v t ++ flat e = flat_map line_atoms (lines b (Some (mk s v t) :: h)).
Proof.
  induction 1 as [|l h H IH|p th l h Th Hl H IH|p th l h Th Hl H IH]; intros Pr ops r s v t El Hc Hm Hf A.
  - destruct ops; [|discriminate]. cbn [app run step]. destruct (end_line r) as [r1 e1] eqn:E. cbn [bind]. destruct (end_at _ _ _ _ _ _ A E) as (A1 & C1 & O1). exists r1, (e1 ++ []). split; [reflexivity|]. rewrite app_nil_r, O1, (lines_end _ _ _ _ (a_unb _ _ _ _ A)). reflexivity.
  - destruct ops as [|o ops]; [discriminate|]. injection El as Eo El. destruct o; [discriminate|]. cbn [app run step]. destruct (end_line r) as [r1 e1] eqn:E. cbn [bind]. destruct (end_at _ _ _ _ _ _ A E) as (A1 & (C1 & C2 & C3) & O1).
    destruct (IH (Forall_inv_tail Pr) ops r1 s v [] El ltac:(congruence) ltac:(congruence) ltac:(congruence) A1) as (r' & e & -> & O2). cbn [bind]. exists r', (e1 ++ e). split; [reflexivity|]. rewrite flat_app, app_assoc, O1, (lines_none _ _ _ _ _ (a_unb _ _ _ _ A)), flat_map_app. f_equal. rewrite lines_empty in O2. exact O2.
  - destruct ops as [|o ops]; [discriminate|]. injection El as Eo El. destruct o as [s1 v1 t1 n1|]; [|discriminate]. injection Eo as <-. cbn [src lvl mk] in *. cbn [app run step].
    destruct (log_ok r s v t s1 v1 t1 n1 th A) as [_ L]; [rewrite Hc, Hm; apply limit_threshold, Th|]. destruct (L Hl (Forall_inv Pr)) as (r1 & e1 & t' & ls & -> & A1 & (C1 & C2 & C3) & O1 & Q). cbn [bind].
    destruct (IH (Forall_inv_tail Pr) ops r1 s1 v1 t' El ltac:(congruence) ltac:(congruence) ltac:(congruence) A1) as (r' & e & -> & O2). cbn [bind]. exists r', (e1 ++ e). split; [reflexivity|]. rewrite <- Hf, Q, flat_map_app, flat_app, app_assoc, O1, <- app_assoc, Hf. f_equal. exact O2.
  - destruct ops as [|o ops]; [discriminate|]. injection El as Eo El. destruct o as [s1 v1 t1 n1|]; [|discriminate]. injection Eo as <-. cbn [src lvl mk] in *. cbn [app run step].
    destruct (log_ok r s v t s1 v1 t1 n1 th A) as [L _]; [rewrite Hc, Hm; apply limit_threshold, Th|]. rewrite (L Hl). cbn [bind]. destruct (IH Pr ops r s v t El Hc Hm Hf A) as (r' & e & -> & O2). cbn [bind]. exists r', e. split; [reflexivity|exact O2].
Qed.
Lemma new_at max rules b : at_ (new max rules b) None 10 [].
Proof. constructor; cbn; try reflexivity; try (intros c []); try congruence. intros V. exfalso. unfold valid in V. lia. Qed.
Lemma new_lines rules max b ops h : heard rules max (map said ops) h -> Forall proper h -> exists r' e, run (new max rules b) (ops ++ [Flush]) = Ok (r', e) /\ flat e = flat_map line_atoms (lines b h).
Proof. intros H P. destruct (run_lines rules max b _ h H P ops (new max rules b) None 10 [] eq_refl eq_refl eq_refl eq_refl (new_at _ _ _)) as (r' & e & E & O). exists r', e. split; [exact E|]. rewrite lines_empty in O. exact O. Qed.
