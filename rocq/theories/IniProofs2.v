(** Facts about the reading of .ini files, line by line. *)
From Verif Require Import Base BaseFacts Ctype TclModel TclSpec TclProofs KeyModel KeySpec KeyProofs UrlModel UrlProofs TempModel IniModel IniSpec IniProofs.
Local Open Scope char_scope.
Local Open Scope list_scope.

(** * One word *)
Lemma getword_line sp pre line x rest : mset sp "\" = false -> Forall (fun c => mset sp c = true) pre ->
  lineok sp line -> line <> [] -> hd nul line <> """" -> nul_free line -> mset sp x = true ->
  wvtcl_getword sp false (pre ++ line ++ x :: rest) = Ok (Some line, x :: rest).
Proof.
  intros HB HP HL HN HQ HZ HX. destruct line as [|c line]; [congruence|]. cbn [hd] in HQ. pose proof (lineok_head _ _ _ HL) as Hc.
  apply lineok_run in HL; [|exact HB]. destruct HL as [cn HL].
  assert (E : getword_scan sp false (pre ++ (c :: line) ++ x :: rest) = Ok (GWord (c :: line) (x :: rest))).
  { unfold getword_scan. rewrite skip_seps_app by exact HP. cbn [app skip_seps]. rewrite Hc. apply Ascii.eqb_neq in HQ. rewrite HQ.
    change (c :: line ++ x :: rest) with ((c :: line) ++ x :: rest). rewrite (gw_scan_run_app _ _ _ _ _ HL).
    cbn [gw_scan]. unfold gw_step. cbn [g_esc g_brace Nat.eqb andb negb]. destruct (Ascii.eqb_spec x "\") as [->|]; [congruence|]. rewrite HX. cbn [app].
    rewrite app_nil_r. reflexivity. }
  unfold wvtcl_getword. rewrite E. cbn [bind]. rewrite make_string_ok. cbn [bind]. rewrite cstr_nul_free by exact HZ.
  do 2 f_equal. rewrite app_assoc. rewrite (skipn_app_len _ _ _ 0); [reflexivity|]. rewrite !app_length. lia.
Qed.
Lemma getword_seps sp pre : Forall (fun c => mset sp c = true) pre -> wvtcl_getword sp false pre = Ok (None, pre).
Proof.
  intros H. assert (E : skip_seps sp pre = []) by (rewrite <- (app_nil_r pre); rewrite skip_seps_app by exact H; reflexivity).
  unfold wvtcl_getword, getword_scan. rewrite E. reflexivity.
Qed.

(** * The loop over words *)
Definition tw (b : bytes) (st : pstate) : res (bytes * pstate) := take_words (S (length b)) b st.
Lemma getword_short sp b w b' : wvtcl_getword sp false b = Ok (Some w, b') -> length b' < length b.
Proof.
  intros E. destruct (getword_framing sp false b) as [E1|(pre & raw & rest & w1 & E1 & Eb & _ & Hn & _)]; rewrite E1 in E; [discriminate|].
  injection E as <- <-. rewrite Eb, !app_length. destruct raw; [congruence|]. cbn. lia.
Qed.
Lemma take_words_fuel f : forall b st, length b < f -> take_words f b st = tw b st.
Proof.
  enough (H : forall m f f' b st, length b <= m -> length b < f -> length b < f' -> take_words f b st = take_words f' b st).
  { intros b st L. apply (H (length b)); lia. }
  clear. induction m as [|m IH]; intros f f' b st Lm Lf Lf'; (destruct f as [|f]; [lia|]); (destruct f' as [|f']; [lia|]); cbn [take_words];
    destruct (wvtcl_getword WVTCL_NASTY_NEWLINES false b) as [[[w|] b']| |] eqn:E; cbn [bind]; try reflexivity; apply getword_short in E; [lia|].
  destruct (take_word w st) as [st'| |]; cbn [bind]; try reflexivity. apply IH; lia.
Qed.
Lemma tw_eq b st : tw b st =
  let! (w, b') := wvtcl_getword NL false b in
  match w with None => Ok (b', st) | Some w => let! st := take_word w st in tw b' st end.
Proof.
  unfold tw at 1. cbn [take_words]. unfold NL. destruct (wvtcl_getword WVTCL_NASTY_NEWLINES false b) as [[[w|] b']| |] eqn:E; cbn [bind]; try reflexivity.
  apply getword_short in E. destruct (take_word w st); cbn [bind]; try reflexivity. apply take_words_fuel. lia.
Qed.
Lemma tw_seps pre st : Forall (fun c => mset NL c = true) pre -> tw pre st = Ok (pre, st).
Proof. intros H. rewrite tw_eq, getword_seps by exact H. reflexivity. Qed.
Lemma tw_line pre line rest st : Forall (fun c => mset NL c = true) pre -> lineok NL line -> line <> [] -> hd nul line <> """" -> nul_free line ->
  tw (pre ++ line ++ newline :: rest) st = let! st' := take_word line st in tw (newline :: rest) st'.
Proof. intros HP HL HN HQ HZ. rewrite tw_eq, getword_line by (reflexivity || assumption). reflexivity. Qed.

(** Reading line by line is reading it all. *)
Definition lf_end (b : bytes) : Prop := b = [] \/ exists r, b = r ++ [newline].
Lemma lf_end_app a b : lf_end a -> lf_end b -> lf_end (a ++ b).
Proof. intros Ha [->|(r & ->)]; [rewrite app_nil_r; exact Ha|]. right. exists (a ++ r). rewrite app_assoc. reflexivity. Qed.
Lemma lf_end_suffix a b : lf_end (a ++ b) -> lf_end b.
Proof.
  intros [E|(r & E)]; [apply app_eq_nil in E; left; tauto|]. destruct b as [|c b _] using rev_ind; [left; reflexivity|].
  right. exists b. rewrite app_assoc in E. apply app_inj_tail in E. destruct E as [_ ->]. reflexivity.
Qed.
Lemma gw_scan_lf s : forall st t st', gw_scan NL false st (s ++ [newline]) = (t, [], st') -> g_brace st' <> 0 \/ g_cont st' = true.
Proof.
  induction s as [|c s IH]; intros st t st'; cbn [app gw_scan].
  - unfold gw_step. destruct (g_esc st) eqn:Ee.
    + intros E. injection E as _ <-. right. reflexivity.
    + cbn [Ascii.eqb]. change (mset NL newline) with true. change (Ascii.eqb newline "\") with false. change (Ascii.eqb newline """") with false.
      change (Ascii.eqb newline "{") with false. change (Ascii.eqb newline "}") with false. rewrite !andb_false_r, !andb_true_r.
      destruct (Nat.eqb_spec (g_brace st) 0); [discriminate|]. cbn. intros E. injection E as _ <-. left. exact n.
  - destruct (gw_step NL false st c) as [[st1 b]|] eqn:Es; [|discriminate].
    assert (b = false) as -> by (destruct (gw_step_noquote NL st c) as (x & Hx); congruence).
    destruct (gw_scan NL false st1 (s ++ [newline])) as [[t1 r1] s1] eqn:E. intros H. injection H as <- -> <-. eapply IH, E.
Qed.
Lemma getword_lf b w b' : lf_end b -> wvtcl_getword NL false b = Ok (Some w, b') -> b' <> [].
Proof.
  intros [->|(r & ->)]; [discriminate|]. unfold wvtcl_getword. destruct (getword_scan NL false (r ++ [newline])) as [[|out rest]| |] eqn:E; cbn [bind]; try discriminate.
  rewrite make_string_ok. cbn [bind]. intros H. assert (Hb : b' = skipn (length (r ++ [newline]) - length rest) (r ++ [newline])) by congruence. clear H.
  assert (Hr : rest <> []).
  { intros ->. revert E. unfold getword_scan. destruct (skip_seps_split NL (r ++ [newline])) as (pre & Es & Fp).
    destruct (skip_seps NL (r ++ [newline])) as [|c r'] eqn:Ek; [discriminate|]. destruct (Ascii.eqb c """").
    - destruct (gw_scan NL true _ r') as [[? ?] ?]. rewrite !orb_true_r. discriminate.
    - destruct (gw_scan NL false (GwSt false false 0) (c :: r')) as [[t rest] st] eqn:Eg. destruct (_ || _ || _ || _ || _) eqn:Ec; [discriminate|].
      intros H. injection H as -> ->. assert (L : exists q, c :: r' = q ++ [newline]).
      { destruct (exists_last (l := c :: r') ltac:(discriminate)) as (q & y & Eq). exists q. rewrite Eq in *. rewrite app_assoc in Es. apply app_inj_tail in Es. destruct Es as [_ ->]. reflexivity. }
      destruct L as [q Eq]. rewrite Eq in Eg. apply gw_scan_lf in Eg. rewrite !orb_false_iff, negb_false_iff, Nat.eqb_eq in Ec. destruct Eg; intuition congruence. }
  pose proof E as E0. destruct (getword_scan_inv NL false (r ++ [newline])) as [E1|(pre & raw & rest1 & out1 & E1 & Es & _)]; rewrite E1 in E0; [discriminate|].
  injection E0 as -> ->. rewrite Es in Hb. rewrite app_assoc in Hb. rewrite (skipn_app_len _ _ _ 0) in Hb; [|rewrite !app_length; lia]. cbn [skipn] in Hb. congruence.
Qed.
Lemma getword_suffix sp b w b' : wvtcl_getword sp false b = Ok (w, b') -> exists a, b = a ++ b'.
Proof.
  intros E. destruct (getword_framing sp false b) as [E1|(pre & raw & rest & w1 & E1 & Eb & _)]; rewrite E1 in E; injection E as <- <-.
  - exists []. reflexivity.
  - exists (pre ++ raw). rewrite <- app_assoc. exact Eb.
Qed.
Lemma tw_app_gen m : forall b x st, length b <= m -> lf_end b ->
  match tw b st with
  | Ok (b', st') => tw (b ++ x) st = tw (b' ++ x) st' /\ tw b' st' = Ok (b', st') /\ exists a, b = a ++ b'
  | Fault => tw (b ++ x) st = Fault
  | NoFuel => tw (b ++ x) st = NoFuel
  end.
Proof.
  induction m as [|m IH]; intros b x st L HL.
  - destruct b; [|cbn in L; lia]. rewrite tw_seps by constructor. split; [reflexivity|]. split; [apply tw_seps; constructor|exists []; reflexivity].
  - rewrite (tw_eq b). destruct (wvtcl_getword NL false b) as [[[w|] b']| |] eqn:E; cbn [bind].
    + pose proof (getword_lf _ _ _ HL E) as Hn. destruct b' as [|c r]; [congruence|]. pose proof (getword_stable _ _ _ x _ _ _ E) as Ex.
      destruct (getword_suffix _ _ _ _ E) as [a Ea]. pose proof (getword_short _ _ _ _ E) as Ls.
      rewrite (tw_eq (b ++ x)), Ex. cbn [bind]. destruct (take_word w st) as [st1| |]; cbn [bind]; try reflexivity.
      specialize (IH (c :: r) x st1 ltac:(lia)). rewrite Ea in HL. specialize (IH (lf_end_suffix _ _ HL)).
      change (c :: r ++ x) with ((c :: r) ++ x). destruct (tw (c :: r) st1) as [[b2 st2]| |]; try exact IH. destruct IH as (I1 & I2 & a2 & I3).
      split; [exact I1|]. split; [exact I2|]. exists (a ++ a2). rewrite <- app_assoc, <- I3. exact Ea.
    + assert (b' = b) as -> by (destruct (getword_framing NL false b) as [E1|(? & ? & ? & ? & E1 & _)]; rewrite E1 in E; congruence).
      split; [reflexivity|]. split; [rewrite tw_eq, E; reflexivity|exists []; reflexivity].
    + exfalso. destruct (getword_framing NL false b) as [E1|(? & ? & ? & ? & E1 & _)]; rewrite E1 in E; congruence.
    + exfalso. destruct (getword_framing NL false b) as [E1|(? & ? & ? & ? & E1 & _)]; rewrite E1 in E; congruence.
Qed.
Definition cat_lines (l : list bytes) : bytes := concat (map (fun x => x ++ [newline]) l).
Lemma cat_lines_lf l : lf_end (cat_lines l).
Proof. induction l as [|x l IH]; [left; reflexivity|]. cbn. apply lf_end_app; [right; eauto|exact IH]. Qed.
Lemma read_lines_tw ls : Forall nul_free ls -> forall b st, lf_end b -> (ls = [] -> tw b st = Ok (b, st)) -> read_lines ls b st = tw (b ++ cat_lines ls) st.
Proof.
  induction ls as [|l ls IH]; intros F b st HL H0; cbn [read_lines].
  - cbn. rewrite app_nil_r. symmetry. apply H0. reflexivity.
  - rewrite cstr_nul_free by apply (Forall_inv F). fold (tw (b ++ l ++ [newline]) st). unfold cat_lines. cbn [map concat]. fold (cat_lines ls).
    assert (HL' : lf_end (b ++ l ++ [newline])) by (apply lf_end_app; [exact HL|right; eauto]).
    pose proof (tw_app_gen _ (b ++ l ++ [newline]) (cat_lines ls) st (le_n _) HL') as T. replace (b ++ (l ++ [newline]) ++ cat_lines ls) with ((b ++ l ++ [newline]) ++ cat_lines ls) by (rewrite !app_assoc; reflexivity).
    destruct (tw (b ++ l ++ [newline]) st) as [[b' st']| |]; cbn [bind]; [|symmetry; exact T|symmetry; exact T]. destruct T as (T1 & T2 & a & T3). rewrite T1. rewrite T3 in HL'.
    apply IH; [exact (Forall_inv_tail F)|exact (lf_end_suffix _ _ HL')|auto].
Qed.
Lemma lines_of_cat s : lf_end s -> forall cur, (s = [] -> cur = []) -> cat_lines (lines_of cur s) = cur ++ s.
Proof.
  intros H. assert (H' : match s with [] => True | _ => last s nul = newline end).
  { destruct H as [->|(r & ->)]; [exact I|]. destruct (r ++ [newline]) eqn:E; [exact I|]. rewrite <- E. apply last_last. }
  clear H. induction s as [|c s IH]; intros cur Hc; cbn [lines_of].
  - rewrite Hc by reflexivity. reflexivity.
  - destruct (Ascii.eqb_spec c newline) as [->|N].
    + cbn [cat_lines map concat]. unfold cat_lines. cbn [map concat]. fold (cat_lines (lines_of [] s)). rewrite IH; [|destruct s; auto|reflexivity]. rewrite <- app_assoc. reflexivity.
    + destruct s as [|d s]; [cbn [last] in H'; congruence|]. rewrite IH; [|exact H'|discriminate]. rewrite <- app_assoc. reflexivity.
Qed.
Lemma lines_of_nul s : nul_free s -> forall cur, nul_free cur -> Forall nul_free (lines_of cur s).
Proof.
  induction s as [|c s IH]; intros H cur Hc; cbn [lines_of].
  - destruct cur; auto.
  - apply nul_free_cons in H. destruct H as [H1 H2]. destruct (Ascii.eqb c newline).
    + constructor; [exact Hc|]. apply IH; [exact H2|intros []].
    + apply IH; [exact H2|]. apply nul_free_app. split; [exact Hc|]. apply nul_free_cons. split; [exact H1|intros []].
Qed.
Definition start : gen := fst (tset tinit [] (Some [])).
Lemma load_eq s : lf_end s -> nul_free s -> load s = let! (b, st) := tw s ([], start) in let! (_, g) := at_eof (S (length b)) b st in Ok g.
Proof.
  intros H Z. unfold load. fold start. rewrite read_lines_tw.
  - rewrite lines_of_cat; [reflexivity|exact H|reflexivity].
  - apply lines_of_nul; [exact Z|intros []].
  - left; reflexivity.
  - intros _. apply tw_seps. constructor.
Qed.
Lemma eof_done b st : b = [] \/ b = [newline] -> at_eof (S (length b)) b st = Ok st.
Proof. intros [->| ->]; [reflexivity|]. cbn [at_eof length]. change (take_words 2 [newline] st) with (tw [newline] st). rewrite tw_seps by (repeat constructor). reflexivity. Qed.

(** * Lines *)
Lemma drop_space_app a b : drop_space (a ++ b) = match drop_space a with [] => drop_space b | x => x ++ b end.
Proof. induction a as [|c a IH]; cbn [app drop_space]; [reflexivity|]. destruct (isspace c); [exact IH|reflexivity]. Qed.
Lemma drop_space_white a : Forall (fun c => isspace c = true) a -> drop_space a = [].
Proof. induction 1 as [|c a Hc _ IH]; cbn; [reflexivity|]. rewrite Hc. exact IH. Qed.
Lemma drop_space_head s : ~ white_start s -> drop_space s = s.
Proof. rewrite white_start_iff. destruct s as [|c s]; [reflexivity|]. cbn. destruct (isspace c); [congruence|reflexivity]. Qed.
Lemma drop_space_idem s : drop_space (drop_space s) = drop_space s.
Proof. induction s as [|c s IH]; [reflexivity|]. cbn. destruct (isspace c) eqn:E; [exact IH|]. cbn. rewrite E. reflexivity. Qed.
Lemma rev_white s : white_end s <-> white_start (rev s).
Proof.
  split.
  - intros (r & c & -> & H). exists c, (rev r). rewrite rev_app_distr. auto.
  - intros (c & r & E & H). exists (rev r), c. apply (f_equal (@rev _)) in E. rewrite rev_involutive in E. auto.
Qed.
Lemma rtrim_app a b : ~ white_end a -> rtrim (a ++ b) = a ++ rtrim b.
Proof.
  intros H. unfold rtrim. rewrite rev_app_distr, drop_space_app. destruct (drop_space (rev b)) as [|c x] eqn:E.
  - rewrite drop_space_head; [|rewrite <- rev_white; exact H]. rewrite rev_involutive, app_nil_r. reflexivity.
  - rewrite rev_app_distr, rev_involutive. reflexivity.
Qed.
Lemma rtrim_idem s : rtrim (rtrim s) = rtrim s.
Proof. unfold rtrim. rewrite rev_involutive, drop_space_idem. reflexivity. Qed.
Lemma rtrim_white s c : isspace c = true -> rtrim (s ++ [c]) = rtrim s.
Proof. intros H. unfold rtrim. rewrite rev_app_distr. cbn. rewrite H. reflexivity. Qed.
Lemma trim_rtrim s : trim_string s = drop_space (rtrim s).
Proof. reflexivity. Qed.
Lemma drop_rtrim c s : isspace c = true -> drop_space (rtrim (c :: s)) = drop_space (rtrim s).
Proof.
  intros H. unfold rtrim. cbn [rev]. rewrite drop_space_app. destruct (drop_space (rev s)) as [|x y] eqn:E.
  - cbn. rewrite H. reflexivity.
  - rewrite rev_app_distr. cbn [rev app]. change (drop_space (c :: (rev y ++ [x]))) with (if isspace c then drop_space (rev y ++ [x]) else c :: rev y ++ [x]). rewrite H. reflexivity.
Qed.
Lemma nul_free_trim s : nul_free s -> nul_free (trim_string s).
Proof. destruct (trim_spec s) as (a & b & E & _). intros H. apply (nul_free_sub _ s); [|exact H]. intros c Hc. rewrite E. apply in_or_app. right. apply in_or_app. auto. Qed.
Lemma nul_free_rtrim s : nul_free s -> nul_free (rtrim s).
Proof.
  intros H. apply (nul_free_sub _ s); [|exact H]. intros c. unfold rtrim. rewrite <- in_rev. intros Hc. apply in_rev.
  revert Hc. generalize (rev s). intros l. induction l as [|x l IH]; cbn; [auto|]. destruct (isspace x); [auto|]. auto.
Qed.

Lemma take_ent kt vt name key sec g : kt <> [] -> ~ white_start kt -> hd nul kt <> "#" -> hd nul kt <> "[" -> hd nul kt <> """" -> lineok equals kt ->
  nul_free kt -> nul_free vt -> dec kt = Ok name -> name <> [] -> parse (Some name) = Ok key ->
  take_word (kt ++ B " = " ++ vt) (sec, g) = let! v := dec vt in Ok (sec, fst (tset g (kprepend sec key) (Some v))).
Proof.
  intros HN HW H1 H2 H3 HL HZ HV HD Hn HK. unfold take_word.
  set (y := rtrim (" " :: vt)).
  assert (W : rtrim (kt ++ B " = " ++ vt) = (kt ++ [" "]) ++ "=" :: y).
  { change (B " = " ++ vt) with ([" "; "="] ++ (" " :: vt)). rewrite app_assoc, rtrim_app.
    - rewrite <- !app_assoc. reflexivity.
    - rewrite white_end_iff. change [" "; "="] with ([" "] ++ ["="]). rewrite app_assoc, last_last. intros [_ X]. discriminate. }
  rewrite W. assert (D : drop_space ((kt ++ [" "]) ++ "=" :: y) = (kt ++ [" "]) ++ "=" :: y).
  { apply drop_space_head. rewrite white_start_iff in *. destruct kt as [|c kt]; [congruence|]. exact HW. }
  rewrite D. destruct kt as [|c k1] eqn:Ek; [congruence|]. cbn [hd] in *. cbn [app]. apply Ascii.eqb_neq in H1, H2. rewrite H1, H2. cbn [andb].
  change (c :: (k1 ++ [" "]) ++ "=" :: y) with ([] ++ ((c :: k1) ++ [" "]) ++ "=" :: y). rewrite <- !Ek in *.
  rewrite (getword_line equals [] (kt ++ [" "]) "=" y); [|reflexivity|constructor| | | | |reflexivity].
  - cbn [bind]. assert (T : trim_string (kt ++ [" "]) = trim_string kt) by (rewrite !trim_rtrim, rtrim_white by reflexivity; reflexivity).
    rewrite T, unescape_str_ok by (apply nul_free_trim, HZ). unfold dec in HD. rewrite HD. cbn [bind]. destruct name as [|nc name]; [congruence|]. rewrite HK. cbn [bind]. rewrite Ascii.eqb_refl.
    assert (T2 : trim_string y = trim_string vt). { rewrite !trim_rtrim. unfold y. rewrite rtrim_idem. apply drop_rtrim. reflexivity. }
    rewrite T2, unescape_str_ok by (apply nul_free_trim, HV). reflexivity.
  - apply lineok_app; [exact HL|reflexivity].
  - rewrite Ek. discriminate.
  - rewrite Ek. cbn. exact H3.
  - apply nul_free_app. split; [exact HZ|]. apply nul_free_cons. split; [discriminate|intros []].
Qed.
Lemma take_sec s name k sec g : nul_free s -> dec s = Ok name -> parse (Some name) = Ok k ->
  take_word ("[" :: s ++ ["]"]) (sec, g) = Ok (k, g).
Proof.
  intros HZ HD HK. unfold take_word. assert (W : rtrim ("[" :: s ++ ["]"]) = "[" :: s ++ ["]"]).
  { rewrite app_comm_cons. rewrite <- (app_nil_r (("[" :: s) ++ ["]"])) at 1. rewrite rtrim_app; [apply app_nil_r|]. rewrite white_end_iff, last_last. intros [_ X]. discriminate. }
  rewrite W. change (drop_space ("[" :: s ++ ["]"])) with ("[" :: s ++ ["]"]). cbn iota. change (Ascii.eqb "[" "#") with false. change (Ascii.eqb "[" "[") with true. cbn iota.
  rewrite app_comm_cons, last_last. change (Ascii.eqb "]" "]") with true. cbn [andb app]. rewrite removelast_snoc.
  rewrite unescape_str_ok by (apply nul_free_trim, HZ). unfold dec in HD. rewrite HD. cbn [bind]. rewrite HK. reflexivity.
Qed.
