(** Saving a tree to an .ini file and loading it again. *)
From Verif Require Import Base BaseFacts Ctype TclModel TclSpec TclProofs KeyModel KeySpec KeyProofs UrlModel UrlProofs TempModel TempSpec TreeProofs TempProofs IniModel IniSpec IniProofs IniProofs2.
Local Open Scope char_scope.
Local Open Scope list_scope.

(** * What save prints *)
Definition ktext (s : bytes) : bytes := match s with [] => B "/" | _ => txt key_nasties key_seps s end.
Definition stext (s : bytes) : bytes := txt section_nasties section_seps s.
Definition vtext (v : bytes) : bytes := txt WVTCL_NASTY_SPACES value_seps v.
Inductive item := Sec (k : key) | Ent (k : key) (v : bytes).
Definition blocks (i : item) : list bytes :=
  match i with
  | Sec k => [newline :: B "["; stext (printable k); B "]" ++ [newline]]
  | Ent k v => [ktext (printable k); B " = "; vtext v; [newline]]
  end.
Definition print_items (l : list item) : list bytes := flat_map blocks l.
Lemma txt_cases n seps s : nul_free s -> (if absolutely_needs_escape s seps then escape_str n s else Ok s) = Ok (txt n seps s).
Proof. intros H. unfold txt. destruct (absolutely_needs_escape s seps); [apply escape_str_ok, H|reflexivity]. Qed.
Lemma printsection_ok k : nul_free (printable k) -> printsection k = Ok (blocks (Sec k)).
Proof. intros H. unfold printsection. rewrite txt_cases by exact H. reflexivity. Qed.
Lemma printkey_ok k v : nul_free (printable k) -> nul_free v -> printkey k v = Ok (blocks (Ent k v)).
Proof.
  intros H Hv. unfold printkey. rewrite txt_cases by exact Hv. cbn [blocks]. destruct (printable k) as [|c s] eqn:E.
  - reflexivity.
  - pose proof (txt_cases key_nasties key_seps (c :: s) H) as T. rewrite T. reflexivity.
Qed.
Lemma path_printable k : printable k = path k.
Proof. unfold printable. destruct k as [|s [|t k]]; reflexivity. Qed.
Lemma plain_printable k : Forall plain k -> nul_free (printable k).
Proof.
  rewrite path_printable. intros H. induction H as [|s k Ps _ IH]; [intros []|]. cbn [path]. destruct k as [|t k]; [apply plain_nulf, Ps|].
  apply nul_free_app. split; [apply plain_nulf, Ps|]. apply nul_free_cons. split; [discriminate|exact IH].
Qed.
Lemma plain_path k : Forall plain k -> k <> [] -> path k <> [].
Proof. intros H N. destruct H as [|s k [Ns _] _]; [congruence|]. cbn. destruct k; [exact Ns|]. destruct s; discriminate. Qed.

(** The entries of a tree, in the order they are printed *)
Definition entry := (key * bytes)%type.
Definition own (k : key) (v : bytes) : list entry := match v with [] => [] | _ => [(k, v)] end.
Fixpoint below (rel : key) (t : tree bytes) : list entry :=
  match t with Node k v ch => own (rel ++ [k]) v ++ flat_map (below (rel ++ [k])) ch end.
Definition deep (c : tree bytes) : list entry := flat_map (below []) (tch c).
Definition level (t : tree bytes) : list entry := flat_map (fun c => own [tkey c] (tval c)) (tch t).
Definition ents (es : list entry) : list item := map (fun e => Ent (fst e) (snd e)) es.
Definition some {A} (l : list A) : bool := match l with [] => false | _ => true end.
Definition sect (top : key) (printed : bool) (es : list entry) : list item := (if printed || negb (some es) then [] else [Sec top]) ++ ents es.
Definition items (t : tree bytes) : list item :=
  ents (own [] (tval t)) ++ sect [] false (level t) ++ flat_map (fun c => sect [tkey c] false (deep c)) (tch t).
Lemma sect_app top p a b : sect top p (a ++ b) = sect top p a ++ sect top (p || some a) b.
Proof.
  unfold sect, ents. rewrite map_app. destruct a as [|x a]; cbn [app some negb map].
  - rewrite orb_true_r, orb_false_r. cbn. destruct p; reflexivity.
  - rewrite orb_true_r. cbn. destruct p; reflexivity.
Qed.
Lemma some_app {A} (a b : list A) : some (a ++ b) = some a || some b.
Proof. destruct a; reflexivity. Qed.

(** All nodes of a tree have usable keys and values. *)
Inductive fine : tree bytes -> Prop := Fine k v ch : plain k -> nul_free v -> Forall fine ch -> fine (Node k v ch).
Lemma each_sect {A} (f : A -> bool -> res (list bytes * bool)) (e : A -> list entry) top l :
  Forall (fun x => forall p, f x p = Ok (print_items (sect top p (e x)), p || some (e x))) l ->
  forall p, each f l p = Ok (print_items (sect top p (flat_map e l)), p || some (flat_map e l)).
Proof.
  induction 1 as [|x l Hx _ IH]; intros p; cbn [each flat_map].
  - unfold sect. cbn. rewrite orb_true_r, orb_false_r. reflexivity.
  - rewrite Hx. cbn [bind]. fold (each f). rewrite IH. cbn [bind]. rewrite sect_app, some_app, orb_assoc. unfold print_items. rewrite flat_map_app. reflexivity.
Qed.
Lemma own_ok top rel k v printed : Forall plain top -> Forall plain rel -> plain k -> nul_free v ->
  match v with
  | [] => Ok ([], printed)
  | _ => let! o := if printed : bool then Ok [] else printsection top in
         let! o' := printkey (rel ++ [k]) v in Ok (o ++ o', true)
  end = Ok (print_items (sect top printed (own (rel ++ [k]) v)), printed || some (own (rel ++ [k]) v)).
Proof.
  intros Pt Pr Pk Hv. assert (P : Forall plain (rel ++ [k])) by (apply Forall_app; auto).
  unfold own, sect. destruct v as [|c v]; [cbn; rewrite orb_true_r, orb_false_r; reflexivity|].
  rewrite printkey_ok; [|apply plain_printable, P|exact Hv]. cbn [some negb]. rewrite orb_false_r, orb_true_r. destruct printed; cbn [bind].
  - reflexivity.
  - rewrite printsection_ok by apply plain_printable, Pt. reflexivity.
Qed.
Lemma save_node_ok top t : Forall plain top -> fine t -> forall rel p, Forall plain rel ->
  save_node top rel true t p = Ok (print_items (sect top p (below rel t)), p || some (below rel t)).
Proof.
  intros Pt. induction t as [k v ch IH] using tree_ind2. intros F rel p Pr. inversion F as [k0 v0 ch0 Pk Hv Fch]; subst. cbn [save_node below].
  rewrite own_ok by assumption. cbn [bind].
  rewrite (each_sect _ (below (rel ++ [k])) top).
  - cbn [bind]. rewrite sect_app, some_app, orb_assoc. unfold print_items. rewrite flat_map_app. reflexivity.
  - rewrite Forall_forall in IH, Fch. rewrite Forall_forall. intros x Hx q. apply IH; auto. apply Forall_app. auto.
Qed.
Lemma save_ok t : nul_free (tval t) -> tkey t = [] -> Forall fine (tch t) -> save (Some t) = Ok (print_items (items t)).
Proof.
  intros Hv Hk F. unfold save, items. rewrite Hk. cbn [collapse].
  assert (E1 : match tval t with [] => Ok [] | v => printkey [] v end = Ok (print_items (ents (own [] (tval t))))).
  { destruct (tval t) as [|c v] eqn:E; [reflexivity|]. rewrite printkey_ok; [|intros []|exact Hv]. reflexivity. }
  rewrite E1. cbn [bind]. unfold save_sect at 1.
  rewrite (each_sect _ (fun c : tree bytes => own [tkey c] (tval c)) []).
  2: { rewrite Forall_forall in *. intros x Hx p. specialize (F x Hx). destruct F as [k v ch Pk Hv' _]. cbn [save_node tkey tval]. rewrite own_ok; auto. }
  cbn [bind]. fold (level t).
  assert (E3 : forall l, Forall fine l -> forall p, exists q, each (fun c _ => save_sect [tkey c] [] true c false) l p = Ok (print_items (flat_map (fun c : tree bytes => sect [tkey c] false (deep c)) l), q)).
  { induction 1 as [|x l Hx _ IH]; intros p; cbn [each flat_map]; [exists p; reflexivity|]. destruct Hx as [k v ch Pk Hv' Fch]. unfold save_sect at 1.
    rewrite (each_sect _ (below []) [k]).
    - cbn [bind tkey]. fold (each (fun c _ => save_sect [tkey c] [] true c false)). destruct (IH (false || some (flat_map (below []) ch))) as [q Eq]. cbn [tch]. rewrite Eq. cbn [bind]. exists q.
      unfold print_items. rewrite flat_map_app. reflexivity.
    - cbn [tch tkey]. rewrite Forall_forall in *. intros x Hx p'. apply save_node_ok; auto. }
  destruct (E3 (tch t) F false) as [q Eq]. rewrite Eq. cbn [bind]. unfold print_items. rewrite !flat_map_app. reflexivity.
Qed.

(** * What load makes of it *)
Definition D (v : bytes) : bytes := match dec (vtext v) with Ok x => x | _ => [] end.
Definition istep (st : pstate) (i : item) : pstate :=
  match i with
  | Sec k => (k, snd st)
  | Ent k v => (fst st, fst (tset (snd st) (kprepend (fst st) k) (Some (D v))))
  end.
Definition sec_ok (k : key) : Prop := k = [] \/ exists s, k = [s] /\ plain s /\ good_section s.
Definition name_ok (k : key) : Prop := Forall plain k /\ (k = [] \/ good_name (path k)).
Definition item_ok (i : item) : Prop :=
  match i with
  | Sec k => sec_ok k
  | Ent k v => name_ok k /\ v <> [] /\ nul_free v /\ harmless v
  end.

Lemma nasty_key c : mset key_nasties c = true <-> among [CR; newline; TAB; " "; "["; "]"; "="; "#"] c.
Proof. apply mset_list. Qed.
Lemma nasty_section c : mset section_nasties c = true <-> among [CR; newline; "["; "]"] c.
Proof. apply mset_list. Qed.
Lemma nasty_value c : mset WVTCL_NASTY_SPACES c = true <-> among [" "; TAB; newline; CR] c.
Proof. apply mset_list. Qed.
Lemma line_end_list c : line_end c <-> In c value_seps.
Proof. reflexivity. Qed.
Lemma nl_line_end c : mset NL c = true -> line_end c.
Proof. intros H. apply (proj1 (mset_list _ newline c)) in H. unfold line_end, among. cbn in *. tauto. Qed.

Lemma key_text s : s <> [] -> nul_free s -> good_name s ->
  dec (ktext s) = Ok s /\ lineok NL (ktext s) /\ lineok equals (ktext s).
Proof.
  intros N Z G. unfold ktext. destruct s as [|c s]; [congruence|]. unfold good_name in G.
  apply (storable_back key_nasties key_seps _ _ _ _ N nasty_key (fun c => iff_refl _)) in G. destruct G as [G C]. split; [exact G|]. split.
  - refine (lineok_txt _ _ _ _ _ _ use_key_nl (fun c => iff_refl _) _ _ C).
    + intros x Hx. apply nl_line_end in Hx. unfold line_end, among in *. cbn in *. tauto.
    + exists [CR; newline; "="]. reflexivity.
  - refine (lineok_txt _ _ _ _ _ _ use_key_eq (fun c => iff_refl _) _ _ C).
    + intros x Hx. apply (proj1 (mset_list _ "=" x)) in Hx. unfold among. cbn in *. tauto.
    + exists [CR; newline; "="]. reflexivity.
Qed.
Lemma needs_head c s seps : absolutely_needs_escape (c :: s) seps = false -> isspace c = false /\ ~ In c seps.
Proof.
  unfold absolutely_needs_escape. destruct (isspace c); [discriminate|]. cbn [needs_loop negb andb Z.eqb]. destruct (in_set seps c) eqn:E; [discriminate|].
  intros _. split; [reflexivity|]. rewrite <- in_set_iff. congruence.
Qed.
Lemma key_head s : s <> [] -> dec (ktext s) = Ok s ->
  ktext s <> [] /\ ~ white_start (ktext s) /\ hd nul (ktext s) <> "#" /\ hd nul (ktext s) <> "[" /\ hd nul (ktext s) <> """".
Proof.
  intros N HD. unfold ktext in *. destruct s as [|c s]; [congruence|]. unfold dec, txt in *. destruct (absolutely_needs_escape (c :: s) key_seps) eqn:E.
  - apply (quoted_back key_nasties _ nasty_key _ N) in HD. pose proof (mode_case key_nasties _ nasty_key (c :: s)) as M.
    assert (W : forall e, (esc_pure key_nasties (c :: s) = e) -> white_start e -> white c /\ esc_mode (esc_scan key_nasties (c :: s)) <> Embrace /\ ~ among [CR; newline; TAB; " "; "["; "]"; "="; "#"] c).
    { intros e <- He. unfold esc_pure in He. destruct (esc_mode (esc_scan key_nasties (c :: s))).
      - destruct He as (x & r & Ex & Hw). injection Ex as <- <-. split; [exact Hw|]. split; [discriminate|]. apply M. left. reflexivity.
      - apply (backslash_white_start _ _ nasty_key) in He. destruct He as (x & r & Ex & Hw & Hn). injection Ex as <- <-. split; [exact Hw|]. split; [discriminate|exact Hn].
      - rewrite white_start_iff in He. discriminate. }
    assert (HW : ~ white_start (esc_pure key_nasties (c :: s))).
    { intros H. destruct (W _ eq_refl H) as (Hw & Hm & Hn). destruct HD as [[Hb He]|[_ Hx]].
      - destruct (esc_mode _) eqn:Em; [|tauto|congruence]. destruct He as (x & Hx & Hs). apply M in Hx. tauto.
      - apply Hn, (Hx c s eq_refl Hw). }
    split; [|split; [exact HW|]]; unfold esc_pure; destruct (esc_mode _) eqn:Em; try discriminate.
    + cbn [backslash_out]. destruct (doit _ c); discriminate.
    + cbn [hd]. destruct (M c (or_introl eq_refl)) as [H1 H2]. unfold special, among in *. cbn in H2. repeat split; intros ->; tauto.
    + cbn [backslash_out]. destruct (doit key_nasties c) eqn:Ed; cbn [app hd]; [repeat split; discriminate|].
      assert (Hn : ~ (special c \/ among [CR; newline; TAB; " "; "["; "]"; "="; "#"] c)). { intros H. apply (doit_iff _ _ nasty_key) in H. congruence. }
      unfold special, among in Hn. cbn in Hn. repeat split; intros ->; tauto.
    + cbn. repeat split; discriminate.
  - apply needs_head in E. destruct E as [E1 E2]. split; [discriminate|]. split; [rewrite white_start_iff; congruence|]. cbn [hd]. unfold key_seps in E2. cbn in E2. repeat split; intros ->; tauto.
Qed.
Lemma txt_nul n seps s : nul_free s -> nul_free (txt n seps s).
Proof. intros H. unfold txt. destruct (absolutely_needs_escape s seps); [apply esc_pure_nul_free, H|exact H]. Qed.

Lemma harmless_value v : v <> [] -> nul_free v -> harmless v -> lineok NL (vtext v) /\ exists x, dec (vtext v) = Ok x.
Proof.
  intros N Z [C Q]. split.
  - refine (lineok_txt _ _ _ _ _ _ use_value_nl line_end_list _ _ C); [exact nl_line_end|]. exists [CR; newline]. reflexivity.
  - unfold dec. assert (H : trim_string (vtext v) <> [""""]).
    { unfold vtext, txt. destruct (absolutely_needs_escape v value_seps) eqn:E; intros T.
      - destruct (trim_spec (esc_pure WVTCL_NASTY_SPACES v)) as (a & b & Ee & F & _). rewrite T in Ee. apply Forall_app in F. destruct F as [Fa Fb].
        pose proof (mode_case WVTCL_NASTY_SPACES _ nasty_value v) as M. unfold esc_pure in Ee. destruct v as [|c v]; [congruence|]. destruct (esc_mode _).
        + destruct (M """"); [rewrite Ee; apply in_or_app; right; left; reflexivity|]. apply H. unfold special. auto.
        + destruct (backslash_white_prefix _ a _ _ Ee Fa) as (s' & Es & Eb). destruct s' as [|x s']; [discriminate|]. cbn [backslash_out] in Eb.
          destruct (doit WVTCL_NASTY_SPACES x) eqn:Ed; injection Eb as Ex _; [discriminate|]. subst x. discriminate.
        + destruct a as [|x a]; [discriminate|]. injection Ee as <- _. apply Forall_inv in Fa. discriminate.
      - destruct (trim_spec v) as (a & b & Ee & F & _). rewrite T in Ee. apply Forall_app in F. destruct F as [Fa Fb].
        destruct a as [|x a].
        + destruct b as [|y b]; [apply Q, Ee|]. assert (Hq : quoted line_end v); [|apply (needs_quoted _ _ _ line_end_list) in Hq; congruence].
          right; right. exists false, 0. split.
          * apply strict_scan. rewrite Ee. cbn [app scan]. assert (S1 : forall l, Forall (fun c => isspace c = true) l -> scan nostop false (false, 0) l = Some (false, 0)).
            { clear. induction 1 as [|c l Hc _ IH]; [reflexivity|]. cbn [scan]. unfold sstep, nostop. rewrite andb_false_r. destruct (Ascii.eqb_spec c "\"); [subst; discriminate|].
              destruct (Ascii.eqb_spec c "{"); [subst; discriminate|]. destruct (Ascii.eqb_spec c "}"); [subst; discriminate|]. exact IH. }
            apply (S1 (y :: b) Fb).
          * right; right. rewrite white_end_iff. split; [exact N|]. rewrite Ee. cbn [app]. destruct (exists_last (l := y :: b) ltac:(discriminate)) as (q & z & Eq). rewrite Eq in *.
            change ("""" :: q ++ [z]) with (("""" :: q) ++ [z]). rewrite last_last. apply Forall_app in Fb. destruct Fb as [_ Fb]. apply (Forall_inv Fb).
        + rewrite Ee in E. cbn [app] in E. apply needs_head in E. apply Forall_inv in Fa. destruct E; congruence. }
    destruct (trim_string (vtext v)) as [|c r] eqn:E; [exists []; reflexivity|]. unfold unescape_emit. destruct (_ && _); [eauto|]. destruct (_ && _) eqn:Eq; [|eauto].
    destruct r; [|eauto]. apply andb_true_iff in Eq. destruct Eq as [Eq _]. apply Ascii.eqb_eq in Eq. congruence.
Qed.

Lemma parse_path k : Forall plain k -> parse (Some (path k)) = Ok k.
Proof. intros H. rewrite <- path_printable. apply parse_print. left. exact H. Qed.
Lemma take_item_ent k v sec g : name_ok k -> v <> [] -> nul_free v -> harmless v -> take_word (ktext (path k) ++ B " = " ++ vtext v) (sec, g) = Ok (istep (sec, g) (Ent k v)) /\
  lineok NL (ktext (path k) ++ B " = " ++ vtext v) /\ ktext (path k) <> [] /\ hd nul (ktext (path k)) <> """" /\ nul_free (ktext (path k)).
Proof.
  intros [P H] N Z Hv. destruct (harmless_value v N Z Hv) as [L [x Ex]]. cbn [istep fst snd]. unfold D. rewrite Ex.
  assert (Hz : nul_free (path k)) by (rewrite <- path_printable; apply plain_printable, P).
  assert (LL : forall a, lineok NL a -> lineok NL (a ++ B " = " ++ vtext v)). { intros a Ha. apply lineok_app; [exact Ha|]. apply lineok_app; [reflexivity|exact L]. }
  destruct k as [|s k].
  - cbn [path ktext]. split; [|split; [apply LL; reflexivity|split; [discriminate|split; [discriminate|]]]].
    + rewrite (take_ent (B "/") (vtext v) (B "/") []); try discriminate; try reflexivity.
      * rewrite Ex. reflexivity.
      * rewrite white_start_iff. discriminate.
      * unfold nul_free; cbn; intuition discriminate.
      * apply txt_nul, Z.
    + unfold nul_free; cbn; intuition discriminate.
  - destruct H as [H|H]; [discriminate|]. pose proof (plain_path _ P ltac:(discriminate)) as Np. destruct (key_text _ Np Hz H) as (K1 & K2 & K3). destruct (key_head _ Np K1) as (K4 & K5 & K6 & K7 & K8).
    assert (Kz : nul_free (ktext (path (s :: k)))) by (unfold ktext; destruct (path (s :: k)); [congruence|apply txt_nul, Hz]).
    split; [|auto]. rewrite (take_ent _ _ (path (s :: k)) (s :: k)); auto; [rewrite Ex; reflexivity|apply txt_nul, Z|apply parse_path, P].
Qed.
Lemma take_item_sec k sec g : sec_ok k -> take_word ("[" :: stext (path k) ++ ["]"]) (sec, g) = Ok (k, g) /\ lineok NL ("[" :: stext (path k) ++ ["]"]) /\ nul_free ("[" :: stext (path k) ++ ["]"]).
Proof.
  intros [->|(s & -> & Ps & G)].
  - cbn [path]. change (stext []) with (@nil byte). split; [apply (take_sec [] []); [intros []|reflexivity|reflexivity]|]. split; [reflexivity|]. unfold nul_free; cbn; intuition discriminate.
  - cbn [path]. pose proof Ps as [Ns [_ Z]]. unfold good_section in G. apply (storable_back section_nasties section_seps _ _ _ _ Ns nasty_section (fun c => iff_refl _)) in G. destruct G as [G C].
    assert (Z' : nul_free (stext s)) by apply txt_nul, Z.
    split; [apply (take_sec _ s); [exact Z'|exact G|apply (parse_path [s]); auto]|]. split.
    + change ("[" :: stext s ++ ["]"]) with (["["] ++ stext s ++ ["]"]). apply lineok_app; [reflexivity|]. apply lineok_app; [|reflexivity].
      refine (lineok_txt _ _ _ _ _ _ use_section_nl (fun c => iff_refl _) _ _ C); [exact nl_line_end|]. exists [CR; newline]. reflexivity.
    + apply nul_free_cons. split; [discriminate|]. apply nul_free_app. split; [exact Z'|]. unfold nul_free; cbn; intuition discriminate.
Qed.
Definition text (l : list item) : bytes := concat (print_items l).
Lemma text_cons i l : text (i :: l) = concat (blocks i) ++ text l.
Proof. unfold text, print_items. cbn [flat_map]. apply concat_app. Qed.
Lemma tw_items l : Forall item_ok l -> forall pre st, pre = [] \/ pre = [newline] ->
  exists b, (b = [] \/ b = [newline]) /\ tw (pre ++ text l) st = Ok (b, fold_left istep l st).
Proof.
  induction 1 as [|i l Hi _ IH]; intros pre st Hp.
  - exists pre. split; [exact Hp|]. cbn. rewrite app_nil_r. apply tw_seps. destruct Hp as [->| ->]; repeat constructor.
  - rewrite text_cons. cbn [fold_left]. destruct st as [sec g]. destruct (IH [newline] (istep (sec, g) i) (or_intror eq_refl)) as (b & Hb & E). exists b. split; [exact Hb|]. rewrite <- E. clear E IH.
    assert (Fp : Forall (fun c => mset NL c = true) pre) by (destruct Hp as [->| ->]; repeat constructor). destruct i as [k|k v]; cbn [item_ok] in Hi.
    + destruct (take_item_sec k sec g Hi) as (T1 & T2 & T3). cbn [blocks concat]. rewrite path_printable.
      replace (pre ++ ((newline :: B "[") ++ stext (path k) ++ (B "]" ++ [newline]) ++ []) ++ text l) with ((pre ++ [newline]) ++ ("[" :: stext (path k) ++ ["]"]) ++ newline :: text l) by (cbn; rewrite <- !app_assoc; reflexivity).
      rewrite tw_line; [rewrite T1; reflexivity|apply Forall_app; split; [exact Fp|repeat constructor]|exact T2|discriminate|discriminate|exact T3].
    + destruct Hi as (Hk & Nv & Zv & Hv). destruct (take_item_ent k v sec g Hk Nv Zv Hv) as (T1 & T2 & T3 & T4 & T5). cbn [blocks concat]. rewrite path_printable.
      replace (pre ++ (ktext (path k) ++ B " = " ++ vtext v ++ [newline] ++ []) ++ text l) with (pre ++ (ktext (path k) ++ B " = " ++ vtext v) ++ newline :: text l) by (cbn; rewrite <- !app_assoc; cbn; rewrite <- !app_assoc; reflexivity).
      rewrite tw_line; [rewrite T1; reflexivity|exact Fp|exact T2| | |].
      * destruct (ktext (path k)); [congruence|discriminate].
      * destruct (ktext (path k)); [congruence|exact T4].
      * apply nul_free_app. split; [exact T5|]. apply nul_free_app. split; [unfold nul_free; cbn; intuition discriminate|apply txt_nul, Zv].
Qed.
Lemma text_lf l : lf_end (text l).
Proof.
  induction l as [|i l IH]; [left; reflexivity|]. rewrite text_cons. apply lf_end_app; [|exact IH]. right. destruct i as [k|k v]; cbn [blocks concat].
  - exists ((newline :: B "[") ++ stext (printable k) ++ B "]"). rewrite app_nil_r, <- !app_assoc. reflexivity.
  - exists (ktext (printable k) ++ B " = " ++ vtext v). rewrite app_nil_r, <- !app_assoc. reflexivity.
Qed.
Lemma ktext_nul s : nul_free s -> nul_free (ktext s).
Proof. intros H. unfold ktext. destruct s; [unfold nul_free; cbn; intuition discriminate|apply txt_nul, H]. Qed.
Lemma text_nul l : Forall item_ok l -> nul_free (text l).
Proof.
  induction 1 as [|i l Hi _ IH]; [intros []|]. rewrite text_cons. apply nul_free_app. split; [|exact IH]. destruct i as [k|k v]; cbn [blocks concat item_ok] in *; rewrite path_printable.
  - destruct (take_item_sec k [] tinit Hi) as (_ & _ & T). replace ((newline :: B "[") ++ stext (path k) ++ (B "]" ++ [newline]) ++ []) with (newline :: ("[" :: stext (path k) ++ ["]"]) ++ [newline]) by (cbn; rewrite <- app_assoc; reflexivity).
    apply nul_free_cons. split; [discriminate|]. apply nul_free_app. split; [exact T|]. unfold nul_free; cbn; intuition discriminate.
  - destruct Hi as ([P _] & _ & Z & _). repeat (apply nul_free_app; split); try (unfold nul_free; cbn; intuition discriminate); [|apply txt_nul, Z].
    apply ktext_nul. rewrite <- path_printable. apply plain_printable, P.
Qed.
Lemma load_items l : Forall item_ok l -> load (text l) = Ok (snd (fold_left istep l ([], start))).
Proof.
  intros H. rewrite load_eq; [|apply text_lf|apply text_nul, H]. destruct (tw_items l H [] ([], start) (or_introl eq_refl)) as (b & Hb & E). cbn [app] in E. rewrite E. cbn [bind].
  rewrite eof_done by exact Hb. cbn [bind]. destruct (fold_left istep l ([], start)). reflexivity.
Qed.
