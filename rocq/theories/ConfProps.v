(** C71, C72: WvConf. *)
From Verif Require Import Base BaseFacts Ctype UrlModel IniModel IniSpec IniProofs2 KeySpec IntFmtModel DecSpec IntFmtProofs IntFmtProps ConfModel ConfSpec ConfProofs ConfProofs2 ConfProofs3.
Local Open Scope nat_scope.

(** get() always ends, and answers what the section, or one that it inherits from, or the global
    section says, even if the sections inherit from one another in a circle. *)
Theorem C71_get c s e def a : get c s e def = Ok a <-> answer c s e def a.
Proof.
  destruct (get_answer c s e def) as (b & E & A). split; intros H.
  - rewrite E in H. inversion H; subst. exact A.
  - rewrite E. f_equal. eapply answer_fun; eauto.
Qed.
Theorem C71_get_ends c s e def : exists a, get c s e def = Ok a.
Proof. destruct (get_answer c s e def) as (b & E & A). eauto. Qed.
(** After set() the section says the value, and get() gives it; what any section says of any
    other entry is as before. *)
Theorem C71_set c s e v c' calls : conf_set c s e (Some v) = (c', calls) -> v <> [] -> ~ white_end e ->
  says c' s e v /\ (forall def, get c' s e def = Ok (Some v)) /\ glob c' = glob c /\
  forall s' e' w, ~ (same_text s s' /\ same_text e e') -> (says c' s' e' w <-> says c s' e' w) /\ (silent c' s' e' <-> silent c s' e').
Proof.
  intros H V W. pose proof (conf_set_own c s e v c' calls H V W) as O.
  assert (S : says c' s e v) by (apply own_says; rewrite O, !same_refl; reflexivity).
  split; [exact S|]. split; [intros def; apply C71_get; left; exists v; split; [apply I_here, S|reflexivity]|]. split.
  - unfold conf_set in H. destruct (find_sect (sects c) s); [destruct (exact _ _)|destruct (empty v); [|destruct (exact _ _)]]; inversion H; reflexivity.
  - intros s' e' w N. rewrite <- !own_says, <- !own_silent. rewrite O.
    assert (X : same s s' && same e e' = false).
    { destruct (same s s') eqn:E1; [|reflexivity]. destruct (same e e') eqn:E2; [|reflexivity]. apply same_iff in E1, E2. destruct N. auto. }
    rewrite X. tauto.
Qed.
(** Setting an entry to nothing removes it, if the section has it only once. *)
Theorem C71_remove_partial c s e value c' calls : conf_set c s e value = (c', calls) -> value = None \/ value = Some [] -> ~ white_end e ->
  (forall x, first_of (sects c) s x -> forall a y b z d, snd x = a ++ y :: b ++ z :: d -> ~ same_text (fst y) (fst z)) ->
  (silent c' s e \/ says c' s e []) /\
  forall s' e' w, ~ (same_text s s' /\ same_text e e') -> (says c' s' e' w <-> says c s' e' w) /\ (silent c' s' e' <-> silent c s' e').
Proof.
  intros H V W D. split.
  - rewrite <- own_says, <- own_silent. apply (conf_del_gone c s e value c' calls H V W). intros x F. apply find_sect_first in F. exact (D x F).
  - intros s' e' w N. rewrite <- !own_says, <- !own_silent. rewrite (conf_del_own c s e value c' calls H V W s' e'); [tauto|].
    destruct (same s s') eqn:E1; [|reflexivity]. destruct (same e e') eqn:E2; [|reflexivity]. apply same_iff in E1, E2. destruct N. auto.
Qed.
(** A file may give an entry twice: then setting it to nothing uncovers the second one. *)
Theorem C71_remove_refuted : exists f s e, let c := new_conf (Text f) in let (c', _) := conf_set c s e None in get c' s e None = Ok (Some (B "2")).
Proof. exists (B "[s]" ++ [newline] ++ B "e = 1" ++ [newline] ++ B "e = 2" ++ [newline]), (B "s"), (B "e"). vm_compute. reflexivity. Qed.
(** An entry given with white space behind it is set, but cannot be removed. *)
Theorem C71_remove_white_refuted : exists c s e, let (c1, _) := conf_set c s e (Some (B "1")) in let (c2, _) := conf_set c1 s e None in
  get c2 s (B "e") None = Ok (Some (B "1")) /\ e = B "e ".
Proof. exists (new_conf Absent), (B "s"), (B "e "). vm_compute. auto. Qed.
Theorem C71_maybeset c s e v : v <> [] -> ~ white_end e -> exists c' calls, maybeset c s e (Some v) = Ok (c', calls) /\
  ((exists w, answer c s e None (Some w) /\ c' = c /\ calls = []) \/ answer c s e None None /\ forall def, get c' s e def = Ok (Some v)).
Proof.
  intros V W. unfold maybeset. destruct (get_answer c s e None) as (a & E & A). rewrite E. cbn [bind]. destruct a as [w|].
  - exists c, []. split; [reflexivity|]. left. exists w. auto.
  - destruct (conf_set c s e (Some v)) as [c' calls] eqn:S. exists c', calls. split; [reflexivity|]. right. split; [exact A|]. apply (C71_set c s e v c' calls S V W).
Qed.
Lemma decimal_word i s w : is_signed_decimal i s -> match w with c :: _ => isalpha c = true | [] => False end -> same s w = false /\ same (firstn 2 s) w = false.
Proof.
  intros D A. destruct w as [|d w]; [destruct A|].
  assert (X : exists c r, s = c :: r /\ tolower c = c /\ isalpha c = false).
  { unfold is_signed_decimal in D. destruct (i <? 0)%Z.
    - destruct D as (t & -> & _). eexists _, _. split; [reflexivity|]. vm_compute. auto.
    - destruct D as (N & F & _). destruct s as [|c r]; [congruence|]. exists c, r. split; [reflexivity|]. apply Forall_inv in F. unfold digit in F.
      unfold tolower, isalpha, isupper, islower, cc. destruct (65 <=? nat_of_ascii c) eqn:E; [apply Nat.leb_le in E; lia|]. destruct (97 <=? nat_of_ascii c) eqn:E'; [apply Nat.leb_le in E'; lia|]. auto. }
  destruct X as (c & r & -> & T & NA). cbn [firstn same]. rewrite T.
  assert (Y : Ascii.eqb c (tolower d) = false).
  { apply Ascii.eqb_neq. intros ->. unfold isalpha in A, NA. unfold tolower in NA. destruct (isupper d) eqn:U.
    - unfold isupper, islower, cc in *. apply andb_prop in U. destruct U as [U1 U2]. apply Nat.leb_le in U1, U2.
      apply orb_false_iff in NA. destruct NA as [_ NA]. rewrite nat_ascii_embedding in NA; [|lia]. apply andb_false_iff in NA. destruct NA as [NA|NA]; apply Nat.leb_gt in NA; lia.
    - rewrite U in NA. congruence. }
  rewrite Y. auto.
Qed.
(** Numbers come back. *)
Theorem C71_int c s e i def : (- 2 ^ 31 < i < 2 ^ 31)%Z -> (- 2 ^ 31 < def < 2 ^ 31)%Z -> ~ white_end e -> exists c' calls, setint c s e i = Ok (c', calls) /\ getint c' s e def = Ok i.
Proof.
  intros Hi Hd W. destruct (C18_round_trip i [] Hi I) as (t & E & R). rewrite app_nil_r in R.
  destruct (C18_signed_partial 32 i ltac:(lia)) as (t' & E' & D); [exact Hi|]. assert (t' = t) by congruence. subst t'. clear E'.
  destruct (C18_signed_partial 32 def ltac:(lia)) as (td & Ed & _); [exact Hd|].
  unfold setint. rewrite E. cbn [bind]. destruct (conf_set c s e (Some t)) as [c' calls] eqn:S. exists c', calls. split; [reflexivity|].
  assert (NE : t <> []). { unfold is_signed_decimal in D. destruct (i <? 0)%Z; [destruct D as (u & -> & _); discriminate|apply D]. }
  unfold getint. rewrite Ed. cbn [bind]. destruct (C71_set c s e t c' calls S NE W) as (_ & G & _). rewrite G. cbn [bind]. unfold bool_string.
  pose proof (fun w => decimal_word i t w D) as X.
  rewrite (proj1 (X (B "off") eq_refl)), (proj1 (X (B "false") eq_refl)), (proj2 (X (B "no") eq_refl)), (proj1 (X (B "on") eq_refl)), (proj1 (X (B "true") eq_refl)), (proj1 (X (B "yes") eq_refl)). cbn. exact R.
Qed.
(** Any word that begins with "no" is read as 0. *)
Theorem C71_words_refuted : exists f, f = B "[s]" ++ [newline] ++ B "e = North" ++ [newline] /\ getint (new_conf (Text f)) (B "s") (B "e") 5 = Ok 0%Z.
Proof. exists (B "[s]" ++ [newline] ++ B "e = North" ++ [newline]). vm_compute. auto. Qed.
(** Several sections: the first that has the entry, itself or by inheritance, decides. *)
Theorem C71_fuzzy c ss e def : exists a, fuzzy_get1 c ss e def = Ok a /\
  ((exists b s d w, ss = b ++ s :: d /\ inherits c e s w /\ (forall t, In t b -> ~ exists w, inherits c e t w) /\ a = Some w) \/
   (forall t, In t ss -> ~ exists w, inherits c e t w) /\ a = def).
Proof.
  unfold fuzzy_get1. destruct (fuzzy1_ok c e ss [] (NoDup_nil _) (incl_nil_l _) (closed_nil c e)) as (v & cache & E & P). rewrite E. cbn [bind].
  eexists. split; [reflexivity|]. destruct v as [w|]; cbn [or_else].
  - left. destruct P as (b & s & d & H1 & H2 & H3). exists b, s, d, w. auto.
  - right. auto.
Qed.
(** With several entries, those after the first are not found in a section searched already. *)
Theorem C71_fuzzy_list_refuted : exists c ss es, fuzzy_get c ss es None = Ok None /\ exists s e v, In s ss /\ In e es /\ says c s e v.
Proof.
  exists (new_conf (Text (B "[s]" ++ [newline] ++ B "b = 1" ++ [newline]))), [B "s"], [B "a"; B "b"]. split; [vm_compute; reflexivity|].
  exists (B "s"), (B "b"), (B "1"). split; [left; reflexivity|]. split; [right; left; reflexivity|]. apply own_says. vm_compute. reflexivity.
Qed.
(** set() calls exactly the callbacks for its section and entry, once each and in order, with the
    old and the new value; none if the value does not change. *)
Definition for_this (cb : callback) (s e : bytes) : Prop := (cb_sect cb = [] \/ same_text (cb_sect cb) s) /\ (cb_entry cb = [] \/ same_text (cb_entry cb) e).
Inductive called (s e old new : bytes) : list callback -> list call -> Prop :=
| Called_nil : called s e old new [] []
| Called_yes cb l k : for_this cb s e -> called s e old new l k -> called s e old new (cb :: l) ((cb_id cb, s, e, old, new) :: k)
| Called_no cb l k : ~ for_this cb s e -> called s e old new l k -> called s e old new (cb :: l) k.
Theorem C71_callbacks c s e v c' calls old : conf_set c s e (Some v) = (c', calls) -> (says c s e old \/ silent c s e /\ old = []) ->
  (old = v -> c' = c /\ calls = []) /\ (old <> v -> called s e old v (cbs c) calls) /\ cbs c' = cbs c.
Proof.
  intros H S. unfold conf_set in H.
  assert (O : match find_sect (sects c) s with Some x => match find_entry (snd x) e with Some o => o | None => [] end | None => [] end = old).
  { rewrite <- own_says, <- own_silent in S. unfold own in S. destruct (find_sect (sects c) s) as [x|]; [|destruct S as [S|[_ S]]; congruence].
    destruct (find_entry (snd x) e); destruct S as [S|[S1 S2]]; congruence. }
  assert (CC : forall l, called s e old v l (map (fun cb => (cb_id cb, s, e, old, v)) (filter (fun cb => wants cb s e) l))).
  { induction l as [|cb l IH]; cbn [filter map]; [constructor|]. assert (X : wants cb s e = true <-> for_this cb s e).
    { unfold wants, for_this. rewrite andb_true_iff, !orb_true_iff, !same_iff. assert (Y : forall t, empty t = true <-> t = []) by (intros [|]; split; auto; discriminate). rewrite !Y. tauto. }
    destruct (wants cb s e); cbn [map]; [apply Called_yes; [apply X; reflexivity|exact IH]|apply Called_no; [intros F; apply X in F; discriminate|exact IH]]. }
  assert (Same : with_sects c (sects c) (glob c) (dirty c) = c) by (destruct c; reflexivity).
  destruct (find_sect (sects c) s) as [x|] eqn:F.
  - rewrite O in H. destruct (exact old v) eqn:E.
    + apply exact_iff in E. inversion H; subst c' calls. rewrite Same. split; [auto|]. split; [congruence|reflexivity].
    + inversion H; subst c' calls. split; [intros X; apply exact_iff in X; congruence|]. split; [|reflexivity]. intros _. apply CC.
  - subst old. destruct v as [|v0 v]; cbn [empty] in H.
    + inversion H; subst c' calls. split; [auto|]. split; [congruence|reflexivity].
    + rewrite find_sect_app, F in H. cbn [find_sect fst] in H. rewrite same_refl in H. cbn in H. inversion H; subst c' calls. split; [discriminate|]. split; [|reflexivity]. intros _. apply CC.
Qed.
(** The text form "[section]entry=value", with any white space around the parts. *)
Theorem C71_raw pre s e v : ~ In "["%char pre -> good_section s -> trimmed e -> ~ In "="%char e -> trimmed v ->
  parse_request (pre ++ B "[" ++ s ++ B "]" ++ e ++ B "=" ++ v) = Request s e (Some v) /\ parse_request (pre ++ B "[" ++ s ++ B "]" ++ e) = Request s e None.
Proof.
  intros P (NE & O & T & N) Te Ne Tv. unfold parse_request.
  assert (C1 : forall r, cut (pre ++ B "[" ++ r) "[" = Some (pre, r)) by (intros r; apply cut_iff; auto).
  assert (C2 : forall r, cut (s ++ B "]" ++ r) "]" = Some (s, r)) by (intros r; apply cut_iff; auto).
  rewrite !C1, !C2. assert (C3 : cut (e ++ B "=" ++ v) "=" = Some (e, v)) by (apply cut_iff; auto). assert (C4 : cut e "=" = None) by (apply cut_none; auto).
  rewrite C3, C4, !trim_trimmed; auto. destruct s; [congruence|]. cbn [empty]. auto.
Qed.
Theorem C71_setraw c pre s e v : ~ In "["%char pre -> good_section s -> trimmed e -> ~ In "="%char e -> trimmed v -> v <> [] ->
  exists c' calls, setraw c (pre ++ B "[" ++ s ++ B "]" ++ e ++ B "=" ++ v) = Ok (c', calls, Some v, 0%Z) /\ conf_set c s e (Some v) = (c', calls) /\
    getraw c' (pre ++ B "[" ++ s ++ B "]" ++ e) = Ok (Some v, 0%Z).
Proof.
  intros P G Te Ne Tv NV. destruct (C71_raw pre s e v P G Te Ne Tv) as [E1 E2]. unfold setraw, getraw. rewrite E1, E2.
  destruct (conf_set c s e (Some v)) as [c' calls] eqn:S. exists c', calls. destruct (C71_set c s e v c' calls S NV (proj2 Te)) as (_ & GG & _). rewrite !GG. auto.
Qed.

(** A circle of sections: the global section answers. *)
Definition circle : bytes := B "g = 0" ++ [newline] ++ B "[a]" ++ [newline] ++ B "Inherits = b" ++ [newline] ++ B "[B]" ++ [newline] ++ B "inherits = A" ++ [newline] ++ B "x = 1" ++ [newline].
Example C71_example : let c := new_conf (Text circle) in get c (B "A") (B "x") None = Ok (Some (B "1")) /\ get c (B "a") (B "g") None = Ok (Some (B "0")) /\ get c (B "a") (B "y") (Some (B "d")) = Ok (Some (B "d")) /\
  (let (c', calls) := conf_set (add_callback c (Cb 7 [] (B "X") 0)) (B "b") (B "x") (Some (B "2")) in get c' (B "a") (B "X") None = Ok (Some (B "2")) /\ calls = [(7, B "b", B "x", B "1", B "2")]).
Proof. vm_compute. auto. Qed.

(** C72: whatever was loaded, set and deleted, saving and loading again gives the same
    sections and entries, in the same order. *)
Theorem C72_saved f l c : Forall good_op l -> c = run (new_conf f) l -> same_contents (new_conf (Text (save_text c))) c.
Proof. intros G ->. apply new_reload, run_kept; [apply kept_new|exact G]. Qed.
(** In particular for a file that was only loaded, whatever it holds. *)
Theorem C72_stable f : let c := new_conf (Text f) in same_contents (new_conf (Text (save_text c))) c /\ save_text (new_conf (Text (save_text c))) = save_text c.
Proof.
  intros c. assert (S : same_contents (new_conf (Text (save_text c))) c) by (apply (C72_saved (Text f) [] c); [constructor|reflexivity]). split; [exact S|].
  destruct S as [S1 S2]. unfold save_text at 1 3. rewrite S1, S2. reflexivity.
Qed.
(** The conditions are needed: an empty section name becomes the global section, white space
    around values is lost, and an entry may be read as a section. *)
Theorem C72_names_refuted : (exists s e v, let (c, _) := conf_set (new_conf Absent) s e (Some v) in ~ same_contents (new_conf (Text (save_text c))) c /\ s = []) /\
  (exists s e v, let (c, _) := conf_set (new_conf Absent) s e (Some v) in ~ same_contents (new_conf (Text (save_text c))) c /\ v = B " v") /\
  (exists s e v, let (c, _) := conf_set (new_conf Absent) s e (Some v) in ~ same_contents (new_conf (Text (save_text c))) c /\ e = B "[e" /\ v = B "v]").
Proof.
  split; [|split].
  - exists [], (B "e"), (B "v"). vm_compute. split; [intros [H _]; discriminate|auto].
  - exists (B "s"), (B "e"), (B " v"). vm_compute. split; [intros [H _]; discriminate|auto].
  - exists (B "s"), (B "[e"), (B "v]"). vm_compute. split; [intros [H _]; discriminate|auto].
Qed.

(** Flushing: whatever was set and deleted, the file then gives the same sections and entries. *)
Definition change (o : op) : Prop := match o with Load _ => False | _ => True end.
Lemma step_clean c o : change o -> dirty (fst (step c o)) = false -> dirty c = false /\ sects (fst (step c o)) = sects c /\ glob (fst (step c o)) = glob c.
Proof.
  destruct o as [f|s e v|s|cb|s e k]; intros C D; cbn [step fst] in *; auto; [destruct C| |].
  - unfold conf_set in *. destruct (find_sect (sects c) s) as [x|] eqn:F.
    + destruct (exact _ _); cbn in *; [auto|discriminate].
    + destruct (empty _) eqn:E; cbn [fst] in *; [auto|].
      rewrite find_sect_app, F in D |- *. cbn [find_sect fst] in *. rewrite same_refl in D |- *. cbn [snd find_entry] in *. destruct v as [[|v0 v]|]; cbn in *; discriminate.
  - unfold delete_section in *. destruct (find_sect _ _); cbn in *; [discriminate|auto].
Qed.
Lemma run_clean : forall l c, Forall change l -> dirty (run c l) = false -> dirty c = false /\ sects (run c l) = sects c /\ glob (run c l) = glob c.
Proof.
  induction l as [|o l IH]; intros c F D; cbn [run] in *; [auto|]. inversion F; subst. destruct (IH _ H2 D) as (A1 & A2 & A3).
  destruct (step_clean c o H1 A1) as (B1 & B2 & B3). split; [exact B1|]. split; congruence.
Qed.
Lemma step_error c o : change o -> error (fst (step c o)) = error c.
Proof.
  destruct o as [f|s e v|s|cb|s e k]; intros C; cbn [step fst]; auto; [destruct C| |].
  - unfold conf_set. destruct (find_sect (sects c) s); [destruct (exact _ _); reflexivity|]. destruct (empty _); [reflexivity|]. destruct (exact _ _); reflexivity.
  - unfold delete_section. destruct (find_sect _ _); reflexivity.
Qed.
Lemma run_error : forall l c, Forall change l -> error (run c l) = error c.
Proof. induction l as [|o l IH]; intros c F; cbn [run]; auto. inversion F; subst. rewrite IH; auto. apply step_error; auto. Qed.
Theorem C72_flush d l c c' d' : (forall b, d <> Some (b, true)) -> Forall good_op l -> Forall change l -> c = run (new_conf (see d)) l ->
  flush c Opened d = (c', d') -> same_contents (new_conf (see d')) c /\ same_contents c' c /\ dirty c' = false /\ error c' = false.
Proof.
  intros NS G C E H.
  assert (NE : error c = false).
  { rewrite E, run_error; auto. destruct d as [[b [|]]|]; [destruct (NS b eq_refl)| |]; unfold new_conf; cbn [see load_file sects glob]; [destruct (load_text [] [] b); reflexivity|reflexivity]. }
  unfold flush in H. destruct (dirty c) eqn:D; cbn [negb orb] in H.
  - rewrite NE in H. unfold save in H. rewrite NE in H. inversion H; subst c' d'; clear H. split; [|split; [split; reflexivity|auto]].
    assert (K : same_contents (new_conf (Text (save_text c))) c) by (apply (C72_saved (see d) l c); auto).
    destruct d as [[b [|]]|]; [destruct (NS b eq_refl)| |]; exact K.
  - inversion H; subst c' d'; clear H. rewrite E in D. destruct (run_clean l _ C D) as (_ & A1 & A2). rewrite <- E in A1, A2. split; [split; congruence|]. split; [split; reflexivity|].
    rewrite <- E in D. auto.
Qed.
(** If the directory is missing nothing is written, yet the configuration counts as saved. *)
Theorem C72_flush_refuted : exists c d, dirty c = true /\ let (c', d') := flush c NoDirectory d in d' = d /\ dirty c' = false /\ error c' = false.
Proof. exists (fst (conf_set (new_conf Absent) (B "s") (B "e") (Some (B "v")))), None. vm_compute. auto. Qed.

(** Crashes: at each point of saving, the file is as before, or empty, or cannot be loaded, or holds
    all of the new text; once it cannot be loaded, no WvConf writes it. *)
Theorem C72_crash_partial d f l pieces c d' : (forall b, d <> Some (b, true)) -> Forall good_op l -> c = run (new_conf f) l ->
  concat pieces = save_text c -> In d' (d :: save_trace d pieces) ->
  see d' = see d \/ same_contents (new_conf (see d')) c \/ see d' = Sticky \/ d' = Some ([], false).
Proof.
  intros NS G EC E I. assert (K : kept c) by (rewrite EC; apply run_kept; [apply kept_new|exact G]). destruct I as [<-|I]; [auto|]. unfold save_trace in I.
  assert (O : match d with Some (_, s) => s | None => false end = false) by (destruct d as [[b [|]]|]; [destruct (NS b eq_refl)| |]; reflexivity). rewrite O in I.
  destruct I as [<-|[<-|I]]; [auto|auto|]. apply in_app_iff in I. destruct I as [I|[<-|[]]].
  - right; right; left. assert (X : forall ps done, In d' (writes done ps) -> exists b, d' = Some (b, true)).
    { induction ps as [|p ps IH]; intros done [].
      - exists (done ++ p). auto.
      - eapply IH; eauto. }
    destruct (X _ _ I) as (b & ->). reflexivity.
  - right; left. cbn [see]. rewrite E. apply new_reload, K.
Qed.
Theorem C72_stuck l o d : Forall change l -> d <> None -> see d = Sticky -> snd (flush (run (new_conf (see d)) l) o d) = d.
Proof.
  intros C N S. rewrite S. unfold flush. rewrite run_error; auto. cbn. rewrite orb_true_r. reflexivity.
Qed.
(** All of the old text can be lost: open() empties the file before the sticky bit is set. *)
Theorem C72_crash_refuted : exists d pieces c d', concat pieces = save_text c /\ In d' (save_trace d pieces) /\ (exists b, d = Some (b, false) /\ sects (new_conf (Text b)) <> []) /\
  sects c <> [] /\ see d' = Text [] /\ error (new_conf (see d')) = false /\ sects (new_conf (see d')) = [].
Proof.
  set (c := fst (conf_set (new_conf Absent) (B "s") (B "e") (Some (B "v")))).
  exists (Some (save_text c, false)), [save_text c], c, (Some ([], false)). split; [apply app_nil_r|]. split; [left; reflexivity|].
  split; [exists (save_text c); split; [reflexivity|vm_compute; discriminate]|]. split; [vm_compute; discriminate|]. vm_compute. auto.
Qed.
Example C72_example : let c := run (new_conf (Text circle)) [Set_ (B "New") (B "k") (Some (B "a = b]")); DelSection (B "A"); Set_ (B "b") (B "x") None] in
  Forall good_op [Set_ (B "New") (B "k") (Some (B "a = b]")); DelSection (B "A"); Set_ (B "b") (B "x") None] /\
  save_text c = B "g = 0" ++ [newline; newline] ++ B "[B]" ++ [newline] ++ B "inherits = A" ++ [newline; newline] ++ B "[New]" ++ [newline] ++ B "k = a = b]" ++ [newline] /\
  get (new_conf (Text (save_text c))) (B "new") (B "K") None = Ok (Some (B "a = b]")).
Proof.
  assert (T : forall s, trim_string s = s -> trimmed s) by (intros s E; rewrite <- E; destruct (trim_parts s) as (_ & _ & _ & _ & _ & H); exact H).
  split; [|vm_compute; auto].
  assert (X : forall c s, existsb (Ascii.eqb c) s = false -> ~ In c s).
  { intros c s E I. assert (Y : existsb (Ascii.eqb c) s = true) by (apply existsb_exists; exists c; split; [exact I|apply Ascii.eqb_refl]). congruence. }
  unfold nul_free. repeat constructor; cbn [good_op]; try discriminate; try exact I; try (apply X; reflexivity); try (apply T; reflexivity).
Qed.
Print Assumptions C71_get.
Print Assumptions C71_get_ends.
Print Assumptions C71_set.
Print Assumptions C71_remove_partial.
Print Assumptions C71_remove_refuted.
Print Assumptions C71_remove_white_refuted.
Print Assumptions C71_maybeset.
Print Assumptions C71_int.
Print Assumptions C71_words_refuted.
Print Assumptions C71_fuzzy.
Print Assumptions C71_fuzzy_list_refuted.
Print Assumptions C71_callbacks.
Print Assumptions C71_raw.
Print Assumptions C71_setraw.
Print Assumptions C72_saved.
Print Assumptions C72_stable.
Print Assumptions C72_names_refuted.
Print Assumptions C72_flush.
Print Assumptions C72_flush_refuted.
Print Assumptions C72_crash_partial.
Print Assumptions C72_stuck.
Print Assumptions C72_crash_refuted.
