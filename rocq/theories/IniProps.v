(** C35: configuration files survive save and load. *)
From Verif Require Import Base BaseFacts Ctype TclModel TclSpec TclProofs KeyModel KeySpec KeyProofs TempModel TempSpec TreeProofs TempProofs
  StreamModel FileModel FileSpec FileProps IniModel IniSpec IniProofs IniProofs2 IniProofs3 IniProofs4.
Local Open Scope char_scope.
Local Open Scope list_scope.

Definition canonical_history (hs : list (key * option bytes)) : Prop := Forall (fun h => canonical (fst h)) hs.
(** All values are C strings. *)
Definition texts (g : gen) : Prop := forall k v, Forall plain k -> tget g k = Some v -> nul_free v.

Lemma good_D v : v <> [] -> nul_free v -> good_value v -> D v = v /\ harmless v.
Proof.
  intros N Z G. apply (storable_back WVTCL_NASTY_SPACES value_seps _ _ _ _ N nasty_value line_end_list) in G. destruct G as [G C]. unfold D, vtext. rewrite G. split; [reflexivity|].
  split; [exact C|]. intros ->. discriminate.
Qed.
Lemma D_good v : v <> [] -> nul_free v -> harmless v -> D v = v -> good_value v.
Proof.
  intros N Z Hh E. destruct (harmless_value v N Z Hh) as [_ [x Ex]]. unfold D in E. rewrite Ex in E. subst x. destruct Hh as [C _].
  apply (storable_back WVTCL_NASTY_SPACES value_seps _ _ _ _ N nasty_value line_end_list). auto.
Qed.
Lemma get_has g k : Forall plain k -> tget g k = has g k.
Proof. intros P. rewrite tget_has by (left; exact P). destruct (plain_slashed _ P) as [-> _]. reflexivity. Qed.
Lemma reload hs ns g : history tinit hs ns g -> canonical_history hs -> texts g ->
  (forall k v, Forall plain k -> tget g k = Some v -> v <> [] -> good_key k /\ harmless v) ->
  exists bs hs' ns' g', save (root g) = Ok bs /\ load (concat bs) = Ok g' /\ history tinit hs' ns' g' /\ canonical_history hs' /\
    forall k, Forall plain k ->
      match tget g k with
      | Some (c :: v) => tget g' k = Some (D (c :: v))
      | _ => tget g' k = None \/ tget g' k = Some []
      end /\ (tget g' k <> None -> k = [] \/ tget g k <> None).
Proof.
  intros H C T G. destruct (reach _ _ _ H C) as (W & _). destruct (round g W (history_root _ _ _ _ H I)) as (bs & hs' & ns' & g' & Hs & Hl & Hh & Hc & Hk).
  - intros k v P Hv. rewrite <- get_has in Hv by exact P. split; [apply (T k v P Hv)|]. apply G; assumption.
  - exists bs, hs', ns', g'. repeat (split; [assumption|]). intros k P. rewrite !get_has by exact P. apply Hk, P.
Qed.

(** A tree whose keys and values can be held by the format is the same after it was
    saved and loaded, apart from keys with empty values; loading adds no keys but
    the root. *)
Theorem C35_roundtrip hs ns g : history tinit hs ns g -> canonical_history hs -> texts g ->
  (forall k v, Forall plain k -> tget g k = Some v -> v <> [] -> good_key k /\ good_value v) ->
  exists bs g', save (root g) = Ok bs /\ load (concat bs) = Ok g' /\
    (forall k, Forall plain k -> kept (tget g' k) = kept (tget g k)) /\
    (forall k, Forall plain k -> tget g' k <> None -> k = [] \/ tget g k <> None).
Proof.
  intros H C T G. destruct (reload hs ns g H C T) as (bs & hs' & ns' & g' & Hs & Hl & _ & _ & Hk).
  { intros k v P Hv N. destruct (G k v P Hv N) as [G1 G2]. split; [exact G1|]. apply good_D; auto. apply (T k v P Hv). }
  exists bs, g'. split; [exact Hs|]. split; [exact Hl|]. split; [|intros k P; apply Hk, P]. intros k P. destruct (Hk k P) as [E _].
  destruct (tget g k) as [[|c v]|] eqn:Ek; [destruct E as [-> | ->]; reflexivity| |destruct E as [-> | ->]; reflexivity].
  rewrite E. destruct (good_D (c :: v)) as [-> _]; [discriminate|apply (T k _ P Ek)|apply (G k _ P Ek); discriminate|reflexivity].
Qed.
(** If some values are merely harmless, nothing but these values can change: every
    key is still there, and no other value is touched.  A harmless value comes back
    if and only if it is good. *)
Theorem C35_harmless hs ns g : history tinit hs ns g -> canonical_history hs -> texts g ->
  (forall k v, Forall plain k -> tget g k = Some v -> v <> [] -> good_key k /\ harmless v) ->
  exists bs g', save (root g) = Ok bs /\ load (concat bs) = Ok g' /\
    (forall k v, Forall plain k -> tget g k = Some v -> v <> [] -> tget g' k <> None /\ (tget g' k = Some v <-> good_value v)) /\
    (forall k, Forall plain k -> kept (tget g k) = None -> kept (tget g' k) = None) /\
    (forall k, Forall plain k -> tget g' k <> None -> k = [] \/ tget g k <> None).
Proof.
  intros H C T G. destruct (reload hs ns g H C T G) as (bs & hs' & ns' & g' & Hs & Hl & _ & _ & Hk).
  exists bs, g'. split; [exact Hs|]. split; [exact Hl|]. split; [|split; [|intros k P; apply Hk, P]].
  - intros k v P Hv N. destruct (Hk k P) as [E _]. rewrite Hv in E. destruct v as [|c v]; [congruence|]. rewrite E. split; [discriminate|].
    destruct (G k _ P Hv N) as [_ Hh]. pose proof (T k _ P Hv) as Z. split.
    + intros X. assert (D (c :: v) = c :: v) by congruence. apply D_good; assumption.
    + intros Gv. destruct (good_D _ N Z Gv) as [-> _]. reflexivity.
  - intros k P. destruct (Hk k P) as [E _]. destruct (tget g k) as [[|c v]|]; cbn; [intros _|discriminate|intros _]; destruct E as [-> | ->]; reflexivity.
Qed.
(** What was loaded is itself such a tree: the result of sets on an empty generator. *)
Theorem C35_loaded hs ns g : history tinit hs ns g -> canonical_history hs -> texts g ->
  (forall k v, Forall plain k -> tget g k = Some v -> v <> [] -> good_key k /\ harmless v) ->
  exists bs hs' ns' g', save (root g) = Ok bs /\ load (concat bs) = Ok g' /\ history tinit hs' ns' g' /\ canonical_history hs'.
Proof.
  intros H C T G. destruct (reload hs ns g H C T G) as (bs & hs' & ns' & g' & Hs & Hl & Hh & Hc & _). exists bs, hs', ns', g'. auto.
Qed.
(** Together with C36: while a tree is committed over the file of another one, the
    file loads as one of the two, wherever the process dies and whatever fails. *)
Theorem C35_crash hs0 ns0 g0 bs0 hs ns g bs depth c d f ok h :
  history tinit hs0 ns0 g0 -> canonical_history hs0 -> texts g0 -> (forall k v, Forall plain k -> tget g0 k = Some v -> v <> [] -> good_key k /\ good_value v) ->
  history tinit hs ns g -> canonical_history hs -> texts g -> (forall k v, Forall plain k -> tget g k = Some v -> v <> [] -> good_key k /\ good_value v) ->
  save (root g0) = Ok bs0 -> save (root g) = Ok bs ->
  target d = Some f -> content f = concat bs0 -> Forall prompt (dev1 c) -> commit_atomic depth bs c d = Ok (ok, h) ->
  Forall (fun x => exists f' g', target x = Some f' /\ load (content f') = Ok g' /\
    ((forall k, Forall plain k -> kept (tget g' k) = kept (tget g0 k)) \/ (forall k, Forall plain k -> kept (tget g' k) = kept (tget g k)))) h.
Proof.
  intros H0 C0 T0 G0 H C T G S0 S Td Cf Pr Cm. destruct (C35_roundtrip _ _ _ H0 C0 T0 G0) as (b0 & g0' & S0' & L0 & K0 & _). destruct (C35_roundtrip _ _ _ H C T G) as (b & g' & S' & L & K & _).
  rewrite S0 in S0'. rewrite S in S'. assert (b0 = bs0) as -> by congruence. assert (b = bs) as -> by congruence.
  destruct (C36_atomic _ _ _ _ _ _ Pr Cm) as [A _]. eapply Forall_impl; [|exact A]. intros x [Hx|(f' & Tx & Cx)].
  - exists f, g0'. unfold old in Hx. rewrite Hx, Cf. auto.
  - exists f', g'. rewrite Cx. auto.
Qed.

(** * Everyday names and values *)
(** Text made of letters, digits and signs such as these needs no quoting. *)
Definition tame (c : byte) : Prop := ~ white c /\ ~ among ["\"; "{"; "}"; """"; "["; "]"; "="; "#"; nul] c.
Lemma tame_contained (stop : byte -> Prop) s : (forall c, stop c -> ~ tame c) -> Forall tame s -> contained stop s.
Proof.
  intros H F. unfold contained. induction s as [|c s IH] using rev_ind; [apply R_nil|]. apply Forall_app in F. destruct F as [F Fc]. apply Forall_inv in Fc.
  apply R_plain; [apply IH, F| | | |intros _ X; apply (H c X Fc)]; intros ->; destruct Fc as [_ Fc]; apply Fc; unfold among; cbn; tauto.
Qed.
Lemma tame_clean (stop : byte -> Prop) s : (forall c, stop c -> ~ tame c) -> Forall tame s -> clean stop s.
Proof.
  intros H F. split; [apply tame_contained; assumption|]. rewrite Forall_forall in F. assert (X : forall c, In c s -> ~ among ["\"; "{"; "}"; """"; "["; "]"; "="; "#"; nul] c) by (intros c Hc; apply (F c Hc)).
  split; [intros Hb; apply (X _ Hb); unfold among; cbn; tauto|]. split; [|split].
  - intros [(r & ->)|[(r & ->)| ->]]; [apply (X "{")|apply (X """")|apply (X """")]; try (left; reflexivity); unfold among; cbn; tauto.
  - intros (c & r & -> & Hw). apply (proj1 (F c (or_introl eq_refl))), Hw.
  - intros (r & c & -> & Hw). refine (proj1 (F c _) Hw). apply in_or_app. right. left. reflexivity.
Qed.
Lemma stops_not_tame l c : Forall (fun c => white c \/ among ["\"; "{"; "}"; """"; "["; "]"; "="; "#"; nul] c) l -> among l c -> ~ tame c.
Proof. intros F Hc [T1 T2]. rewrite Forall_forall in F. destruct (F c Hc); tauto. Qed.
Ltac stops := let c := fresh in intros c; apply stops_not_tame; repeat constructor; (left; unfold white; cbn; lia) || (right; unfold among; cbn; tauto).
Theorem C35_everyday_value s : Forall tame s -> good_value s.
Proof. intros F. left. apply tame_clean; [stops|exact F]. Qed.
Theorem C35_everyday_key k : Forall (Forall tame) k -> good_key k.
Proof.
  intros F. assert (P : forall k, Forall (Forall tame) k -> Forall tame (path k)).
  { clear. induction 1 as [|s k Fs Fk IH]; [constructor|]. cbn [path]. destruct k; [exact Fs|]. apply Forall_app. split; [exact Fs|]. constructor; [|exact IH].
    split; [intros [?|?]; [discriminate|cbn in *; lia]|]. unfold among. cbn. intuition discriminate. }
  destruct k as [|s [|s2 k]]; [exact I| |].
  - left. apply tame_clean; [stops|exact (Forall_inv F)].
  - split; [left; apply tame_clean; [stops|exact (Forall_inv F)]|left; apply tame_clean; [stops|apply P; exact (Forall_inv_tail F)]].
Qed.
(** Values with white space, newlines or quotes are put in braces, and come back. *)
Theorem C35_braced_value s : white_start s -> balanced s -> (exists c, In c s /\ (special c \/ among [" "; TAB; newline; CR] c)) -> good_value s.
Proof. intros W Bs H. right. split; [left; exact W|]. left. auto. Qed.
(** * A case: /a/b := "x y", /a/C/d := " {1}", /top := "q", /e := "" *)
Definition ex_hs : list (key * option bytes) :=
  [([B "a"; B "b"], Some (B "x y")); ([B "A"; B "C"; B "d"], Some (B " {1}")); ([B "top"], Some (B "q")); ([B "e"], Some [])].
Definition ex_gen : gen := fold_left tstep ex_hs tinit.
Lemma tame_letter c : In c (B "abcdefghijklmnopqrstuvwxyzABCDEFGHIJKLMNOPQRSTUVWXYZ0123456789") -> tame c.
Proof. intros H. cbn in H. repeat (destruct H as [<-|H]; [split; [unfold white; cbn; intros [X|X]; [discriminate|lia]|unfold among; cbn; intuition discriminate]|]). destruct H. Qed.
Lemma low_tame s t : low s = low t -> Forall (fun c => In c (B "abcdefghijklmnopqrstuvwxyz")) t -> Forall tame s.
Proof.
  intros E F. revert t E F. induction s as [|c s IH]; intros [|d t] E F; try discriminate; constructor.
  - unfold low in E. cbn [map] in E. injection E as E _. apply Forall_inv in F. apply tame_letter.
    assert (X : forall c d, tolower c = tolower d -> existsb (Ascii.eqb d) (B "abcdefghijklmnopqrstuvwxyz") = true -> existsb (Ascii.eqb c) (B "abcdefghijklmnopqrstuvwxyzABCDEFGHIJKLMNOPQRSTUVWXYZ0123456789") = true).
    { clear. intros c d E H. assert (Y : forall n m, n < 256 -> m < 256 -> (if Ascii.eqb (tolower (ascii_of_nat n)) (tolower (ascii_of_nat m)) then existsb (Ascii.eqb (ascii_of_nat m)) (B "abcdefghijklmnopqrstuvwxyz") else false) = true -> existsb (Ascii.eqb (ascii_of_nat n)) (B "abcdefghijklmnopqrstuvwxyzABCDEFGHIJKLMNOPQRSTUVWXYZ0123456789") = true).
      { intros n m Hn Hm. assert (V : forallb (fun n => forallb (fun m => implb (if Ascii.eqb (tolower (ascii_of_nat n)) (tolower (ascii_of_nat m)) then existsb (Ascii.eqb (ascii_of_nat m)) (B "abcdefghijklmnopqrstuvwxyz") else false) (existsb (Ascii.eqb (ascii_of_nat n)) (B "abcdefghijklmnopqrstuvwxyzABCDEFGHIJKLMNOPQRSTUVWXYZ0123456789"))) (seq 0 256)) (seq 0 256) = true) by (vm_compute; reflexivity).
        rewrite forallb_forall in V. specialize (V n ltac:(apply in_seq; lia)). rewrite forallb_forall in V. specialize (V m ltac:(apply in_seq; lia)). intros X. rewrite X in V. exact V. }
      specialize (Y (nat_of_ascii c) (nat_of_ascii d) (nat_ascii_bounded c) (nat_ascii_bounded d)). rewrite !ascii_nat_embedding in Y. apply Y. rewrite E, Ascii.eqb_refl. exact H. }
    assert (Y : existsb (Ascii.eqb c) (B "abcdefghijklmnopqrstuvwxyzABCDEFGHIJKLMNOPQRSTUVWXYZ0123456789") = true).
    { apply (X c d E). apply existsb_exists. exists d. split; [exact F|apply Ascii.eqb_refl]. }
    apply existsb_exists in Y. destruct Y as (y & Hy & Ey). apply Ascii.eqb_eq in Ey. subst. exact Hy.
  - apply (IH t); [unfold low in *; cbn in E; congruence|exact (Forall_inv_tail F)].
Qed.
Lemma lows_tame k0 k : same k0 k = true -> Forall (Forall (fun c => In c (B "abcdefghijklmnopqrstuvwxyz"))) k0 -> Forall (Forall tame) k.
Proof.
  rewrite same_lows. intros E F. revert k E. induction F as [|s k0 Fs _ IH]; intros [|t k] E; try discriminate; constructor.
  - unfold lows in E. cbn [map] in E. injection E as E _. apply (low_tame t s); auto.
  - apply IH. unfold lows in *. cbn in E. congruence.
Qed.
Example C35_ex : exists ns, history tinit ex_hs ns ex_gen /\ canonical_history ex_hs /\ texts ex_gen /\
  (forall k v, Forall plain k -> tget ex_gen k = Some v -> v <> [] -> good_key k /\ good_value v) /\
  tget ex_gen [B "a"; B "c"; B "D"] = Some (B " {1}").
Proof.
  destruct (fold_history ex_hs tinit) as [ns H]. exists ns. split; [exact H|].
  assert (Q : forall s, In s [B "a"; B "A"; B "b"; B "C"; B "d"; B "top"; B "e"] -> plain s).
  { intros s Hs. repeat (destruct Hs as [<-|Hs]; [repeat split; try discriminate; intros Hi; repeat (destruct Hi as [Hi|Hi]; [discriminate|]); destruct Hi|]). destruct Hs. }
  assert (C : canonical_history ex_hs). { repeat apply Forall_cons; cbn [fst]; try apply Forall_nil; left; repeat constructor; apply Q; cbn; tauto. }
  split; [exact C|].
  destruct (reach _ _ _ H C) as (W & E & _).
  assert (S : forall k v, Forall plain k -> tget ex_gen k = Some v -> v = [] \/ (same [B "a"; B "b"] k = true /\ v = B "x y") \/ (same [B "a"; B "c"; B "d"] k = true /\ v = B " {1}") \/ (same [B "top"] k = true /\ v = B "q")).
  { intros k v P Hv. rewrite get_has in Hv by exact P. assert (E' : has ex_gen k = sets ex_hs k) by exact (E k P). rewrite E' in Hv. revert Hv.
    change (sets ex_hs k) with (set_spec (set_spec (set_spec (set_spec nothing [B "a"; B "b"] (Some (B "x y"))) [B "A"; B "C"; B "d"] (Some (B " {1}"))) [B "top"] (Some (B "q"))) [B "e"] (Some []) k).
    unfold set_spec, nothing.
    destruct (same [B "e"] k); [intros X; injection X as <-; auto|]. destruct (same [B "top"] k); [destruct (under k [B "e"]); intros X; injection X as <-; auto|].
    destruct (same [B "A"; B "C"; B "d"] k) eqn:E1; [intros X; assert (v = B " {1}") by (destruct (under k [B "e"]), (under k [B "top"]); congruence); right; right; left; split; [apply (same_trans _ [B "A"; B "C"; B "d"]); [reflexivity|exact E1]|assumption]|].
    destruct (same [B "a"; B "b"] k); [intros X; assert (v = B "x y") by (destruct (under k [B "e"]), (under k [B "top"]), (under k [B "A"; B "C"; B "d"]); congruence); auto|].
    intros X. left. destruct (under k [B "e"]), (under k [B "top"]), (under k [B "A"; B "C"; B "d"]), (under k [B "a"; B "b"]); congruence. }
  split; [|split; [|reflexivity]].
  - intros k v P Hv. destruct (S k v P Hv) as [->|[[_ ->]|[[_ ->]|[_ ->]]]]; unfold nul_free; cbn; intuition discriminate.
  - intros k v P Hv N. destruct (S k v P Hv) as [->|[[Sk ->]|[[Sk ->]|[Sk ->]]]]; [congruence| | |]; (split; [apply C35_everyday_key, (lows_tame _ _ Sk); repeat constructor; cbn; tauto|]).
    + left. split; [|split; [|split; [|split]]].
      * unfold contained. apply (R_plain _ _ [_; _] "y"); [apply (R_plain _ _ [_] " "); [apply (R_plain _ _ [] "x"); [apply R_nil| | | |]| | | |]| | | |]; try discriminate; unfold line_end, among; cbn; intuition discriminate.
      * cbn. intuition discriminate.
      * intros [(r & X)|[(r & X)|X]]; discriminate.
      * rewrite white_start_iff. discriminate.
      * rewrite white_end_iff. cbn. intuition discriminate.
    + apply C35_braced_value; [exists " ", (B "{1}"); split; [reflexivity|left; reflexivity]| |]; [|exists "{"; split; [cbn; tauto|left; left; reflexivity]].
      apply (bal_char " "); try discriminate. apply (bal_group ["1"] []); [apply (bal_char "1"); try discriminate; constructor|constructor].
    + apply C35_everyday_value. repeat constructor; apply tame_letter; cbn; tauto.
Qed.
(** The text it is saved as *)
Example C35_ex_file : exists bs, save (root ex_gen) = Ok bs /\
  concat bs = newline :: B "[]" ++ newline :: B "top = q" ++ newline :: newline :: B "[a]" ++ newline :: B "b = x y" ++ newline :: B "C/d = { {1}}" ++ [newline].
Proof. eexists. split; vm_compute; reflexivity. Qed.

(** * What does not come back *)
(** One key with one value, saved and loaded *)
Definition only (k : key) (v : bytes) : gen := fst (tset tinit k (Some v)).
Definition cycle (g : gen) : res gen := let! bs := save (root g) in load (concat bs).
(** A value with an unmatched closing brace is not quoted: the text after a newline
    becomes a key of its own. *)
Theorem C35_injection_refuted : exists g', let v := B "}" ++ newline :: B "evil = 1" in
  cycle (only [B "a"] v) = Ok g' /\ tget (only [B "a"] v) [B "evil"] = None /\ tget g' [B "evil"] = Some (B "1") /\ tget g' [B "a"] = Some (B "}").
Proof. eexists. split; [vm_compute; reflexivity|]. repeat split. Qed.
(** A value in braces or quotes loses them, a backslash in the middle is dropped, and so is white
    space at an end after an unmatched brace, and a form feed at the start. *)
Theorem C35_values_refuted :
  (forall v w, In (v, w) [(B "{a}", B "a"); (B """a""", B "a"); (B "c:\dir", B "c:dir"); (B "x} ", B "x}"); (ascii_of_nat 12 :: B "a", B "a")] ->
   exists g', cycle (only [B "a"] v) = Ok g' /\ tget g' [B "a"] = Some w /\ v <> w).
Proof. intros v w H. cbn [In] in H. repeat (destruct H as [H|H]; [injection H as <- <-; eexists; split; [vm_compute; reflexivity|split; [reflexivity|discriminate]]|]). destruct H. Qed.
(** A value that is a lone quote makes load read beyond the string. *)
Theorem C35_quote_refuted : cycle (only [B "a"] (B """")) = Fault.
Proof. vm_compute. reflexivity. Qed.
(** Keys: one with an unmatched closing brace and an equals sign is cut; one in braces
    loses them; a section loses a space at its start; a section that is a lone quote
    crashes. *)
Theorem C35_keys_refuted :
  (forall k k', In (k, k') [([B "a}=b"], [B "a}"]); ([B "{a}"], [B "a"]); ([B "{a}"; B "b"], [B "a"; B "b"]); ([B " a"; B "b"], [B "a"; B "b"])] ->
   exists g' w, cycle (only k (B "x")) = Ok g' /\ tget g' k = None /\ tget g' k' = Some w /\ w <> []) /\
  cycle (only [B """"; B "b"] (B "x")) = Fault.
Proof.
  split; [|vm_compute; reflexivity].
  intros v w H. cbn [In] in H. repeat (destruct H as [H|H]; [injection H as <- <-; eexists _, _; split; [vm_compute; reflexivity|split; [reflexivity|split; [reflexivity|discriminate]]]|]). destruct H.
Qed.
(** Keys with empty values are not kept, except above others. *)
Theorem C35_empty_refuted : exists g', cycle (only [B "a"] []) = Ok g' /\ tget (only [B "a"] []) [B "a"] = Some [] /\ tget g' [B "a"] = None.
Proof. eexists. split; [vm_compute; reflexivity|]. split; reflexivity. Qed.

Print Assumptions C35_roundtrip.
Print Assumptions C35_harmless.
Print Assumptions C35_loaded.
Print Assumptions C35_crash.
Print Assumptions C35_everyday_value.
Print Assumptions C35_everyday_key.
Print Assumptions C35_braced_value.
Print Assumptions C35_injection_refuted.
Print Assumptions C35_values_refuted.
Print Assumptions C35_quote_refuted.
Print Assumptions C35_keys_refuted.
Print Assumptions C35_empty_refuted.
