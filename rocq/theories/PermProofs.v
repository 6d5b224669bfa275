(** Proofs about permissions and filters. *)
From Verif Require Import Base BaseFacts Ctype KeyModel KeySpec KeyProofs KeyHeapSpec KeyHeapProofs TempSpec TreeProofs TempProofs TxnModel TxnSpec TxnProofs StrIntModel MountModel MountSpec MountProofs PermModel PermSpec.
Local Open Scope nat_scope.

(** ** Inheritance *)
Fixpoint near {A} (f : list bytes -> option A) (r : list bytes) : option A :=
  match f (rev r) with
  | Some v => Some v
  | None => match r with [] => None | _ :: r' => near f r' end
  end.
Definition nearest {A} (f : list bytes -> option A) (p : list bytes) : option A := near f (rev p).
Lemma nearest_nil {A} (f : list bytes -> option A) : nearest f [] = f [].
Proof. unfold nearest. cbn. destruct (f []); reflexivity. Qed.
Lemma nearest_snoc {A} (f : list bytes -> option A) p x : nearest f (p ++ [x]) = match f (p ++ [x]) with Some v => Some v | None => nearest f p end.
Proof. unfold nearest. rewrite rev_app_distr. cbn [rev app near]. rewrite rev_involutive. reflexivity. Qed.
Lemma nearest_inherited {A} (f : list bytes -> option A) p : inherited f p (nearest f p).
Proof.
  induction p as [|x p IH] using rev_ind.
  - rewrite nearest_nil. destruct (f []) as [v|] eqn:E; cbn.
    + exists [], []. split; [reflexivity|]. split; [exact E|]. intros [|] d Q Ne; [congruence|discriminate].
    + intros [|] b Q; [exact E|discriminate].
  - rewrite nearest_snoc. destruct (f (p ++ [x])) as [v|] eqn:E; cbn.
    + exists (p ++ [x]), []. split; [symmetry; apply app_nil_r|]. split; [exact E|]. intros [|] d Q Ne; [congruence|discriminate].
    + destruct (nearest f p) as [v|]; cbn in IH |- *.
      * destruct IH as (a & b & -> & Fa & H). exists a, (b ++ [x]). split; [symmetry; apply app_assoc|]. split; [exact Fa|]. intros c d Q Ne. destruct d as [|y d] using rev_ind.
        -- rewrite app_nil_r in Q. subst c. rewrite app_assoc. exact E.
        -- rewrite app_assoc in Q. apply app_inj_tail in Q. destruct Q as [Q _]. eapply H; eauto.
      * intros a b Q. destruct b as [|y b] using rev_ind; [rewrite app_nil_r in Q; subst a; exact E|]. rewrite app_assoc in Q. apply app_inj_tail in Q. destruct Q as [Q _]. eapply IH, Q.
Qed.
Lemma inherited_unique {A} (f : list bytes -> option A) p r r' : inherited f p r -> inherited f p r' -> r = r'.
Proof.
  destruct r as [v|], r' as [v'|]; cbn; try reflexivity.
  - intros (a & b & -> & Fa & H) (a' & b' & E & Fa' & H'). symmetry in E. destruct (app_eq_app _ _ _ _ E) as (c & [[E1 E2]|[E1 E2]]); destruct c as [|y c].
    + rewrite app_nil_r in E1. congruence.
    + assert (X := H (y :: c) b' E2 ltac:(discriminate)). congruence.
    + rewrite app_nil_r in E1. congruence.
    + assert (X := H' (y :: c) b E2 ltac:(discriminate)). congruence.
  - intros (a & b & -> & Fa & _) H. rewrite (H a b eq_refl) in Fa. discriminate.
  - intros H (a & b & -> & Fa & _). rewrite (H a b eq_refl) in Fa. discriminate.
Qed.
Lemma inherited_iff {A} (f : list bytes -> option A) p r : inherited f p r <-> nearest f p = r.
Proof. split; [intros H; eapply inherited_unique; [apply nearest_inherited|exact H]|intros <-; apply nearest_inherited]. Qed.

(** ** Keys *)
Lemma named_id k : Forall plain k -> named k = k.
Proof. apply filter_plain. Qed.
Lemma named_idem s : named (path_key s) = segments s.
Proof.
  unfold named, path_key, segments. assert (X : forall l, filter not_empty (filter not_empty l) = filter not_empty l).
  { induction l as [|x l IH]; [reflexivity|]. cbn. destruct (not_empty x) eqn:E; [|exact IH]. cbn. rewrite E, IH. reflexivity. }
  destruct (_ && _); [rewrite filter_app, X; cbn; apply app_nil_r|apply X].
Qed.
Lemma segments_print k : canonical k -> segments (printable k) = named k.
Proof. intros C. rewrite <- named_idem, path_key_print by exact C. reflexivity. Qed.
Lemma print_nul_free k : canonical k -> nul_free (printable k).
Proof. intros C. rewrite printable_loop. apply print_nul, canonical_nul, C. Qed.
Lemma entry_ok path name : canonical path -> plain name -> entry path name = Ok (named path ++ [name]).
Proof.
  intros C (Ne & Ns & Nn). unfold entry. rewrite parse_ok.
  - f_equal. unfold path_key. cbn [app]. rewrite segments_app_slash, segments_print by exact C.
    assert (Y : segments name = [name]).
    { pose proof (segments_print [name]) as Q. cbn [printable] in Q. rewrite Q by (left; constructor; [repeat split; assumption|constructor]). unfold named. cbn. destruct name; [congruence|reflexivity]. }
    rewrite Y. rewrite last_app_ne by discriminate. rewrite last_cons_ne by exact Ne.
    destruct (Ascii.eqb_spec (last name nul) "/"); [|reflexivity]. elim Ns. rewrite <- e. destruct (exists_last Ne) as (n & x & ->). rewrite last_last. apply in_app_iff. right. left. reflexivity.
  - intros H. apply in_app_iff in H. destruct H as [H|H]; [exact (print_nul_free _ C H)|]. cbn in H. destruct H as [H|H]; [discriminate H|exact (Nn H)].
Qed.
Lemma remove_snoc p x : Forall plain p -> removelast (p ++ [x]) 1 = p.
Proof.
  intros P. unfold removelast, range. rewrite app_length. cbn [length]. replace (Z.of_nat (length p + 1) <? Z.of_nat (length p + 1) - 1)%Z with false by (symmetry; apply Z.ltb_ge; lia).
  cbn [Z.ltb Z.compare Z.to_nat skipn]. replace (Z.of_nat (length p + 1) - 1 <? 0)%Z with false by (symmetry; apply Z.ltb_ge; lia).
  replace (Z.to_nat (Z.of_nat (length p + 1) - 1 - 0)) with (length p) by lia. rewrite firstn_app_len by reflexivity. apply plain_collapse, P.
Qed.
Lemma canonical_cases k : canonical k -> Forall plain k \/ exists p, p <> [] /\ Forall plain p /\ k = p ++ [[]].
Proof. intros [H|H]; auto. Qed.
Lemma named_slash p : Forall plain p -> named (p ++ [[]]) = p.
Proof. intros P. unfold named. rewrite filter_app. cbn. rewrite app_nil_r. apply filter_plain, P. Qed.
Lemma isempty_app p x : isempty (p ++ [x]) = false.
Proof. destruct p; reflexivity. Qed.

Section Perms.
Context (get : key -> option bytes).
Definition named_value (v : option bytes) : option bytes := if unset v then None else v.
Lemma name_at_value n p : name_at get n p = named_value (get (p ++ [n])).
Proof. unfold name_at, named_value. destruct (get (p ++ [n])) as [[|x y]|]; reflexivity. Qed.
Lemma getname_plain n : plain n -> forall p fuel, Forall plain p -> length p <= fuel ->
  exists v, getname get fuel p n = Ok v /\ named_value v = nearest (name_at get n) p.
Proof.
  intros Pn. induction p as [|x p IH] using rev_ind; intros fuel P L.
  - exists (get [n]). rewrite nearest_nil, name_at_value. split; [|reflexivity]. destruct fuel; cbn [getname]; rewrite entry_ok by (auto; left; constructor); cbn [bind isempty negb named filter app]; rewrite andb_false_r; reflexivity.
  - pose proof P as P'. apply Forall_app in P'. destruct P' as [Pp _]. rewrite app_length in L. cbn in L. destruct fuel as [|fuel]; [lia|]. cbn [getname]. rewrite entry_ok by (auto; left; assumption). rewrite named_id by assumption. cbn [bind].
    rewrite isempty_app, andb_true_r, nearest_snoc, name_at_value. destruct (unset (get ((p ++ [x]) ++ [n]))) eqn:U.
    + rewrite remove_snoc by exact Pp. unfold named_value at 2. rewrite U. apply IH; [exact Pp|lia].
    + eexists. split; [reflexivity|]. unfold named_value. rewrite U. destruct (get ((p ++ [x]) ++ [n])); [reflexivity|discriminate].
Qed.
Lemma getname_ok n k : plain n -> canonical k -> exists v, getname get (length k) k n = Ok v /\ named_value v = nearest (name_at get n) (named k).
Proof.
  intros Pn C. destruct (canonical_cases k C) as [P|(p & Ne & P & ->)].
  - rewrite named_id by exact P. apply getname_plain; auto.
  - rewrite named_slash by exact P. rewrite app_length. cbn [length]. rewrite Nat.add_comm. cbn [Nat.add getname]. rewrite entry_ok by assumption. rewrite named_slash by exact P. cbn [bind]. rewrite isempty_app, andb_true_r.
    destruct (unset (get (p ++ [n]))) eqn:U.
    + rewrite remove_snoc by exact P. apply getname_plain; auto.
    + eexists. split; [reflexivity|]. destruct (exists_last Ne) as (p' & x & ->). rewrite nearest_snoc, name_at_value. unfold named_value. rewrite U. destruct (get ((p' ++ [x]) ++ [n])); [reflexivity|discriminate].
Qed.
Definition perm_name (l : level) (t : perm) : bytes := level2str l ++ B "-" ++ type2str t.
Lemma perm_plain l t : plain (perm_name l t).
Proof. destruct l, t; (split; [discriminate|split; [|unfold nul_free]; vm_compute; intuition discriminate]). Qed.
Definition flag (o : option bool) : bool := match o with Some b => b | None => false end.
Lemma oneperm_plain l t : forall p fuel, Forall plain p -> length p <= fuel -> getoneperm get fuel p l t = Ok (flag (nearest (perm_at get l t) p)).
Proof.
  induction p as [|x p IH] using rev_ind; intros fuel P L.
  - rewrite nearest_nil. unfold perm_at. destruct fuel; cbn [getoneperm]; fold (perm_name l t); rewrite entry_ok by (try apply perm_plain; left; constructor); cbn [bind isempty named filter app]; destruct (str2int (get [perm_name l t]) (-1) =? -1)%Z; reflexivity.
  - pose proof P as P'. apply Forall_app in P'. destruct P' as [Pp _]. rewrite app_length in L. cbn in L. destruct fuel as [|fuel]; [lia|]. cbn [getoneperm]. fold (perm_name l t). rewrite entry_ok by (try apply perm_plain; left; assumption). rewrite named_id by assumption. cbn [bind].
    rewrite isempty_app, nearest_snoc. unfold perm_at at 1. fold (perm_name l t). cbn zeta. destruct (str2int (get ((p ++ [x]) ++ [perm_name l t])) (-1) =? -1)%Z; [|reflexivity]. rewrite remove_snoc by exact Pp. apply IH; [exact Pp|lia].
Qed.
Lemma oneperm_ok l t k : canonical k -> getoneperm get (length k) k l t = Ok (flag (nearest (perm_at get l t) (named k))).
Proof.
  intros C. destruct (canonical_cases k C) as [P|(p & Ne & P & ->)].
  - rewrite named_id by exact P. apply oneperm_plain; auto.
  - rewrite named_slash by exact P. rewrite app_length. cbn [length]. rewrite Nat.add_comm. cbn [Nat.add getoneperm]. fold (perm_name l t). rewrite entry_ok by (try apply perm_plain; assumption). rewrite named_slash by exact P. cbn [bind]. rewrite isempty_app.
    destruct (str2int (get (p ++ [perm_name l t])) (-1) =? -1)%Z eqn:U.
    + rewrite remove_snoc by exact P. apply oneperm_plain; auto.
    + destruct (exists_last Ne) as (p' & x & ->). rewrite nearest_snoc. unfold perm_at at 1. fold (perm_name l t). cbn zeta. rewrite U. reflexivity.
Qed.
Lemma owner_plain : plain (B "owner") /\ plain (B "group").
Proof. split; (split; [discriminate|split; [|unfold nul_free]; vm_compute; intuition discriminate]). Qed.
Lemma beq_eq a b : beq a b = true <-> a = b.
Proof. unfold beq. destruct (list_eq_dec ascii_dec a b); split; congruence. Qed.
Definition ownsb (c : creds) (p : list bytes) : bool :=
  match nearest (name_at get (B "owner")) p, user c with Some o, Some u => beq u o | _, _ => false end.
Definition memberb (c : creds) (p : list bytes) : bool :=
  match nearest (name_at get (B "group")) p with Some g => existsb (beq g) (groups c) | None => false end.
Lemma ownsb_ok c p : ownsb c p = true <-> owns get c p.
Proof.
  unfold ownsb, owns. split.
  - destruct (nearest (name_at get (B "owner")) p) as [o|] eqn:E; [|discriminate]. destruct (user c) as [u|] eqn:F; [|discriminate]. intros H. apply beq_eq in H. subst u. exists o. rewrite inherited_iff. auto.
  - intros (o & H & E). apply inherited_iff in H. rewrite H, E. apply beq_eq. reflexivity.
Qed.
Lemma memberb_ok c p : memberb c p = true <-> member get c p.
Proof.
  unfold memberb, member. split.
  - destruct (nearest (name_at get (B "group")) p) as [g|] eqn:E; [|discriminate]. intros H. apply existsb_exists in H. destruct H as (x & Hx & Q). apply beq_eq in Q. subst x. exists g. rewrite inherited_iff. auto.
  - intros (g & H & E). apply inherited_iff in H. rewrite H. apply existsb_exists. exists g. split; [exact E|apply beq_eq; reflexivity].
Qed.
Definition level_of (c : creds) (p : list bytes) : level := if ownsb c p then USER else if memberb c p then GROUP else WORLD.
Lemma level_of_ok c p l : at_level get c p l <-> l = level_of c p.
Proof.
  unfold level_of. pose proof (ownsb_ok c p) as O. pose proof (memberb_ok c p) as M. unfold at_level. destruct (ownsb c p), (memberb c p), l; split; try congruence; intuition congruence.
Qed.
Lemma getperm_eq k c t : canonical k -> getperm get k c t = Ok (flag (nearest (perm_at get (level_of c (named k)) t) (named k))).
Proof.
  intros C. unfold getperm. destruct (getname_ok (B "owner") k (proj1 owner_plain) C) as (o & -> & Eo). destruct (getname_ok (B "group") k (proj2 owner_plain) C) as (g & -> & Eg). cbn [bind].
  rewrite oneperm_ok by exact C. do 3 f_equal. f_equal. unfold level_of, ownsb, memberb. rewrite <- Eo, <- Eg. unfold named_value.
  destruct (unset o) eqn:Uo; cbn [negb andb].
  - destruct (unset g) eqn:Ug; cbn [negb andb]; [reflexivity|]. destruct g; reflexivity.
  - destruct o as [o|]; [|discriminate]. destruct (user c) as [u|].
    + destruct (beq u o); [reflexivity|]. destruct (unset g) eqn:Ug; cbn [negb andb]; [reflexivity|]. destruct g; reflexivity.
    + destruct (unset g) eqn:Ug; cbn [negb andb]; [reflexivity|]. destruct g; reflexivity.
Qed.
Lemma getperm_ok k c t : canonical k -> exists b, getperm get k c t = Ok b /\ (b = true <-> allowed get c (named k) t).
Proof.
  intros C. eexists. split; [apply getperm_eq, C|]. unfold allowed. split.
  - intros H. exists (level_of c (named k)). split; [apply level_of_ok; reflexivity|]. apply inherited_iff. destruct (nearest _ _) as [[|]|]; try discriminate. reflexivity.
  - intros (l & Hl & H). apply level_of_ok in Hl. subst l. apply inherited_iff in H. rewrite H. reflexivity.
Qed.
Lemma collapse_tail x l : canonical (x :: l) -> short (x :: l) -> l <> [] \/ x <> [] ->
  removefirst (x :: l) 1 = collapse l /\ canonical (collapse l) /\ named (collapse l) = named l /\ short (collapse l).
Proof.
  intros C Sh _. rewrite removefirst_eq by (auto; lia). change (Z.to_nat 1) with 1. cbn [skipn]. split; [reflexivity|].
  pose proof (canonical_skipn 1 _ C) as Q. cbn [skipn] in Q. split; [exact Q|]. split; [destruct l as [|[|] [|]]; reflexivity|]. unfold short in *. destruct l as [|[|] [|]]; cbn [collapse length] in *; lia.
Qed.
Lemma drill_ok c : forall fuel left check, canonical left -> short left -> Forall plain check -> length left <= fuel ->
  exists b, drill get fuel check left c = Ok b /\ (b = true <-> forall x y, named left = x ++ y -> y <> [] -> allowed get c (check ++ x) EXEC).
Proof.
  induction fuel as [|fuel IH]; intros left check C Sh P L.
  - destruct left; [|cbn in L; lia]. exists true. split; [reflexivity|]. split; [|reflexivity]. intros _ x y E Ne. cbn in E. destruct x; [cbn in E; congruence|discriminate].
  - destruct left as [|s l]; [exists true; split; [reflexivity|]; split; [|reflexivity]; intros _ x y E Ne; cbn in E; destruct x; [cbn in E; congruence|discriminate]|].
    assert (Ps : plain s) by (destruct C as [F|(k' & Ne & F & E)]; [exact (Forall_inv F)|]; destruct k' as [|s' k']; [congruence|]; injection E as <- _; exact (Forall_inv F)).
    cbn [drill isempty]. destruct (getperm_ok check c EXEC (or_introl P)) as (b & -> & Hb). rewrite named_id in Hb by exact P. cbn [bind].
    assert (Ns : named (s :: l) = s :: named l) by (unfold named; cbn; destruct s; [destruct Ps; congruence|reflexivity]). rewrite Ns.
    destruct b.
    + assert (K : kfirst (s :: l) 1 = [s]) by (rewrite kfirst_eq by lia; cbn; destruct s; [destruct Ps; congruence|reflexivity]). rewrite K.
      destruct (collapse_tail s l C Sh) as (-> & C' & N' & Sh'); [right; apply Ps|].
      assert (A : appendkey check [s] = check ++ [s]).
      { unfold appendkey. cbn [isempty orb hastrailingslash negb andb last filter]. destruct s as [|s0 s]; [destruct Ps; congruence|]. cbn. apply collapse_id. destruct check as [|? [|? ?]]; discriminate. }
      rewrite A. destruct (IH (collapse l) (check ++ [s]) C' Sh') as (b & E & H).
      * apply Forall_app. split; [exact P|constructor; [exact Ps|constructor]].
      * cbn in L. destruct l as [|[|] [|]]; cbn in *; lia.
      * exists b. split; [exact E|]. rewrite H, N'. split.
        -- intros Q x y Ex Ne. destruct x as [|x0 x]; [rewrite app_nil_r; apply Hb; reflexivity|]. injection Ex as <- Ex. specialize (Q x y Ex Ne). rewrite <- app_assoc in Q. exact Q.
        -- intros Q x y Ex Ne. rewrite <- app_assoc. apply (Q (s :: x) y); [cbn; congruence|exact Ne].
    + exists false. split; [reflexivity|]. split; [discriminate|]. intros Q. exfalso. specialize (Q [] (s :: named l) eq_refl ltac:(discriminate)). rewrite app_nil_r in Q. apply Hb in Q. discriminate.
Qed.
Lemma findperm_ok k c t : PermSpec.good_key k -> exists b, findperm get k c t = Ok b /\ (b = true <-> granted get c (named k) t).
Proof.
  intros [C Sh]. unfold findperm, drilldown, granted. destruct (drill_ok c (length k) k [] C Sh (Forall_nil _) (le_n _)) as (b & -> & Hb). cbn [bind app] in *. destruct b.
  - destruct (getperm_ok k c t C) as (b & -> & H). exists b. split; [reflexivity|]. rewrite H. split; [intros Q; split; [apply Hb; reflexivity|exact Q]|tauto].
  - exists false. split; [reflexivity|]. split; [discriminate|]. intros [Q _]. apply Hb in Q. discriminate.
Qed.
End Perms.

(** ** chmod *)
Lemma nz_land x i : nz (N.land x (2 ^ i)) = N.testbit x i.
Proof.
  unfold nz. assert (E : N.land x (2 ^ i) = if N.testbit x i then (2 ^ i)%N else 0%N).
  { apply N.bits_inj. intros j. rewrite N.land_spec. destruct (N.eq_dec i j) as [<-|D].
    - rewrite N.pow2_bits_true, andb_true_r. destruct (N.testbit x i) eqn:E; [rewrite N.pow2_bits_true; reflexivity|rewrite N.bits_0; reflexivity].
    - rewrite N.pow2_bits_false by exact D. rewrite andb_false_r. destruct (N.testbit x i); [rewrite N.pow2_bits_false by exact D|rewrite N.bits_0]; reflexivity. }
  rewrite E. destruct (N.testbit x i); [|reflexivity]. destruct (N.eqb_spec (2 ^ i) 0) as [Q|]; [|reflexivity]. elim (N.pow_nonzero 2 i); [lia|exact Q].
Qed.
Lemma shifted m k i : N.testbit (N.shiftr (N.land m (N.shiftl 7 k)) k) i = N.testbit m (i + k) && N.testbit 7 i.
Proof. rewrite N.shiftr_spec by apply N.le_0_l. rewrite N.land_spec, N.shiftl_spec_high by lia. rewrite N.add_sub. reflexivity. Qed.
Definition mode_bit (l : level) (t : perm) : N :=
  (match l with USER => 6 | GROUP => 3 | WORLD => 0 end + match t with READ => 2 | WRITE => 1 | EXEC => 0 end)%N.
Definition all_perms : list (level * perm) :=
  [(USER, READ); (USER, WRITE); (USER, EXEC); (GROUP, READ); (GROUP, WRITE); (GROUP, EXEC); (WORLD, READ); (WORLD, WRITE); (WORLD, EXEC)].
Definition digit01 (b : bool) : bytes := if b then B "1" else B "0".
Lemma set_all_ok path : canonical path -> forall l, set_all path l = Ok (map (fun x => (named path ++ [perm_name (fst (fst x)) (snd (fst x))], digit01 (snd x))) l).
Proof.
  intros C. induction l as [|[[lv t] b] l IH]; [reflexivity|]. cbn [set_all map fst snd]. unfold setperm. fold (perm_name lv t). rewrite entry_ok by (auto using perm_plain). cbn [bind]. rewrite IH. reflexivity.
Qed.
Lemma chmod_ok path m : canonical path -> chmod path m = Ok (map (fun x => (named path ++ [perm_name (fst x) (snd x)], digit01 (N.testbit m (mode_bit (fst x) (snd x))))) all_perms).
Proof.
  intros C. unfold chmod, chmod3. rewrite set_all_ok by exact C. f_equal. unfold all_perms. cbn [map fst snd mode_bit N.add].
  change 4%N with (2 ^ 2)%N. change 1%N with (2 ^ 0)%N. rewrite !nz_land.
  assert (E2 : forall x, nz (N.land x 2) = N.testbit x 1) by (intros x; exact (nz_land x 1)). rewrite !E2.
  change 448%N with (N.shiftl 7 6). change 56%N with (N.shiftl 7 3). rewrite !shifted, !N.land_spec. cbn [N.testbit Pos.testbit N.add Pos.add Pos.succ]. rewrite !andb_true_r. reflexivity.
Qed.
Section Chmod.
Context {P : Type} (pget : P -> key -> option bytes) (pset : P -> key -> option bytes -> P) (ok : P -> Prop) (law : lawful ok pget pset).
Definition put_all_entries (es : list (key * bytes)) (p : P) : P := fold_left (fun p e => pset p (fst e) (Some (snd e))) es p.
Lemma snoc_same p q n m : same (p ++ [n]) (q ++ [m]) = true <-> same p q = true /\ teq n m = true.
Proof.
  rewrite !same_lows, !lows_app, teq_spec. cbn. split.
  - intros E. apply app_inj_tail in E. exact E.
  - intros [-> E]. f_equal. f_equal. exact E.
Qed.
(** A list of sets at keys with distinct last segments. *)
Lemma entries_ok path : Forall plain path -> forall es p, ok p -> Forall (fun e => plain (fst e)) es -> NoDup (map (fun e => low (fst e)) es) ->
  let p' := put_all_entries (map (fun e => (path ++ [fst e], snd e)) es) p in
  ok p' /\ (forall n v, In (n, v) es -> pget p' (path ++ [n]) = Some v) /\
  (forall q, Forall plain q -> (forall n v, In (n, v) es -> same (path ++ [n]) q = false) -> pget p' q = pget p q \/ (pget p q = None /\ pget p' q = Some [])).
Proof.
  intros Pp. destruct law as [L1 L2 L3]. induction es as [|[n v] es IH]; intros p O F N; cbn [map put_all_entries fold_left].
  - split; [exact O|]. split; [intros ? ? []|]. auto.
  - cbn [map fst snd] in *. inversion N as [|? ? N1 N2]; subst. pose proof (Forall_inv F) as Pn. cbn in Pn.
    assert (Pk : Forall plain (path ++ [n])) by (apply Forall_app; split; [exact Pp|constructor; [exact Pn|constructor]]).
    pose proof (L1 p (path ++ [n]) (Some v) O Pk) as O1. destruct (IH _ O1 (Forall_inv_tail F) N2) as (O' & A & Bb). fold (put_all_entries (map (fun e => (path ++ [fst e], snd e)) es) (pset p (path ++ [n]) (Some v))). cbn zeta in *.
    assert (Other : forall m w, In (m, w) es -> same (path ++ [m]) (path ++ [n]) = false).
    { intros m w H. destruct (same (path ++ [m]) (path ++ [n])) eqn:E; [|reflexivity]. apply snoc_same in E. destruct E as [_ E]. apply teq_spec in E. elim N1. rewrite <- E. apply in_map_iff. exists (m, w). auto. }
    split; [exact O'|]. split.
    + intros m w [H|H]; [injection H as <- <-|apply A, H]. destruct (Bb (path ++ [n]) Pk Other) as [Q|(Q & _)]; rewrite L2 in Q by assumption; unfold set_spec in Q; rewrite same_refl in Q; [exact Q|discriminate].
    + intros q Pq Hq. assert (H1 : pget (pset p (path ++ [n]) (Some v)) q = pget p q \/ (pget p q = None /\ pget (pset p (path ++ [n]) (Some v)) q = Some [])).
      { rewrite L2 by assumption. unfold set_spec. rewrite (Hq n v (or_introl eq_refl)). destruct (under q (path ++ [n])); [|auto]. destruct (pget p q); auto. }
      destruct (Bb q Pq ltac:(intros m w H; apply (Hq m w); right; exact H)) as [Q|(Q1 & Q2)], H1 as [H1|(H1 & H2)].
      * left. congruence.
      * right. split; congruence.
      * right. split; congruence.
      * congruence.
Qed.
Lemma perm_names_nodup : NoDup (map (fun x => low (perm_name (fst x) (snd x))) all_perms).
Proof. vm_compute. repeat (constructor; [cbn; intuition discriminate|]). constructor. Qed.
Lemma in_all_perms l t : In (l, t) all_perms.
Proof. destruct l, t; cbn; auto 12. Qed.
Lemma perm_name_inj l t l' t' : teq (perm_name l t) (perm_name l' t') = true -> l = l' /\ t = t'.
Proof. destruct l, t, l', t'; vm_compute; intros H; try discriminate; auto. Qed.
Lemma chmod_effect path m p : canonical path -> ok p -> exists es, chmod path m = Ok es /\
  let p' := put_all_entries es p in ok p' /\
  (forall l t, perm_at (pget p') l t (named path) = Some (N.testbit m (mode_bit l t))) /\
  (forall q l t, Forall plain q -> same q (named path) = false -> perm_at (pget p') l t q = perm_at (pget p) l t q) /\
  (forall q n, Forall plain q -> In n [B "owner"; B "group"] -> name_at (pget p') n q = name_at (pget p) n q).
Proof.
  intros C O. pose proof (named_plain path C) as Pn. eexists. split; [apply chmod_ok, C|]. cbn zeta.
  set (es := map (fun x : level * perm => (perm_name (fst x) (snd x), digit01 (N.testbit m (mode_bit (fst x) (snd x))))) all_perms).
  replace (map _ all_perms) with (map (fun e : bytes * bytes => (named path ++ [fst e], snd e)) es) by (unfold es; rewrite map_map; reflexivity).
  destruct (entries_ok (named path) Pn es p O) as (O' & A & Bb).
  - unfold es. apply Forall_map. apply Forall_forall. intros x _. apply perm_plain.
  - unfold es. rewrite map_map. exact perm_names_nodup.
  - cbn zeta in *. set (p' := put_all_entries _ p) in *. split; [exact O'|].
    assert (In_es : forall n v, In (n, v) es -> exists l t, n = perm_name l t).
    { intros n v H. unfold es in H. apply in_map_iff in H. destruct H as ([l t] & H & _). injection H as <- _. eauto. }
    split; [|split].
    + intros l t. unfold perm_at. fold (perm_name l t). rewrite (A (perm_name l t) (digit01 (N.testbit m (mode_bit l t)))); [destruct (N.testbit m (mode_bit l t)); reflexivity|].
      unfold es. apply in_map_iff. exists (l, t). split; [reflexivity|apply in_all_perms].
    + intros q l t Pq D. unfold perm_at. fold (perm_name l t). destruct (Bb (q ++ [perm_name l t])) as [E|(E1 & E2)].
      * apply Forall_app. split; [exact Pq|constructor; [apply perm_plain|constructor]].
      * intros n v H. destruct (same (named path ++ [n]) (q ++ [perm_name l t])) eqn:E; [|reflexivity]. apply snoc_same in E. destruct E as [E _]. assert (same q (named path) = true) by (apply same_lows; apply same_lows in E; congruence). congruence.
      * rewrite E. reflexivity.
      * rewrite E1, E2. reflexivity.
    + intros q n Pq Hn. assert (Ppn : plain n) by (destruct owner_plain, Hn as [<-|[<-|[]]]; assumption). unfold name_at. destruct (Bb (q ++ [n])) as [E|(E1 & E2)].
      * apply Forall_app. split; [exact Pq|constructor; [exact Ppn|constructor]].
      * intros x v H. destruct (In_es x v H) as (l & t & ->). destruct (same (named path ++ [perm_name l t]) (q ++ [n])) eqn:E; [|reflexivity]. apply snoc_same in E. destruct E as [_ E]. exfalso. clear - E Hn. destruct l, t, Hn as [<-|[<-|[]]]; discriminate E.
      * rewrite E. reflexivity.
      * rewrite E1, E2. reflexivity.
Qed.
End Chmod.

(** ** Read-only and subtree generators *)
Section Filters.
Context {S : Type} (gget : S -> key -> option bytes) (gset : S -> key -> option bytes -> S) (grefresh gcommit gflush : S -> S).
Notation ro := (ro_call gset grefresh gcommit gflush).
Lemma joinkey_plain p k : Forall plain p -> Forall plain k -> k <> [] -> joinkey p k = p ++ k.
Proof.
  intros Pp Pk Ne. unfold joinkey. assert (X : forall l, Forall plain l -> filter not_nil l = l).
  { intros l H. rewrite <- (filter_plain l H) at 2. apply filter_ext. intros [|]; reflexivity. }
  rewrite !X by assumption. replace (isempty k) with false by (destruct k; [congruence|reflexivity]). rewrite hasts_plain by exact Pk. cbn [orb]. rewrite app_nil_r. apply plain_collapse. apply Forall_app. auto.
Qed.
Lemma keymap_plain sub k : Forall plain sub -> Forall plain k -> sub_keymap sub k = Some (sub ++ k).
Proof. intros Ps Pk. unfold sub_keymap. destruct k as [|s k]; [cbn; rewrite app_nil_r; reflexivity|]. cbn [isempty]. rewrite joinkey_plain by (auto; discriminate). reflexivity. Qed.
Lemma under_prefix p a b : under (p ++ a) (p ++ b) = under a b.
Proof.
  induction p as [|x p IH]; [reflexivity|]. cbn [app under]. assert (T : teq x x = true) by (apply teq_spec; reflexivity). rewrite T. exact IH.
Qed.
Lemma same_prefix p a b : same (p ++ a) (p ++ b) = same a b.
Proof. unfold same. rewrite !under_prefix. reflexivity. Qed.
Lemma reverse_plain sub k : Forall plain sub -> Forall plain k -> short k -> 
  (under sub k = true -> sub_reverse sub k = Some (skipn (length sub) k)) /\ (under sub k = false -> sub_reverse sub k = None).
Proof.
  intros Ps Pk Sh. pose proof (issub_under sub k Ps Pk) as I. unfold issub in I. unfold sub_reverse. destruct (suborsame sub k) as [r|] eqn:E.
  - split; [|congruence]. intros _. f_equal. unfold suborsame in E. rewrite hasts_plain in E by exact Ps. destruct (key_eq _ _); [|discriminate]. injection E as <-. apply removefirst_plain; assumption.
  - split; [congruence|reflexivity].
Qed.
Context (ok : S -> Prop) (law : lawful ok gget gset).
Lemma sub_set sub k v s : Forall plain sub -> Forall plain k -> ok s -> let s' := sub_call gset grefresh gcommit gflush sub s (CSet k v) in
  ok s' /\ (forall q, Forall plain q -> sub_get gget sub s' q = set_spec (sub_get gget sub s) k v q) /\
  (forall q, Forall plain q -> under sub q = false -> gget s' q = gget s q \/ (gget s q = None /\ gget s' q = Some [] /\ under q sub = true)).
Proof.
  intros Ps Pk O. cbn zeta. unfold sub_call, filter_call. rewrite keymap_plain by assumption. destruct law as [L1 L2 L3]. assert (P : Forall plain (sub ++ k)) by (apply Forall_app; auto).
  split; [apply L1; assumption|]. split.
  - intros q Pq. unfold sub_get, filter_get. rewrite keymap_plain by assumption. rewrite L2 by (try apply Forall_app; auto). unfold set_spec. rewrite same_prefix, !under_prefix. rewrite keymap_plain by assumption. reflexivity.
  - intros q Pq U. rewrite L2 by assumption. unfold set_spec. destruct v as [v|].
    + destruct (same (sub ++ k) q) eqn:E.
      * exfalso. apply same_lows in E. assert (under sub q = true); [|congruence]. apply under_lows. exists (lows k). rewrite <- lows_app. congruence.
      * destruct (under q (sub ++ k)) eqn:E'; [|auto]. destruct (gget s q) eqn:G; [auto|]. right. split; [reflexivity|]. split; [reflexivity|].
        apply under_lows in E'. destruct E' as (r & E'). rewrite lows_app in E'. symmetry in E'. destruct (app_eq_app _ _ _ _ E') as (c & [[E1 E2]|[E1 E2]]).
        -- exfalso. assert (under sub q = true); [|congruence]. apply under_lows. exists c. exact E1.
        -- apply under_lows. exists c. exact E1.
    + destruct (under (sub ++ k) q) eqn:E; [|auto]. exfalso. assert (under sub q = true); [|congruence]. eapply under_trans; [apply under_app|exact E].
Qed.
End Filters.
