(** Proofs about log files. *)
From Coq Require Import DecimalNat FinFun.
From Verif Require Import Base RotSpec RotModel.
Local Open Scope Z_scope.

(** ** Names *)
Lemma digits_inj u : forall v, digits u = digits v -> u = v.
Proof. induction u; intros [] H; try discriminate; try reflexivity; cbn [digits] in H; injection H as H; f_equal; auto. Qed.
Lemma dec_inj a b : dec a = dec b -> a = b.
Proof. intros H. apply digits_inj in H. apply Unsigned.to_uint_inj, H. Qed.
Lemma dec_dot n : ~ In "."%char (dec n).
Proof. unfold dec. induction (Nat.to_uint n); cbn [digits In]; intuition discriminate. Qed.
Lemma last_dot a b c d : ~ In "."%char b -> ~ In "."%char d -> a ++ "."%char :: b = c ++ "."%char :: d -> a = c /\ b = d.
Proof.
  revert c. induction a as [|x a IH]; intros [|y c] NB ND H; cbn [app] in H.
  - injection H as ->. auto.
  - injection H as <- ->. exfalso. apply NB. apply in_or_app. right. left. reflexivity.
  - injection H as -> <-. exfalso. apply ND. apply in_or_app. right. left. reflexivity.
  - injection H as -> H. destruct (IH c NB ND H) as [-> ->]. auto.
Qed.
Lemma fullname_inj z b d1 n1 d2 n2 : zoned z -> fullname z b d1 n1 = fullname z b d2 n2 -> d1 = d2 /\ n1 = n2.
Proof.
  intros Z H. unfold fullname in H. apply app_inv_head in H. cbn [B app list_ascii_of_string] in H. injection H as H. apply last_dot in H; try apply dec_dot. destruct H as [A C]. split; [apply Z, A|apply dec_inj, C].
Qed.
Lemma fullname_same z b d n1 n2 : fullname z b d n1 = fullname z b d n2 -> n1 = n2.
Proof. intros H. unfold fullname in H. apply app_inv_head in H. cbn [B app list_ascii_of_string] in H. injection H as H. apply last_dot in H; try apply dec_dot. destruct H as [A C]. apply dec_inj, C. Qed.
Lemma fullname_cur z b d n : fullname z b d n <> curname b.
Proof.
  intros H. unfold fullname, curname in H. apply app_inv_head in H. cbn [B app list_ascii_of_string] in H. injection H as H.
  assert (I : In "."%char (date z d ++ "."%char :: dec n)) by (apply in_or_app; right; left; reflexivity). rewrite H in I. cbn [In] in I. intuition discriminate.
Qed.

(** ** Directories *)
Lemma same_iff a b : same a b = true <-> a = b.
Proof. unfold same. destruct (list_eq_dec Ascii.ascii_dec a b); split; congruence. Qed.
Lemma same_refl a : same a a = true.
Proof. apply same_iff. reflexivity. Qed.
Lemma same_neq a b : a <> b -> same a b = false.
Proof. intros N. destruct (same a b) eqn:E; [apply same_iff in E; contradiction|reflexivity]. Qed.
Definition uniq (d : dir) : Prop := NoDup (map fst d).
Lemma get_in d n e : get d n = Some e -> In (n, e) d.
Proof. induction d as [|[m f] d IH]; [discriminate|]. cbn [get]. destruct (same m n) eqn:E; [apply same_iff in E; subst; intros H; injection H as ->; left; reflexivity|intros H; right; auto]. Qed.
Lemma get_none d n : get d n = None <-> ~ In n (map fst d).
Proof. induction d as [|[m f] d IH]; cbn [get map fst In]; [tauto|]. destruct (same m n) eqn:E; [apply same_iff in E; subst; split; [discriminate|tauto]|]. rewrite IH. split; [intros H [G|G]; [subst; rewrite same_refl in E; discriminate|auto]|tauto]. Qed.
Lemma uniq_filter f d : uniq d -> uniq (filter f d).
Proof.
  unfold uniq. induction d as [|x d IH]; intros N; [exact N|]. cbn [map] in N. inversion N as [|? ? X N']; subst. cbn [filter]. destruct (f x); [|auto]. cbn [map]. constructor; [|auto].
  intros I. apply X. apply in_map_iff in I. destruct I as (y & E & I). apply filter_In in I. rewrite <- E. apply in_map, I.
Qed.
Lemma get_filter f d n : uniq d -> get (filter f d) n = match get d n with Some e => if f (n, e) then Some e else None | None => None end.
Proof.
  induction d as [|[m e] d IH]; intros N; [reflexivity|]. inversion N as [|? ? X N']; subst. cbn [filter get]. destruct (same m n) eqn:E.
  - apply same_iff in E. subst m. destruct (f (n, e)) eqn:F; [cbn [get]; rewrite same_refl; reflexivity|]. rewrite IH by exact N'. cbn [fst] in X. apply get_none in X. rewrite X. reflexivity.
  - destruct (f (m, e)); [cbn [get]; rewrite E|]; apply IH, N'.
Qed.
Lemma get_del d n m : n <> m -> get (del d n) m = get d m.
Proof.
  intros N. unfold del. induction d as [|[k e] d IH]; [reflexivity|]. cbn [filter fst get]. destruct (same k n) eqn:E; cbn [negb get].
  - apply same_iff in E. subst k. rewrite IH. rewrite same_neq by exact N. reflexivity.
  - rewrite IH. reflexivity.
Qed.
Lemma get_put d n e m : get (put d n e) m = if same n m then Some e else get d m.
Proof. unfold put. cbn [get]. destruct (same n m) eqn:E; [reflexivity|]. apply get_del. intros ->. rewrite same_refl in E. discriminate. Qed.
Lemma get_put_same d n e : get (put d n e) n = Some e.
Proof. rewrite get_put, same_refl. reflexivity. Qed.
Lemma get_put_other d n e m : n <> m -> get (put d n e) m = get d m.
Proof. intros N. rewrite get_put, same_neq by exact N. reflexivity. Qed.
Lemma uniq_put d n e : uniq d -> uniq (put d n e).
Proof.
  intros U. unfold put, uniq. cbn [map fst]. constructor; [|apply uniq_filter, U]. intros I. apply in_map_iff in I. destruct I as (x & E & I). apply filter_In in I. destruct I as [_ I]. rewrite E, same_refl in I. discriminate.
Qed.

(** ** What is always so *)

Definition usable (l : log) (d : dir) (nm : bytes) : Prop :=
  get d nm = None \/ exists s ls m, get d nm = Some (File s ls m) /\ size s ls < MAX_LOGFILE_SZ /\ allow_append l = true.
Definition unusable (l : log) (d : dir) (nm : bytes) : Prop :=
  exists s ls m, get d nm = Some (File s ls m) /\ (MAX_LOGFILE_SZ <= size s ls \/ allow_append l = false).
Lemma pick_ok z l day d : sane z (base l) d -> forall fuel num,
  (exists k, (k < fuel)%nat /\ get d (fullname z (base l) day (num + k)) = None) ->
  exists n, pick fuel z l day d num = Ok (fullname z (base l) day n) /\ (num <= n)%nat /\ usable l d (fullname z (base l) day n) /\
    forall k, (num <= k < n)%nat -> unusable l d (fullname z (base l) day k).
Proof.
  intros S. induction fuel as [|fuel IH]; intros num (k & K & G); [lia|]. cbn [pick].
  destruct (get d (fullname z (base l) day num)) as [e|] eqn:E.
  - destruct (S _ _ _ E) as (s & ls & m & -> & M). destruct ((MAX_LOGFILE_SZ <=? size s ls) || negb (allow_append l)) eqn:Q.
    + destruct k as [|k]; [rewrite Nat.add_0_r, E in G; discriminate|]. destruct (IH (Datatypes.S num)) as (n & P & L & U & X).
      { exists k. split; [lia|]. rewrite <- G. do 2 f_equal. lia. }
      exists n. split; [exact P|]. split; [lia|]. split; [exact U|]. intros j J. destruct (Nat.eq_dec j num) as [->|]; [|apply X; lia].
      exists s, ls, m. split; [exact E|]. apply orb_prop in Q. destruct Q as [Q|Q]; [left; apply Z.leb_le, Q|right; apply negb_true_iff, Q].
    + exists num. split; [reflexivity|]. split; [lia|]. apply orb_false_iff in Q. destruct Q as [Q1 Q2]. split; [|intros j J; lia]. right. exists s, ls, m. split; [exact E|]. apply Z.leb_gt in Q1. apply negb_false_iff in Q2. auto.
  - exists num. split; [reflexivity|]. split; [lia|]. split; [left; exact E|intros j J; lia].
Qed.
Lemma free_number z b day d : exists k, (k < S (length d))%nat /\ get d (fullname z b day (0 + k)) = None.
Proof.
  destruct (existsb (fun k => match get d (fullname z b day k) with None => true | Some _ => false end) (seq 0 (S (length d)))) eqn:E.
  - apply existsb_exists in E. destruct E as (k & I & G). apply in_seq in I. exists k. split; [lia|]. cbn [Nat.add]. destruct (get d _); [discriminate|reflexivity].
  - exfalso. assert (I : incl (map (fullname z b day) (seq 0 (S (length d)))) (map fst d)).
    { intros x X. apply in_map_iff in X. destruct X as (k & <- & K). destruct (get d (fullname z b day k)) as [e|] eqn:G.
      - apply get_in in G. apply in_map_iff. exists (fullname z b day k, e). auto.
      - assert (F : existsb (fun k => match get d (fullname z b day k) with None => true | Some _ => false end) (seq 0 (S (length d))) = true) by (apply existsb_exists; exists k; rewrite G; auto). congruence. }
    apply NoDup_incl_length in I; [rewrite !map_length, seq_length in I; lia|].
    apply Injective_map_NoDup; [|apply seq_NoDup]. intros x y. apply fullname_same.
Qed.

Lemma starts_iff p : forall s, starts p s = true <-> begins p s.
Proof.
  induction p as [|a p IH]; intros s; [split; [exists s; reflexivity|reflexivity]|]. destruct s as [|c s]; cbn [starts].
  - split; [discriminate|intros (r & H); discriminate].
  - destruct (Ascii.eqb_spec a c) as [->|N].
    + rewrite IH. split; intros (r & H); exists r; [rewrite H; reflexivity|injection H as ->; reflexivity].
    + split; [discriminate|]. intros (r & H). injection H as <- _. contradiction.
Qed.
Definition isdir (e : entry) : bool := match e with Dir _ => true | _ => false end.
Definition goes (b : bytes) (keep now : Z) (n : bytes) (e : entry) : bool := negb (keep =? 0) && starts b n && (mtime e <? now - keep * 86400) && negb (isdir e).
Lemma trim_ok d b keep now : uniq d -> 0 <= keep <= 24855 -> exists d', trim_old_logs d b keep now = Ok d' /\ uniq d' /\
  forall n, get d' n = match get d n with Some e => if goes b keep now n e then None else Some e | None => None end.
Proof.
  intros U K. unfold trim_old_logs, goes. destruct (keep =? 0); cbn [negb andb].
  - exists d. split; [reflexivity|]. split; [exact U|]. intros n. destruct (get d n); reflexivity.
  - destruct (existsb (fun x => starts b (fst x)) d) eqn:E; cbn [negb].
    + replace (keep * 86400 <? - 2 ^ 31) with false by (symmetry; apply Z.ltb_ge; lia). replace (2 ^ 31 <=? keep * 86400) with false by (symmetry; apply Z.leb_gt; lia). cbn [orb].
      eexists. split; [reflexivity|]. split; [apply uniq_filter, U|]. intros n. rewrite get_filter by exact U. destruct (get d n) as [e|]; [|reflexivity]. cbn [fst snd].
      destruct (starts b n), (mtime e <? now - keep * 86400), e; reflexivity.
    + exists d. split; [reflexivity|]. split; [exact U|]. intros n. destruct (get d n) as [e|] eqn:G; [|reflexivity]. apply get_in in G.
      destruct (starts b n) eqn:S; [|reflexivity]. assert (F : existsb (fun x => starts b (fst x)) d = true) by (apply existsb_exists; exists (n, e); auto). congruence.
Qed.

Definition made (z : zone) (now : Z) (d : dir) (l : log) (d' : dir) (n : nat) : Prop :=
  let nm := fullname z (base l) (day_of z now) n in
  usable l d nm /\ (forall k, (k < n)%nat -> unusable l d (fullname z (base l) (day_of z now) k)) /\
  (get d' nm = get d nm \/ get d nm = None /\ get d' nm = Some (File 0 [] now)) /\ (exists e, get d' nm = Some e) /\
  (linkish d (base l) -> get d' (curname (base l)) = Some (Link nm now)) /\
  (forall x, x <> nm -> x <> curname (base l) \/ ~ linkish d (base l) ->
    get d' x = match get d x with Some e => if goes (base l) (keep_for l) now x e then None else Some e | None => None end).
Lemma day_bounds z now : 0 <= now + gmtoffset z -> day_of z now * 86400 <= now + gmtoffset z < day_of z now * 86400 + 86400.
Proof. intros H. unfold day_of. rewrite Z.quot_div_nonneg by lia. pose proof (Z.div_mod (now + gmtoffset z) 86400). pose proof (Z.mod_pos_bound (now + gmtoffset z) 86400). lia. Qed.
Lemma start_ok z now d l : zoned z -> uniq d -> sane z (base l) d -> 0 <= now + gmtoffset z -> 0 <= keep_for l <= 24855 ->
  exists d' n, start_log z now d l = Ok (d', Log (base l) (keep_for l) (allow_append l) (Some (fullname z (base l) (day_of z now) n)) (day_of z now)) /\
    uniq d' /\ sane z (base l) d' /\ made z now d l d' n.
Proof.
  intros Z U S P K. pose proof (day_bounds z now P) as DB. unfold start_log. destruct (pick_ok z l (day_of z now) d S (Datatypes.S (length d)) 0 (free_number z (base l) (day_of z now) d)) as (n & E & _ & US & UN).
  rewrite E. cbn [bind]. set (nm := fullname z (base l) (day_of z now) n) in *. set (d1 := open_append d nm now). set (d2 := link_current d1 (base l) nm now).
  assert (NC : nm <> curname (base l)) by apply fullname_cur.
  assert (U1 : uniq d1) by (unfold d1, open_append; destruct (get d nm); [exact U|apply uniq_put, U]).
  assert (G1 : forall x, x <> nm -> get d1 x = get d x) by (intros x X; unfold d1, open_append; destruct (get d nm); [reflexivity|apply get_put_other; congruence]).
  assert (G1n : get d1 nm = match get d nm with Some e => Some e | None => Some (File 0 [] now) end) by (unfold d1, open_append; destruct (get d nm) eqn:Q; [exact Q|apply get_put_same]).
  assert (U2 : uniq d2) by (unfold d2, link_current; destruct (get d1 (curname (base l))) as [[]|]; auto using uniq_put).
  assert (L1 : linkish d (base l) -> get d2 (curname (base l)) = Some (Link nm now)).
  { unfold linkish, d2, link_current. rewrite G1 by congruence. destruct (get d (curname (base l))) as [[]|]; try tauto; intros _; apply get_put_same. }
  assert (G2 : forall x, x <> curname (base l) -> get d2 x = get d1 x) by (intros x X; unfold d2, link_current; destruct (get d1 (curname (base l))) as [[]|]; auto; apply get_put_other; congruence).
  assert (G2c : ~ linkish d (base l) -> d2 = d1).
  { unfold linkish, d2, link_current. rewrite G1 by congruence. destruct (get d (curname (base l))) as [[]|]; tauto. }
  destruct (trim_ok d2 (base l) (keep_for l) now U2 K) as (d3 & E3 & U3 & G3). rewrite E3. cbn [bind].
  assert (Young : forall e, now - 86400 < mtime e -> goes (base l) (keep_for l) now nm e = false /\ goes (base l) (keep_for l) now (curname (base l)) e = false).
  { intros e M. unfold goes. destruct (Z.eqb_spec (keep_for l) 0); cbn [negb andb]; [auto|]. replace (mtime e <? now - keep_for l * 86400) with false by (symmetry; apply Z.ltb_ge; lia). rewrite !andb_false_r. auto. }
  assert (G3n : get d3 nm = match get d nm with Some e => Some e | None => Some (File 0 [] now) end).
  { rewrite G3, G2, G1n by exact NC. destruct (get d nm) as [e|] eqn:Q.
    - destruct (S _ _ _ Q) as (s & ls & m & -> & M). destruct (Young (File s ls m)) as [Y _]; [cbn; lia|]. rewrite Y. reflexivity.
    - destruct (Young (File 0 [] now)) as [Y _]; [cbn; lia|]. rewrite Y. reflexivity. }
  exists d3, n. split; [reflexivity|]. split; [exact U3|].
  split.
  - intros day k e G. destruct (list_eq_dec Ascii.ascii_dec (fullname z (base l) day k) nm) as [Q|Q].
    + apply fullname_inj in Q; [|exact Z]. destruct Q as [-> ->]. fold nm in G. rewrite G3n in G. destruct (get d nm) eqn:Q.
      * injection G as <-. eapply S. exact Q.
      * injection G as <-. exists 0, [], now. split; [reflexivity|]. lia.
    + rewrite G3, G2, G1 in G by (exact Q || apply fullname_cur). destruct (get d (fullname z (base l) day k)) eqn:Q2; [|discriminate]. destruct (goes _ _ _ _ _); [discriminate|]. injection G as <-. eapply S. exact Q2.
  - unfold made. fold nm. split; [exact US|]. split; [intros k Hk; apply UN; lia|]. split; [|split; [|split]].
    + rewrite G3n. destruct (get d nm); auto.
    + rewrite G3n. destruct (get d nm); eauto.
    + intros LK. rewrite G3, L1 by exact LK. destruct (Young (Link nm now)) as [_ Y]; [cbn; lia|]. rewrite Y. reflexivity.
    + intros x X C. rewrite G3. assert (Q : get d2 x = get d x); [|rewrite Q; reflexivity].
      destruct C as [C|C]; [rewrite G2, G1 by assumption; reflexivity|rewrite G2c by exact C; apply G1, X].
Qed.

(** ** A line *)
Record inv (z : zone) (b : bytes) (k : Z) (a : bool) (F : Prop) (d : dir) (l : log) : Prop := Inv {
  i_uniq : uniq d; i_sane : sane z b d; i_base : base l = b; i_keep : keep_for l = k; i_app : allow_append l = a;
  i_open : match opened l with
    | None => F -> linkish d b
    | Some nm => exists n s ls m, nm = fullname z b (last_day l) n /\ get d nm = Some (File s ls m) /\ (F -> exists m', get d (curname b) = Some (Link nm m'))
    end }.
Definition kept (b : bytes) (k now : Z) (d d' : dir) : Prop := forall x e, get d x = Some e ->
  (x = curname b /\ exists t m, e = Link t m) \/ (k <> 0 /\ begins b x /\ old now k e) \/ exists e', get d' x = Some e' /\ grown e e'.
Definition ready (z : zone) (b : bytes) (a : bool) (now : Z) (d : dir) (nm : bytes) : Prop :=
  exists n s ls m, nm = fullname z b (day_of z now) n /\ get d nm = Some (File s ls m) /\ size s ls <= MAX_LOGFILE_SZ.

Lemma start_inv z b k a F now d l : zoned z -> 0 <= k <= 24855 -> 0 <= now + gmtoffset z -> inv z b k a F d l ->
  exists d' nm, start_log z now d l = Ok (d', Log b k a (Some nm) (day_of z now)) /\ inv z b k a F d' (Log b k a (Some nm) (day_of z now)) /\
    kept b k now d d' /\ ready z b a now d' nm /\ (linkish d b -> get d' (curname b) = Some (Link nm now)) /\
    (k <> 0 -> forall x e, get d' x = Some e -> begins b x -> old now k e -> isdir e = true).
Proof.
  intros Z K P [U S Eb Ek Ea O]. subst b k a. destruct (start_ok z now d l Z U S P K) as (d' & n & E & U' & S' & (US & UN & G & (e0 & X0) & L & R)).
  set (nm := fullname z (base l) (day_of z now) n) in *. pose proof (day_bounds z now P) as DB.
  assert (LF : F -> linkish d (base l)). { intros f. destruct (opened l); [|auto]. destruct O as (? & ? & ? & ? & _ & _ & O). destruct (O f) as (m' & O'). unfold linkish. rewrite O'. exact I. }
  assert (XF : exists s ls m, e0 = File s ls m /\ size s ls <= MAX_LOGFILE_SZ).
  { destruct G as [G|[_ G]].
    - destruct US as [US|(s & ls & m & US & SZ & _)]; [congruence|]. exists s, ls, m. split; [congruence|lia].
    - exists 0, [], now. split; [congruence|]. cbn. unfold MAX_LOGFILE_SZ. lia. }
  destruct XF as (s & ls & m & -> & SZ).
  exists d', nm. split; [exact E|]. split.
  { constructor; try assumption; try reflexivity. cbn [opened last_day]. exists n, s, ls, m. split; [reflexivity|]. split; [exact X0|]. intros f. exists now. apply L, LF, f. }
  split.
  { intros x e Q. destruct (list_eq_dec Ascii.ascii_dec x nm) as [->|N].
    - right. right. exists e. split; [|constructor]. destruct G as [G|[G _]]; congruence.
    - destruct (list_eq_dec Ascii.ascii_dec x (curname (base l))) as [->|N2].
      + destruct e as [s1 l1 m1|t m1|m1].
        * right. assert (NL : ~ linkish d (base l)) by (unfold linkish; rewrite Q; tauto). specialize (R _ N (or_intror NL)). rewrite Q in R.
          destruct (goes _ _ _ _ _) eqn:GO; [left|right; eexists; split; [exact R|constructor]]. unfold goes in GO. apply andb_prop in GO. destruct GO as [GO _]. apply andb_prop in GO. destruct GO as [GO M]. apply andb_prop in GO. destruct GO as [GK GS].
          apply negb_true_iff, Z.eqb_neq in GK. apply starts_iff in GS. apply Z.ltb_lt in M. auto.
        * left. split; [reflexivity|eauto].
        * right. right. exists (Dir m1). split; [|constructor]. assert (NL : ~ linkish d (base l)) by (unfold linkish; rewrite Q; tauto). specialize (R _ N (or_intror NL)). rewrite R, Q. unfold goes. cbn [isdir negb]. rewrite andb_false_r. reflexivity.
      + right. specialize (R _ N (or_introl N2)). rewrite Q in R. destruct (goes _ _ _ _ _) eqn:GO; [left|right; eexists; split; [exact R|constructor]]. unfold goes in GO. apply andb_prop in GO. destruct GO as [GO _]. apply andb_prop in GO. destruct GO as [GO M]. apply andb_prop in GO. destruct GO as [GK GS].
        apply negb_true_iff, Z.eqb_neq in GK. apply starts_iff in GS. apply Z.ltb_lt in M. auto. }
  split; [exists n, s, ls, m; auto|]. split; [exact L|].
  intros KN x e Q BG OL. unfold old, day_seconds in OL. destruct (list_eq_dec Ascii.ascii_dec x nm) as [->|N].
  - exfalso. destruct (S' _ _ _ X0) as (s1 & ls1 & m1 & E1 & M1). rewrite X0 in Q. injection Q as <-. injection E1 as <- <- <-. cbn [mtime] in OL. lia.
  - assert (C : linkish d (base l) \/ ~ linkish d (base l)) by (unfold linkish; destruct (get d (curname (base l))) as [[]|]; tauto).
    destruct (list_eq_dec Ascii.ascii_dec x (curname (base l))) as [->|N2].
    + destruct C as [C|C].
      * rewrite (L C) in Q. injection Q as <-. cbn [mtime] in OL. lia.
      * rewrite R in Q by auto. destruct (get d (curname (base l))) as [e1|]; [|discriminate]. destruct (goes _ _ _ _ _) eqn:GO; [discriminate|]. injection Q as ->. unfold goes in GO. apply starts_iff in BG. rewrite BG in GO.
        apply Z.eqb_neq in KN. rewrite KN in GO. apply Z.ltb_lt in OL. rewrite OL in GO. cbn [negb andb] in GO. apply negb_false_iff, GO.
    + rewrite R in Q by auto. destruct (get d x) as [e1|]; [|discriminate]. destruct (goes _ _ _ _ _) eqn:GO; [discriminate|]. injection Q as ->. unfold goes in GO. apply starts_iff in BG. rewrite BG in GO.
      apply Z.eqb_neq in KN. rewrite KN in GO. apply Z.ltb_lt in OL. rewrite OL in GO. cbn [negb andb] in GO. apply negb_false_iff, GO.
Qed.

Lemma kept_refl b k now d : kept b k now d d.
Proof. intros x e Q. right. right. exists e. split; [exact Q|constructor]. Qed.
Lemma prefix_inv z b k a F now d l : zoned z -> 0 <= k <= 24855 -> 0 <= now + gmtoffset z -> inv z b k a F d l ->
  exists d' nm, make_prefix z now d l = Ok (d', Log b k a (Some nm) (day_of z now)) /\ inv z b k a F d' (Log b k a (Some nm) (day_of z now)) /\
    kept b k now d d' /\ ready z b a now d' nm.
Proof.
  intros Z K P I. unfold make_prefix. destruct (opened l) as [nm|] eqn:O.
  - cbn [bind]. destruct (negb (last_day l =? day_of z now) || (MAX_LOGFILE_SZ <? open_size d l)) eqn:Q.
    + destruct (start_inv z b k a F now d l Z K P I) as (d' & nm' & A & B & C & D & _). exists d', nm'. auto.
    + apply orb_false_iff in Q. destruct Q as [Q1 Q2]. apply negb_false_iff, Z.eqb_eq in Q1. apply Z.ltb_ge in Q2. destruct I as [U S Eb Ek Ea OO] eqn:EI. clear EI. rewrite O in OO.
      destruct l as [lb lk la lo ld]. cbn [base keep_for allow_append opened last_day] in *. subst. exists d, nm. split; [reflexivity|]. split; [exact I|]. split; [apply kept_refl|].
      destruct OO as (n & s & ls & m & E1 & E2 & _). exists n, s, ls, m. split; [exact E1|]. split; [exact E2|]. unfold open_size in Q2. cbn [opened] in Q2. rewrite E2 in Q2. exact Q2.
  - destruct (start_inv z b k a F now d l Z K P I) as (d' & nm' & A & B & C & D & _). rewrite A. cbn [bind last_day]. rewrite Z.eqb_refl. cbn [negb orb].
    destruct D as (n & s & ls & m & E1 & E2 & E3). unfold open_size. cbn [opened]. rewrite E2. replace (MAX_LOGFILE_SZ <? size s ls) with false by (symmetry; apply Z.ltb_ge; exact E3).
    exists d', nm'. split; [reflexivity|]. split; [exact B|]. split; [exact C|]. exists n, s, ls, m. auto.
Qed.

Lemma line_inv z b k a F now text d l : zoned z -> 0 <= k <= 24855 -> 0 <= now + gmtoffset z -> inv z b k a F d l ->
  exists d' l', log_line z now text d l = Ok (d', l') /\ inv z b k a F d' l' /\ kept b k now d d' /\
    (exists n s ls, opened l' = Some (fullname z b (day_of z now) n) /\ get d' (fullname z b (day_of z now) n) = Some (File s (ls ++ [text]) now) /\ size s ls <= MAX_LOGFILE_SZ /\
      (F -> exists m, get d' (curname b) = Some (Link (fullname z b (day_of z now) n) m))).
Proof.
  intros Z K P I. destruct (prefix_inv z b k a F now d l Z K P I) as (d1 & nm & E & I1 & KP & (n & s & ls & m & -> & G & SZ)).
  unfold log_line. rewrite E. cbn [bind]. unfold write. cbn [opened]. rewrite G. set (nm := fullname z b (day_of z now) n) in *. pose proof (day_bounds z now P) as DB.
  eexists _, _. split; [reflexivity|]. destruct I1 as [U S Eb Ek Ea O]. cbn [opened last_day base keep_for allow_append] in *. destruct O as (n' & s' & ls' & m' & E1 & E2 & O).
  assert (NC : nm <> curname b) by apply fullname_cur.
  split; [|split].
  - constructor; cbn [opened last_day base keep_for allow_append]; try reflexivity; [apply uniq_put, U| |].
    + intros day j e Q. rewrite get_put in Q. destruct (same nm (fullname z b day j)) eqn:SM.
      * apply same_iff in SM. apply fullname_inj in SM; [|exact Z]. destruct SM as [<- <-]. injection Q as <-. exists s, (ls ++ [text]), now. split; [reflexivity|lia].
      * eapply S. exact Q.
    + exists n, s, (ls ++ [text]), now. split; [reflexivity|]. split; [apply get_put_same|]. intros f. rewrite get_put_other by exact NC. apply O, f.
  - intros x e Q. destruct (KP x e Q) as [C|[C|(e1 & C & GR)]]; [left; exact C|right; left; exact C|]. right. right. rewrite get_put. destruct (same nm x) eqn:SM.
    + apply same_iff in SM. subst x. rewrite G in C. injection C as <-. exists (File s (ls ++ [text]) now). split; [reflexivity|]. inversion GR; subst; [constructor|]. rewrite <- app_assoc. constructor.
    + exists e1. auto.
  - exists n, s, ls. split; [reflexivity|]. split; [apply get_put_same|]. split; [exact SZ|]. intros f. rewrite get_put_other by exact NC. apply O, f.
Qed.
Lemma run_inv z b k a F : zoned z -> 0 <= k <= 24855 -> forall calls d l, Forall (fun c => 0 <= fst c + gmtoffset z) calls -> inv z b k a F d l ->
  exists d' l', run z calls d l = Ok (d', l') /\ inv z b k a F d' l'.
Proof.
  intros Z K. induction calls as [|[now text] calls IH]; intros d l V I; [exists d, l; auto|]. inversion V as [|? ? V1 V2]; subst. cbn [run].
  destruct (line_inv z b k a F now text d l Z K V1 I) as (d1 & l1 & E & I1 & _). rewrite E. cbn [bind]. apply IH; assumption.
Qed.
Lemma closed_inv z b k a (F : Prop) d : uniq d -> sane z b d -> (F -> linkish d b) -> inv z b k a F d (closed b k a).
Proof. intros U S L. constructor; try assumption; reflexivity. Qed.
