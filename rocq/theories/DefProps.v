(** C61: defaults. *)
From Verif Require Import Base BaseFacts Ctype IntFmtModel KeyModel KeySpec KeyProofs TempModel TempSpec TreeProofs TempProofs TempProps DefModel DefSpec DefProofs.
Local Open Scope nat_scope.

(** [m] is the key that is read for [k]. *)
Definition reads (g : gen) (k m : list bytes) : Prop := default_for m k /\
  ((tget g m <> None /\ forall c, default_for c k -> tget g c <> None -> c = m \/ before m c) \/
   (m = k /\ forall c, default_for c k -> tget g c = None)).
Lemma texists_true g c : texists g c = true <-> tget g c <> None.
Proof. unfold texists. destruct (tget g c); split; congruence. Qed.
Lemma texists_false g c : texists g c = false <-> tget g c = None.
Proof. unfold texists. destruct (tget g c); split; congruence. Qed.
Lemma keymap_reads g k : Forall plain k -> k <> [] -> exists m, keymap g k = Ok m /\ reads g k m.
Proof.
  intros P N. destruct (keymap_plain g k P N) as (m & E & D & H). exists m. split; [exact E|]. split; [exact D|]. destruct H as [(-> & H)|(T & H)].
  - right. split; [reflexivity|]. intros c Hc. apply texists_false, H, Hc.
  - left. split; [apply texists_true, T|]. intros c Hc Tc. apply H; [exact Hc|apply texists_true, Tc].
Qed.
Lemma before_irrefl c : ~ before c c.
Proof. induction c as [|s c IH]; intros H; inversion H; subst; auto. Qed.
Lemma before_anti c c' : before c c' -> ~ before c' c.
Proof. induction 1 as [s c c' N|s c c' H IH]; intros X; inversion X; subst; auto. Qed.
Lemma reads_one g k m m' : reads g k m -> reads g k m' -> m = m'.
Proof.
  intros (D & [(T & H)|(-> & H)]) (D' & [(T' & H')|(-> & H')]).
  - destruct (H m' D' T') as [E|B1]; [congruence|]. destruct (H' m D T) as [E|B2]; [congruence|]. elim (before_anti _ _ B1 B2).
  - elim T. apply H', D.
  - elim T'. apply H, D'.
  - reflexivity.
Qed.
(** Which key is read: that is unique.  exists() and the others use it. *)
Theorem C61_default g k : Forall plain k -> k <> [] -> exists m, reads g k m /\ (forall m', reads g k m' -> m' = m) /\
  (dexists g k = Ok true <-> exists c, default_for c k /\ tget g c <> None) /\
  dexists g k = Ok (match tget g m with Some _ => true | None => false end) /\ dhaschildren g k = Ok (thaschildren g m) /\ diter g k = Ok (titer g m).
Proof.
  intros P N. destruct (keymap_reads g k P N) as (m & E & R). exists m. split; [exact R|]. split; [intros m' R'; eapply reads_one; eassumption|]. unfold dexists, dhaschildren, diter. rewrite E. cbn [bind]. split; [|auto].
  destruct R as (D & [(T & _)|(-> & H)]).
  - assert (X : texists g m = true) by (apply texists_true, T). rewrite X. split; [eauto|reflexivity].
  - assert (X : texists g k = false) by (apply texists_false, H, D). rewrite X. split; [discriminate|]. intros (c & Hc & Tc). elim Tc. apply H, Hc.
Qed.
(** What get() returns: the value of that key, unless it is a star and a number. *)
Theorem C61_get g k m : Forall plain k -> k <> [] -> short k -> reads g k m ->
  ((forall t, tget g m = Some ("*"%char :: t) -> t = [] \/ atoi t = Ok 0%Z) -> dget g k = Ok (tget g m)) /\
  (forall t n, tget g m = Some ("*"%char :: t) -> atoi t = Ok (Z.of_nat n) -> 0 < n ->
     (forall i, nth_wild m n i -> dget g k = Ok (Some (nth i k []))) /\ ((forall i, ~ nth_wild m n i) -> dget g k = Ok None)).
Proof.
  intros P N Sh R. destruct (keymap_reads g k P N) as (m' & E & R'). rewrite (reads_one _ _ _ _ R R') in *. clear R m. unfold dget. rewrite E. cbn [bind]. split; [apply replace_as_is|].
  intros t n -> Et L. destruct R' as (D & _). destruct (replace_nth k m' t n P Sh N D Et L) as [(i & Hi & ->)|(Hn & ->)].
  - split; [|intros X; elim (X i Hi)]. intros j Hj. repeat f_equal. clear -Hi Hj.
    assert (G : forall a b, a < b -> nth_wild m' n a -> nth_wild m' n b -> False).
    { intros a b L (s & Hs & Ws & Ca) (t & Ht & Wt & Cb). assert (X : length (filter wild (skipn (S b) m')) < length (filter wild (skipn (S a) m'))); [|lia].
      apply nth_error_split in Ht. destruct Ht as (l1 & l2 & -> & <-). replace (skipn (S (length l1)) (l1 ++ t :: l2)) with l2 by (replace (l1 ++ t :: l2) with ((l1 ++ [t]) ++ l2) by (rewrite <- app_assoc; reflexivity); replace (S (length l1)) with (length (l1 ++ [t])) by (rewrite app_length; cbn; lia); rewrite skipn_app, skipn_all, Nat.sub_diag; reflexivity).
      rewrite skipn_app. replace (S a - length l1) with 0 by lia. cbn [skipn]. rewrite filter_app, app_length. cbn [filter]. rewrite Wt. cbn. lia. }
    destruct (Nat.lt_trichotomy i j) as [X|[X|X]]; [elim (G i j X Hi Hj)|congruence|elim (G j i X Hj Hi)].
  - split; [intros i Hi; elim (Hn i Hi)|reflexivity].
Qed.
(** Setting a key makes it that value, whatever the defaults; it is never changed by
    setting one. *)
Theorem C61_set g hs ns k v : history tinit hs ns g -> canonical_history hs -> Forall plain k -> k <> [] -> short k ->
  (forall t, v <> "*"%char :: t) -> dget (fst (dset g k (Some v))) k = Ok (Some v).
Proof.
  intros H Ch P N Sh V. destruct (reach _ _ _ H Ch) as (W & _). unfold dset. destruct (tset g k (Some v)) as [g' n] eqn:E. cbn [fst]. destruct (tset_ok _ _ _ _ _ W (or_introl P) E) as (_ & Hc & _).
  assert (T : tget g' k = Some v). { rewrite tget_has by (left; exact P). rewrite (proj1 (plain_slashed _ P)). rewrite Hc by exact P. cbn [set_key]. rewrite (proj1 (plain_slashed _ P)). unfold set_spec. rewrite same_refl. reflexivity. }
  assert (R : reads g' k k).
  { split; [clear; induction k; constructor; auto|]. left. split; [congruence|]. intros c Hc0 _. clear -Hc0. induction Hc0 as [|p s c k Hp Hd IH]; [auto|]. destruct (list_eq_dec ascii_dec p s) as [->|Ne].
    - destruct IH as [->|X]; [auto|]. right. apply before_next, X.
    - destruct Hp as [->| ->]; [congruence|]. right. apply before_here. congruence. }
  destruct (C61_get g' k k P N Sh R) as (G & _). rewrite G; [rewrite T; reflexivity|]. intros t X. rewrite T in X. injection X as ->. elim (V t). reflexivity.
Qed.
(** The search for a default never writes outside its buffer, for any key, also the root
    and keys with a trailing slash. *)
Theorem C61_safe g k : canonical k -> exists m, keymap g k = Ok m /\ canonical m /\ (exists b, dexists g k = Ok b) /\ (exists b, dhaschildren g k = Ok b) /\ (exists i, diter g k = Ok i).
Proof. intros C. destruct (keymap_safe g k C) as (m & E & Cm). exists m. unfold dexists, dhaschildren, diter. rewrite E. cbn [bind]. repeat split; eauto. Qed.
(** The header says that matches closer to the end of the key win: it is the other
    way round. *)
Theorem C61_precedence_refuted : exists g, (exists hs ns, history tinit hs ns g /\ canonical_history hs) /\
  tget g [star; B "b"] = Some (B "end") /\ tget g [B "a"; star] = Some (B "start") /\ dget g [B "a"; B "b"] = Ok (Some (B "start")).
Proof.
  destruct (tset tinit [star; B "b"] (Some (B "end"))) as [g0 n0] eqn:E0. destruct (tset g0 [B "a"; star] (Some (B "start"))) as [g n] eqn:E. exists g.
  assert (Pl : forall s, In s [B "a"; B "b"; star] -> plain s) by (intros s H; cbn [In] in H; repeat (destruct H as [<-|H]; [split; [discriminate|]; split; intros [X|[]]; discriminate|]); contradiction).
  split; [exists [([star; B "b"], Some (B "end")); ([B "a"; star], Some (B "start"))], (n0 ++ n ++ [])|].
  - split; [eapply H_set; [exact E0|]; eapply H_set; [exact E|apply H_end]|]. repeat (constructor; [left; repeat (constructor; [apply Pl; cbn [In]; auto|]); constructor|]). constructor.
  - vm_compute in E0. injection E0 as <- <-. vm_compute in E. injection E as <- <-. vm_compute. auto.
Qed.
(** The value of the root is hidden by a default for keys of one segment, a key with a
    trailing slash reads a default, and a star with a number as the value of the key
    itself reads as null. *)
Theorem C61_root_refuted : exists g, g = fst (tset (fst (tset tinit [] (Some (B "root")))) [star] (Some (B "x"))) /\ tget g [] = Some (B "root") /\ dget g [] = Ok (Some (B "x")).
Proof. eexists. split; [reflexivity|]. vm_compute. auto. Qed.
Theorem C61_slash_refuted : exists g, g = fst (tset tinit [B "a"; star] (Some (B "x"))) /\ tget g [B "a"; []] = None /\ dget g [B "a"; []] = Ok (Some (B "x")).
Proof. eexists. split; [reflexivity|]. vm_compute. auto. Qed.
Theorem C61_literal_refuted : exists g, g = fst (dset tinit [B "a"] (Some (B "*1"))) /\ dexists g [B "a"] = Ok true /\ dget g [B "a"] = Ok None.
Proof. eexists. split; [reflexivity|]. vm_compute. auto. Qed.
(** A negative number gives the last segment. *)
Theorem C61_negative_refuted : exists g, g = fst (dset tinit [B "a"; star; B "c"] (Some (B "*-1"))) /\ dget g [B "a"; B "b"; B "c"] = Ok (Some (B "c")).
Proof. eexists. split; [reflexivity|]. vm_compute. auto. Qed.
(** A changed default is notified, the keys that read as it are not. *)
Theorem C61_mirror_refuted : exists g n, dset tinit [star] (Some (B "1")) = (g, n) /\ dget tinit [B "a"] = Ok None /\ dget g [B "a"] = Ok (Some (B "1")) /\ replay n nothing [B "a"] = None.
Proof. eexists. eexists. split; [reflexivity|]. vm_compute. auto. Qed.
(** The example of the header *)
Example ex_defaults : let g := fst (tset (fst (tset tinit [B "t"; star; star; B "r"] (Some (B "*2")))) [B "t"; B "x"; star; B "r"] (Some (B "lit"))) in
  reads g [B "t"; B "e"; B "bob"; B "r"] [B "t"; star; star; B "r"] /\ nth_wild [B "t"; star; star; B "r"] 2 1 /\
  dget g [B "t"; B "e"; B "bob"; B "r"] = Ok (Some (B "e")) /\ dget g [B "t"; B "x"; B "bob"; B "r"] = Ok (Some (B "lit")) /\ dget g [B "t"; B "e"; B "bob"] = Ok (Some []) /\ dget g [B "q"] = Ok None.
Proof.
  assert (Pl : Forall plain [B "t"; B "e"; B "bob"; B "r"]) by (repeat (constructor; [split; [discriminate|]; split; cbn; intros X; repeat (destruct X as [X|X]; [discriminate|]); contradiction|]); constructor).
  cbv zeta. split.
  - match goal with |- reads ?g ?k _ => destruct (keymap_reads g k Pl) as (m & E & R); [discriminate|] end. vm_compute in E. injection E as <-. exact R.
  - split; [exists star; vm_compute; auto|]. vm_compute. auto.
Qed.
Print Assumptions C61_default.
Print Assumptions C61_get.
Print Assumptions C61_set.
Print Assumptions C61_safe.
