(** What the lines of each format are decoded to. *)
From Verif Require Import Base FtpModel FtpSpec FtpDates FtpProofs.
Local Open Scope Z_scope.
Local Open Scope list_scope.

(** What a caller sees in the result. *)
Definition sub (l : bytes) (a n : nat) : bytes := firstn n (skipn a l).

Definition sort_of (m : mtype) : sort :=
  match m with MUnknown => Unknown | MLocal => Exact | MMinute => Minute | MDay => Day end.

Definition view (l : bytes) (f : fp) : entry :=
  Entry (sub l (f_name f) (f_namelen f)) (f_cwd f) (f_retr f) (f_size f)
        (sort_of (f_mtype f)) (f_mtime f)
        (match f_id f with Some (a, n) => Some (sub l a n) | None => None end).

(** ** Reading *)

Lemma rd_at pre c post : rd (pre ++ c :: post) (length pre) = Ret c.
Proof. unfold rd. rewrite nth_error_app2, Nat.sub_diag by lia. reflexivity. Qed.

Lemma rd_at' l pre c post k : l = pre ++ c :: post -> k = length pre -> rd l k = Ret c.
Proof. intros -> ->. apply rd_at. Qed.

Lemma is_spec s c d : s = String d EmptyString -> is s c = Ascii.eqb c d.
Proof. intros ->. reflexivity. Qed.

(** getlong() on the bytes themselves. *)
Fixpoint gl (w : bytes) (u : Z) : out Z :=
  match w with
  | [] => Ret u
  | c :: r => do! a := lng (u * 10) in do! b := lng (a + (sch c - 48)) in gl r b
  end.

Lemma getl_gl w : forall pre post u,
  getl (pre ++ w ++ post) (length pre) (length w) u = gl w u.
Proof.
  induction w as [|c r IH]; intros pre post u; cbn [getl length gl app]; [reflexivity|].
  rewrite rd_at. cbn [obind].
  destruct (lng (u * 10)); cbn [obind]; auto. destruct (lng (a + (sch c - 48))); cbn [obind]; auto.
  specialize (IH (pre ++ [c]) post a0). rewrite <- app_assoc in IH. cbn [app] in IH.
  rewrite app_length, Nat.add_1_r in IH. exact IH.
Qed.

Lemma getlong_gl l pre w post k n : l = pre ++ w ++ post -> k = length pre -> n = length w ->
  getlong l k n = gl w 0.
Proof. intros -> -> ->. apply getl_gl. Qed.

Definition acc (u : Z) (c : byte) : Z := 10 * u + (Z.of_nat (nat_of_ascii c) - 48).

Lemma digit_sch c : digit c -> sch c = Z.of_nat (nat_of_ascii c) /\ 48 <= sch c <= 57.
Proof.
  unfold digit, sch. intros H. destruct (Z.ltb_spec (Z.of_nat (nat_of_ascii c)) 128); lia.
Qed.

Lemma fold_ge w : forall u, Forall digit w -> 0 <= u -> u <= fold_left acc w u.
Proof.
  induction w as [|c r IH]; intros u H Hu; cbn [fold_left]; [lia|].
  inversion H; subst. destruct (digit_sch c H2).
  assert (u <= acc u c /\ 0 <= acc u c) by (unfold acc; lia).
  specialize (IH (acc u c) H3). lia.
Qed.

Lemma gl_digits w : forall u, Forall digit w -> 0 <= u -> fold_left acc w u < 2 ^ 63 ->
  gl w u = Ret (fold_left acc w u).
Proof.
  induction w as [|c r IH]; intros u H Hu Hf; cbn [gl fold_left] in *; [reflexivity|].
  inversion H; subst. destruct (digit_sch c H2) as [E R].
  assert (A : 0 <= acc u c) by (unfold acc; lia).
  pose proof (fold_ge r (acc u c) H3 A) as G.
  assert (B : u * 10 + (sch c - 48) = acc u c) by (unfold acc; lia).
  rewrite lng_ok by (unfold acc in *; lia). cbn [obind].
  rewrite B, lng_ok by lia. cbn [obind]. apply IH; auto.
Qed.

Lemma value_fold w : value w = fold_left acc w 0.
Proof. reflexivity. Qed.

Lemma value_pos w : Forall digit w -> 0 <= value w.
Proof. intros H. rewrite value_fold. apply fold_ge; auto; lia. Qed.

Lemma gl_number w b : number b w -> b <= 2 ^ 63 -> gl w 0 = Ret (value w).
Proof.
  intros (_ & H & Hv) Hb. rewrite value_fold in *. apply gl_digits; auto; lia.
Qed.

Lemma sch_range c : -128 <= sch c <= 127.
Proof.
  unfold sch. pose proof (nat_ascii_bounded c).
  destruct (Z.ltb_spec (Z.of_nat (nat_of_ascii c)) 128); lia.
Qed.

(** No 17 bytes can make it overflow. *)
Lemma gl_short w : forall u k, (length w + k <= 17)%nat ->
  Z.abs u <= 20 * 10 ^ Z.of_nat k - 20 -> exists z, gl w u = Ret z.
Proof.
  induction w as [|c r IH]; intros u k H Hu; cbn [gl length] in *; [eauto|].
  pose proof (sch_range c) as R.
  assert (P : 10 ^ Z.of_nat (S k) = 10 * 10 ^ Z.of_nat k).
  { rewrite Nat2Z.inj_succ, Z.pow_succ_r by lia. reflexivity. }
  assert (Q : 10 ^ Z.of_nat (S k) <= 10 ^ 17) by (apply Z.pow_le_mono_r; lia).
  change (10 ^ 17) with 100000000000000000 in Q.
  rewrite lng_ok by lia. cbn [obind]. rewrite lng_ok by lia. cbn [obind].
  apply (IH _ (S k)); lia.
Qed.

Lemma gl_word w : (length w <= 17)%nat -> exists z, gl w 0 = Ret z.
Proof. intros H. apply (gl_short w 0 0); [lia|]. cbn. lia. Qed.

(** ** EPLF *)

Definition same_shape (l : bytes) (e : entry) (f : fp) : Prop :=
  f_cwd f = e_cwd e /\ f_retr f = e_retr e /\ f_size f = e_size e /\
  sort_of (f_mtype f) = e_sort e /\ f_mtime f = e_time e /\
  match f_id f with Some (a, n) => Some (sub l a n) | None => None end = e_id e.

Lemma sub_at l pre w post a n : l = pre ++ w ++ post -> a = length pre -> n = length w ->
  sub l a n = w.
Proof.
  intros -> -> ->. unfold sub. rewrite skipn_app, Nat.sub_diag, skipn_all. cbn [app skipn].
  rewrite firstn_app, Nat.sub_diag, firstn_all. cbn [firstn]. apply app_nil_r.
Qed.

Lemma eplf_skip l w : forall pre post n i f, l = pre ++ w ++ post -> ~ In tab w -> ~ In comma w ->
  eplf l (length w + n) (length pre) i f = eplf l n (length pre + length w) i f.
Proof.
  induction w as [|c r IH]; intros pre post n i f El Ht Hc; cbn [length Nat.add].
  - rewrite Nat.add_0_r. reflexivity.
  - cbn [eplf app]. rewrite (rd_at' l pre c (r ++ post)) by auto. cbn [obind].
    destruct (Ascii.eqb_spec c (ascii_of_nat 9)) as [->|_]; [destruct Ht; left; reflexivity|].
    cbn [is]. destruct (Ascii.eqb_spec c ",") as [->|_]; [destruct Hc; left; reflexivity|].
    specialize (IH (pre ++ [c]) post n i f). rewrite app_length in IH. cbn [length] in IH.
    replace (length pre + S (length r))%nat with (length pre + 1 + length r)%nat by lia.
    rewrite <- IH; [f_equal; lia| |intros X; apply Ht; right; exact X|intros X; apply Hc; right; exact X].
    rewrite <- app_assoc. exact El.
Qed.

Lemma efact_ok l pre fx post f e : l = pre ++ fact_text fx ++ comma :: post -> fact_ok fx ->
  same_shape l e f ->
  exists f', efact l (length pre) (length pre + length (fact_text fx)) f = Ret f' /\
             same_shape l (tell e fx) f'.
Proof.
  intros -> Hok (S1 & S2 & S3 & S4 & S5 & S6). unfold efact.
  destruct fx as [| |ds|ds|s|s]; cbn [fact_text app B list_ascii_of_string length] in *.
  - rewrite rd_at. cbn [obind is Ascii.eqb Bool.eqb]. eexists; split; [reflexivity|].
    unfold same_shape in *. cbn [tell set_cwd f_cwd f_retr f_size f_mtype f_mtime f_id
      e_cwd e_retr e_size e_sort e_time e_id]. tauto.
  - rewrite rd_at. cbn [obind is Ascii.eqb Bool.eqb]. eexists; split; [reflexivity|].
    unfold same_shape in *. cbn [tell set_retr f_cwd f_retr f_size f_mtype f_mtime f_id
      e_cwd e_retr e_size e_sort e_time e_id]. tauto.
  - rewrite rd_at. cbn [obind is Ascii.eqb Bool.eqb].
    rewrite (getlong_gl _ (pre ++ ["s"%char]) ds (comma :: post)).
    2: { rewrite <- app_assoc. reflexivity. }
    2: { rewrite app_length. reflexivity. }
    2: { lia. }
    rewrite (gl_number _ (10 ^ 18)) by (auto; lia). cbn [obind]. eexists; split; [reflexivity|].
    unfold same_shape in *. cbn [tell set_size f_cwd f_retr f_size f_mtype f_mtime f_id
      e_cwd e_retr e_size e_sort e_time e_id]. tauto.
  - rewrite rd_at. cbn [obind is Ascii.eqb Bool.eqb]. rewrite base_0. cbn [obind].
    rewrite (getlong_gl _ (pre ++ ["m"%char]) ds (comma :: post)).
    2: { rewrite <- app_assoc. reflexivity. }
    2: { rewrite app_length. reflexivity. }
    2: { lia. }
    rewrite (gl_number _ (10 ^ 18)) by (auto; lia). cbn [obind].
    pose proof (value_pos ds (proj1 (proj2 Hok))). pose proof (proj2 (proj2 Hok)).
    rewrite lng_ok by lia. cbn [obind]. eexists; split; [reflexivity|].
    unfold same_shape in *. cbn [tell set_time f_cwd f_retr f_size f_mtype f_mtime f_id
      e_cwd e_retr e_size e_sort e_time e_id sort_of]. tauto.
  - rewrite rd_at. cbn [obind is Ascii.eqb Bool.eqb]. eexists; split; [reflexivity|].
    unfold same_shape in *. cbn [tell set_id f_cwd f_retr f_size f_mtype f_mtime f_id
      e_cwd e_retr e_size e_sort e_time e_id].
    repeat (split; [assumption|]). f_equal.
    apply (sub_at _ (pre ++ ["i"%char]) s (comma :: post)).
    + rewrite <- app_assoc. reflexivity.
    + rewrite app_length. reflexivity.
    + lia.
  - destruct Hok as (_ & _ & Hf).
    assert (H : exists c r, s ++ comma :: post = c :: r /\ ~ In c (B "/rsmi")).
    { destruct s as [|c r]; cbn [app]; do 2 eexists; (split; [reflexivity|]).
      - cbn. intros X. repeat (destruct X as [X|X]; [discriminate X|]). exact X.
      - eapply Hf. reflexivity. }
    destruct H as (c & r & E & N). rewrite E. rewrite rd_at. cbn [obind is].
    assert (N' : forall d, In d (B "/rsmi") -> Ascii.eqb c d = false).
    { intros d Hd. destruct (Ascii.eqb_spec c d) as [->|]; [contradiction|reflexivity]. }
    rewrite !N' by (cbn; tauto). eexists; split; [reflexivity|].
    cbn [tell]. unfold same_shape. rewrite <- E. tauto.
Qed.

Lemma eplf_run l name fs : forall pre f e,
  l = pre ++ flat_map (fun x => fact_text x ++ [comma]) fs ++ [tab] ++ name ->
  Forall fact_ok fs -> same_shape l e f ->
  exists f', eplf l (length l - length pre) (length pre) (length pre) f = Ret (Some f') /\
    same_shape l (fold_left tell fs e) f' /\ sub l (f_name f') (f_namelen f') = name.
Proof.
  induction fs as [|x fs IH]; intros pre f e El Hok Hs.
  - cbn [flat_map app] in El. subst l.
    replace (length (pre ++ tab :: name) - length pre)%nat with (S (length name)).
    2: { rewrite app_length. cbn [length]. lia. }
    cbn [eplf]. rewrite rd_at. cbn [obind].
    change (Ascii.eqb tab (ascii_of_nat 9)) with true. cbv iota.
    eexists; split; [reflexivity|]. split; [exact Hs|].
    cbn [set_name f_name f_namelen].
    apply (sub_at _ (pre ++ [tab]) name []).
    + rewrite app_nil_r, <- app_assoc. reflexivity.
    + rewrite app_length. reflexivity.
    + rewrite app_length. cbn [length]. lia.
  - inversion Hok as [|? ? Hx Hfs]; subst x0 l0. cbn [flat_map] in El.
    rewrite <- !app_assoc in El.
    assert (Hnt : ~ In tab (fact_text x) /\ ~ In comma (fact_text x)).
    { destruct x; cbn [fact_text fact_ok] in *.
      - split; intros [X|[]]; discriminate X.
      - split; intros [X|[]]; discriminate X.
      - destruct Hx as (_ & Hd & _). rewrite Forall_forall in Hd.
        split; intros [X|X]; try discriminate X; apply Hd in X; unfold digit in X; cbn in X; lia.
      - destruct Hx as (_ & Hd & _). rewrite Forall_forall in Hd.
        split; intros [X|X]; try discriminate X; apply Hd in X; unfold digit in X; cbn in X; lia.
      - destruct Hx. split; intros [X|X]; try discriminate X; contradiction.
      - tauto. }
    set (tl := flat_map (fun x => fact_text x ++ [comma]) fs ++ [tab] ++ name) in *.
    replace (length l - length pre)%nat with (length (fact_text x) + S (length tl))%nat.
    2: { rewrite El, !app_length. cbn [length]. lia. }
    rewrite (eplf_skip l (fact_text x) pre ([comma] ++ tl)); [|exact El|tauto|tauto].
    cbn [eplf].
    rewrite (rd_at' l (pre ++ fact_text x) comma tl).
    2: { rewrite <- app_assoc. exact El. }
    2: { rewrite app_length. reflexivity. }
    cbn [obind]. change (Ascii.eqb comma (ascii_of_nat 9)) with false.
    change (is "," comma) with true. cbv iota.
    destruct (efact_ok l pre x tl f e El Hx Hs) as (f1 & E1 & S1).
    rewrite E1. cbn [obind].
    destruct (IH (pre ++ fact_text x ++ [comma]) f1 (tell e x)) as (f2 & E2 & S2 & N2); auto.
    { rewrite <- !app_assoc. exact El. }
    exists f2. split; [|split; assumption]. rewrite <- E2.
    rewrite El, !app_length. cbn [length]. f_equal; lia.
Qed.

Lemma view_of l f e : same_shape l e f -> sub l (f_name f) (f_namelen f) = e_name e ->
  view l f = e.
Proof.
  intros (S1 & S2 & S3 & S4 & S5 & S6) N. unfold view.
  rewrite S1, S2, S3, S4, S5, S6, N. destruct e; reflexivity.
Qed.

Lemma tell_name fs : forall e, e_name (fold_left tell fs e) = e_name e.
Proof. induction fs as [|x fs IH]; intros e; cbn [fold_left]; [reflexivity|]. rewrite IH. destruct x; reflexivity. Qed.

Lemma eplf_trip clock k fs name : Forall fact_ok fs ->
  exists f, ftpparse clock k (eplf_line fs name) = Ret (Some f, k) /\
            view (eplf_line fs name) f = eplf_entry fs name.
Proof.
  intros H. set (l := eplf_line fs name).
  assert (El : l = [("+"%char : ascii)] ++ flat_map (fun x => fact_text x ++ [comma]) fs ++ [tab] ++ name)
    by reflexivity.
  destruct (eplf_run l name fs ["+"%char] fp0 (Entry name false false None Unknown 0 None))
    as (f & E & S & N); auto.
  { repeat split. }
  exists f. split.
  - unfold ftpparse.
    destruct (Nat.ltb_spec (length l) 2) as [L|L].
    { rewrite El, !app_length in L. cbn [length] in L. lia. }
    replace (rd l 0) with (Ret ("+"%char : ascii)) by reflexivity. cbn [obind].
    change (is "+" "+") with true. cbv iota. cbn [length] in E. rewrite E. reflexivity.
  - apply view_of; [exact S|]. rewrite N. unfold eplf_entry. rewrite tell_name. reflexivity.
Qed.
