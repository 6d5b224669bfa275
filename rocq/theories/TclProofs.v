From Verif Require Import Base BaseFacts TclModel TclSpec.
Local Open Scope char_scope.
Local Open Scope list_scope.

(** ** Characters *)
Lemma doit_false n c : doit n c = false ->
  c <> "{" /\ c <> "}" /\ c <> "\" /\ c <> """" /\ mset n c = false.
Proof.
  unfold doit, always_nasty. rewrite !orb_false_iff, !Ascii.eqb_neq. tauto.
Qed.

(** ** The sizing loop *)
Fixpoint ndoit (n : mask) (s : bytes) : nat :=
  match s with [] => 0 | c :: r => (if doit n c then 1 else 0) + ndoit n r end.

Lemma esc_fold n s : forall st,
  e_len (fold_left (esc_step n) s st) = e_len st + length s /\
  e_unprint (fold_left (esc_step n) s st) = e_unprint st + ndoit n s.
Proof.
  induction s as [|c s IH]; intros st; cbn [fold_left length ndoit]; [lia|].
  destruct (IH (esc_step n st c)) as [H1 H2]. rewrite H1, H2. cbn.
  destruct (doit n c); lia.
Qed.

Lemma esc_scan_len n s : e_len (esc_scan n s) = length s.
Proof. unfold esc_scan. destruct (esc_fold n s esc_init) as [H _]. rewrite H. reflexivity. Qed.
Lemma esc_scan_unprint n s : e_unprint (esc_scan n s) = ndoit n s.
Proof. unfold esc_scan. destruct (esc_fold n s esc_init) as [_ H]. rewrite H. reflexivity. Qed.

Lemma backslash_out_length n s : length (backslash_out n s) = length s + ndoit n s.
Proof.
  induction s as [|c s IH]; cbn [backslash_out length ndoit]; [reflexivity|].
  rewrite app_length, IH. destruct (doit n c); cbn; lia.
Qed.

Lemma ndoit_zero n s : ndoit n s = 0 -> Forall (fun c => doit n c = false) s.
Proof.
  induction s as [|c s IH]; cbn; intros H; constructor.
  - destruct (doit n c); [lia|reflexivity].
  - apply IH. lia.
Qed.

(** The text [wvtcl_escape] produces, as a pure function. *)
Definition esc_pure (n : mask) (s : bytes) : bytes :=
  match s with
  | [] => ["{"; "}"]
  | _ => match esc_mode (esc_scan n s) with
         | Verbatim => s
         | Backslash => backslash_out n s
         | Embrace => "{" :: s ++ ["}"]
         end
  end.

Lemma escape_size_pure n s : fst (escape_size n (Some s)) = length (esc_pure n s).
Proof.
  unfold escape_size, esc_pure. destruct s as [|c s]; [reflexivity|].
  destruct (esc_mode _) eqn:E; cbn [fst]; rewrite ?esc_scan_len, ?esc_scan_unprint.
  - reflexivity.
  - rewrite backslash_out_length. reflexivity.
  - cbn [length]. rewrite app_length. cbn. lia.
Qed.

Lemma store_seq_over m i l1 l2 :
  i + length l2 <= length m -> length l1 <= length l2 ->
  exists m1, store_seq m i l1 = Some m1 /\
    store_seq m1 i l2 = Some (firstn i m ++ l2 ++ skipn (i + length l2) m).
Proof.
  intros H1 H2. eexists. split; [apply store_seq_some; lia|].
  assert (Hf : length (firstn i m) = i) by (rewrite firstn_length; lia).
  rewrite store_seq_some.
  2:{ rewrite !app_length, Hf, skipn_length. lia. }
  f_equal. f_equal.
  - rewrite firstn_app, firstn_all2 by lia. rewrite Hf, Nat.sub_diag. cbn.
    apply app_nil_r.
  - f_equal.
    rewrite skipn_app. rewrite skipn_all2 by lia. cbn [app].
    rewrite skipn_app. rewrite skipn_all2 by lia. cbn [app].
    rewrite skipn_skipn_add. f_equal. lia.
Qed.

Lemma escape_write_pure n m off s :
  off + length (esc_pure n s) <= length m ->
  escape_write n m off (Some s) =
    Ok (firstn off m ++ esc_pure n s ++ skipn (off + length (esc_pure n s)) m,
        length (esc_pure n s)).
Proof.
  intros H. unfold escape_write, esc_pure in *. destruct s as [|c s].
  - rewrite store_seq_some by exact H. reflexivity.
  - set (S0 := c :: s) in *. clearbody S0. destruct (esc_mode _) eqn:E.
    + rewrite store_seq_some by exact H. cbn. rewrite esc_scan_len. reflexivity.
    + destruct (store_seq_over m off S0 (backslash_out n S0)) as (m1 & H1 & H2);
        [exact H| rewrite backslash_out_length; lia|].
      rewrite H1. cbn. rewrite H2. reflexivity.
    + destruct (store_seq_over m off S0 ("{" :: S0 ++ ["}"])) as (m1 & H1 & H2);
        [exact H| cbn; rewrite app_length; cbn; lia|].
      rewrite H1. cbn [of_opt bind]. rewrite H2. reflexivity.
Qed.

Lemma nul_free_cons c s : nul_free (c :: s) <-> c <> nul /\ nul_free s.
Proof. unfold nul_free. cbn. split; intros; [split|]; tauto. Qed.

Lemma backslash_out_nul_free n s : nul_free s -> nul_free (backslash_out n s).
Proof.
  induction s as [|c s IH]; intros H; cbn [backslash_out]; [exact H|].
  apply nul_free_cons in H. destruct H as [Hc Hs].
  apply nul_free_app. split; [|auto].
  destruct (doit n c); rewrite !nul_free_cons; repeat split; auto; try discriminate;
    unfold nul_free; cbn; tauto.
Qed.

Lemma esc_pure_nul_free n s : nul_free s -> nul_free (esc_pure n s).
Proof.
  intros H. unfold esc_pure. destruct s as [|c s].
  - unfold nul_free; cbn. intuition discriminate.
  - destruct (esc_mode _); [assumption|apply backslash_out_nul_free; assumption|].
    apply nul_free_cons. split; [discriminate|]. apply nul_free_app. split; [assumption|].
    unfold nul_free; cbn; intuition discriminate.
Qed.

Lemma calloc_length k : length (calloc k) = k.
Proof. apply repeat_length. Qed.

Lemma store_end e m k :
  length m = k -> length e < k ->
  store (firstn 0 m ++ e ++ skipn (0 + length e) m) (length e) nul
  = Some (e ++ nul :: skipn (S (length e)) m).
Proof.
  intros Hk Hl. cbn [firstn app Nat.add].
  rewrite store_some by (rewrite app_length, skipn_length; lia).
  f_equal. rewrite firstn_app, firstn_all, Nat.sub_diag. cbn [firstn].
  rewrite app_nil_r. f_equal. f_equal.
  rewrite skipn_app. rewrite skipn_all2 by lia. cbn [app].
  rewrite skipn_skipn_add. f_equal. lia.
Qed.

Theorem escape_total n s : nul_free s ->
  wvtcl_escape n (Some s) = Ok (Some (esc_pure n s)).
Proof.
  intros Hs. unfold wvtcl_escape.
  pose proof (escape_size_pure n s) as Hsz.
  destruct (escape_size n (Some s)) as [len vb] eqn:E. cbn [fst] in Hsz. subst len.
  destruct vb.
  - do 2 f_equal. unfold escape_size in E. unfold esc_pure. destruct s; [discriminate|].
    destruct (esc_mode _); [reflexivity|discriminate|discriminate].
  - rewrite escape_write_pure by (unfold setsize; rewrite calloc_length; lia).
    cbn [bind].
    rewrite (store_end _ _ (S (length (esc_pure n s)))) by
      (unfold setsize; rewrite ?calloc_length; lia).
    cbn [of_opt bind]. rewrite cstr_app_nul by (apply esc_pure_nul_free; assumption).
    reflexivity.
Qed.

Lemma make_string_ok out : make_string (length out) out = Ok (cstr out).
Proof.
  unfold make_string.
  rewrite store_seq_some by (unfold setsize; rewrite calloc_length; lia).
  cbn [of_opt bind].
  rewrite (store_end _ _ (S (length out + 1))) by
      (unfold setsize; rewrite ?calloc_length; lia).
  cbn [of_opt bind]. f_equal.
  remember (skipn _ _) as z eqn:Z. clear Z.
  induction out as [|c out IH]; cbn [cstr app].
  - rewrite Ascii.eqb_refl. reflexivity.
  - destruct (Ascii.eqb c nul); [reflexivity|]. f_equal. assumption.
Qed.

(** ** Unescaping what was escaped *)
Lemma unbackslash_plain n s : Forall (fun c => doit n c = false) s ->
  unbackslash false s = s.
Proof.
  induction 1 as [|c s Hc _ IH]; cbn [unbackslash]; [reflexivity|].
  apply doit_false in Hc. destruct Hc as (_ & _ & Hc & _).
  apply Ascii.eqb_neq in Hc. rewrite Hc, IH. reflexivity.
Qed.

Lemma unbackslash_out n s : unbackslash false (backslash_out n s) = s.
Proof.
  induction s as [|c s IH]; [reflexivity|].
  cbn [backslash_out]. destruct (doit n c) eqn:E.
  - cbn [app unbackslash]. rewrite Ascii.eqb_refl.
    destruct (Ascii.eqb c "\"); rewrite IH; reflexivity.
  - cbn [app unbackslash]. apply doit_false in E. destruct E as (_ & _ & Hc & _).
    apply Ascii.eqb_neq in Hc. rewrite Hc, IH. reflexivity.
Qed.

Lemma mode_verbatim n s : esc_mode (esc_scan n s) = Verbatim ->
  Forall (fun c => doit n c = false) s.
Proof.
  intros H. apply ndoit_zero. unfold esc_mode in H. rewrite esc_scan_unprint in H.
  destruct (Nat.eqb_spec (ndoit n s) 0) as [E|E]; [exact E|].
  rewrite andb_false_r in H. destruct (_ || _ || _); discriminate.
Qed.

Lemma removelast_snoc {A} (l : list A) x : removelast (l ++ [x]) = l.
Proof. rewrite removelast_app by discriminate. cbn. apply app_nil_r. Qed.

Lemma last_snoc {A} (l : list A) x d : last (l ++ [x]) d = x.
Proof. apply last_last. Qed.

Lemma unescape_escape_emit n s : unescape_emit (esc_pure n s) = Ok s.
Proof.
  unfold esc_pure. destruct s as [|c s]; [reflexivity|].
  destruct (esc_mode _) eqn:E.
  - apply mode_verbatim in E. pose proof E as Hall. inversion E as [|? ? Hc _]. subst.
    unfold unescape_emit. apply doit_false in Hc.
    destruct Hc as (H1 & _ & _ & H2 & _).
    apply Ascii.eqb_neq in H1. apply Ascii.eqb_neq in H2. rewrite H1, H2. cbn [andb].
    f_equal. apply unbackslash_plain with n. assumption.
  - assert (Hhd : exists d r, backslash_out n (c :: s) = d :: r /\ d <> "{" /\ d <> """").
    { cbn [backslash_out]. destruct (doit n c) eqn:D; cbn [app]; do 2 eexists;
        split; [reflexivity| split; discriminate | reflexivity |].
      apply doit_false in D. tauto. }
    destruct Hhd as (d & r & Hd & H1 & H2).
    pose proof (unbackslash_out n (c :: s)) as Hu. rewrite Hd in *.
    unfold unescape_emit.
    apply Ascii.eqb_neq in H1. apply Ascii.eqb_neq in H2. rewrite H1, H2. cbn [andb].
    rewrite Hu. reflexivity.
  - unfold unescape_emit. change ("{" :: (c :: s) ++ ["}"]) with (("{" :: c :: s) ++ ["}"]).
    cbn [app]. change ("{" :: c :: s ++ ["}"]) with (("{" :: c :: s) ++ ["}"]).
    rewrite last_snoc. cbn [Ascii.eqb Bool.eqb andb].
    change (c :: s ++ ["}"]) with ((c :: s) ++ ["}"]).
    rewrite removelast_snoc. reflexivity.
Qed.

Theorem unescape_escape n s : nul_free s ->
  exists e, wvtcl_escape n (Some s) = Ok (Some e) /\
            wvtcl_unescape (Some e) = Ok (Some s).
Proof.
  intros H. exists (esc_pure n s). split; [apply escape_total; assumption|].
  unfold wvtcl_unescape. rewrite unescape_escape_emit. cbn [bind].
  rewrite make_string_ok. cbn [bind]. rewrite cstr_nul_free by assumption. reflexivity.
Qed.

(** ** Scanning without a break *)
Fixpoint gw_run (sp : mask) (st : gwst) (s : bytes) : option gwst :=
  match s with
  | [] => Some st
  | c :: r => match gw_step sp false st c with
              | Some (st', false) => gw_run sp st' r
              | _ => None
              end
  end.

Lemma gw_step_noquote sp st c : gw_step sp false st c <> None ->
  exists st', gw_step sp false st c = Some (st', false).
Proof.
  unfold gw_step. destruct (g_esc st); [eauto|].
  destruct (Ascii.eqb c "\"); [eauto|].
  destruct (Nat.eqb (g_brace st) 0 && negb false && mset sp c); [congruence|].
  rewrite andb_false_r. cbn [andb]. eauto.
Qed.

Lemma gw_scan_run_app sp s : forall st st' t,
  gw_run sp st s = Some st' ->
  gw_scan sp false st (s ++ t) =
  (let '(w, rest, fin) := gw_scan sp false st' t in (s ++ w, rest, fin)).
Proof.
  induction s as [|c s IH]; intros st st' t H; cbn [gw_run] in H.
  - inversion H; subst. cbn [app]. destruct (gw_scan sp false st' t) as [[? ?] ?]. reflexivity.
  - cbn [app gw_scan]. destruct (gw_step sp false st c) as [[st1 []]|]; try discriminate.
    rewrite (IH _ _ t H). destruct (gw_scan sp false st' t) as [[? ?] ?]. reflexivity.
Qed.

Lemma gw_run_app sp s : forall st t,
  gw_run sp st (s ++ t) =
  match gw_run sp st s with Some st' => gw_run sp st' t | None => None end.
Proof.
  induction s as [|c s IH]; intros st t; cbn [app gw_run]; [reflexivity|].
  destruct (gw_step sp false st c) as [[st1 []]|]; auto.
Qed.

Section Masks.
Variable n sp : mask.
Hypothesis Hu : usable_separators (mset n) (mset sp).

Lemma plain_not_sep c : doit n c = false -> mset sp c = false.
Proof.
  intros H. apply doit_false in H. destruct H as (_ & H2 & _ & H4 & H5).
  destruct (mset sp c) eqn:E; [|reflexivity].
  destruct Hu as (H & _). destruct (H _ E) as [?|[?|?]]; congruence.
Qed.

Lemma gw_step_plain c b : doit n c = false ->
  gw_step sp false (GwSt false b 0) c = Some (GwSt false false 0, false).
Proof.
  intros H. pose proof (plain_not_sep c H) as Hs. apply doit_false in H.
  destruct H as (H1 & H2 & H3 & _). unfold gw_step. cbn [g_esc g_brace].
  apply Ascii.eqb_neq in H3, H1. rewrite H3, Hs, H1. reflexivity.
Qed.

Lemma gw_run_plain s b : s <> [] -> Forall (fun c => doit n c = false) s ->
  gw_run sp (GwSt false b 0) s = Some (GwSt false false 0).
Proof.
  intros Hne H. revert b. induction H as [|c s Hc Hs IH]; intros b; [congruence|].
  cbn [gw_run]. rewrite gw_step_plain by assumption.
  destruct s as [|d s]; [reflexivity|]. apply IH. discriminate.
Qed.

(** The continuation flag left after a backslashed element. *)
Definition tail_cont (s : bytes) : bool :=
  Ascii.eqb (last s nul) newline && doit n newline.

Lemma gw_run_backslash s : forall b,
  gw_run sp (GwSt false b 0) (backslash_out n s) =
  Some (GwSt false (match s with [] => b | _ => tail_cont s end) 0).
Proof.
  induction s as [|c s IH]; intros b; [reflexivity|].
  assert (Hl : forall d, d = (Ascii.eqb c newline && doit n newline) ->
            match s with [] => d | _ => tail_cont s end = tail_cont (c :: s)).
  { intros d ->. destruct s; reflexivity. }
  cbn [backslash_out]. destruct (doit n c) eqn:E; cbn [app gw_run].
  - unfold gw_step at 1. cbn [g_esc g_brace]. rewrite Ascii.eqb_refl.
    unfold gw_step at 1. cbn [g_esc g_brace]. rewrite IH. do 2 f_equal. apply Hl.
    destruct (Ascii.eqb_spec c newline) as [->|]; [rewrite E|]; reflexivity.
  - rewrite gw_step_plain by assumption. rewrite IH. do 2 f_equal. apply Hl.
    destruct (Ascii.eqb_spec c newline) as [->|]; [rewrite E|]; reflexivity.
Qed.

Lemma esc_bs_mono s : forall st, e_bs st = true -> e_bs (fold_left (esc_step n) s st) = true.
Proof.
  induction s as [|c s IH]; intros st H; cbn [fold_left]; [assumption|].
  apply IH. cbn. rewrite H. destruct (_ <? 0)%Z; reflexivity.
Qed.

(** Inside braces the word scanner tracks exactly the brace count of the
    escaper. *)
Lemma gw_run_braced s : forall st k b,
  e_brace st = Z.of_nat k ->
  e_bs (fold_left (esc_step n) s st) = false ->
  exists k' b',
    e_brace (fold_left (esc_step n) s st) = Z.of_nat k' /\
    gw_run sp (GwSt (e_esc st) b (S k)) s =
      Some (GwSt (e_esc (fold_left (esc_step n) s st)) b' (S k')).
Proof.
  induction s as [|c s IH]; intros st k b Hk Hbs; cbn [fold_left gw_run] in *.
  - exists k, b. split; [assumption|reflexivity].
  - assert (Hb1 : e_bs (esc_step n st c) = false).
    { destruct (e_bs (esc_step n st c)) eqn:E; [|reflexivity].
      rewrite esc_bs_mono in Hbs by assumption. discriminate. }
    unfold gw_step. cbn [g_esc g_brace Nat.eqb andb negb].
    destruct (e_esc st) eqn:Ee.
    + destruct (IH (esc_step n st c) k (Ascii.eqb c newline)) as (k' & b' & H1 & H2);
        [cbn; rewrite Ee; cbn; assumption|assumption|].
      exists k', b'. split; [assumption|]. rewrite <- H2. f_equal.
      cbn. rewrite Ee. destruct (Ascii.eqb c "\"); reflexivity.
    + destruct (Ascii.eqb_spec c "\") as [->|Hne].
      * destruct (IH (esc_step n st "\") k false) as (k' & b' & H1 & H2);
          [cbn; rewrite Ee; cbn; assumption|assumption|].
        exists k', b'. split; [assumption|]. rewrite <- H2. f_equal.
        cbn. rewrite Ee. reflexivity.
      * destruct (Ascii.eqb_spec c "{") as [->|Ho].
        -- destruct (IH (esc_step n st "{") (S k) false) as (k' & b' & H1 & H2);
             [cbn; rewrite Ee; cbn; lia|assumption|].
           exists k', b'. split; [assumption|]. rewrite <- H2. reflexivity.
        -- destruct (Ascii.eqb_spec c "}") as [->|Hc].
           ++ destruct k as [|k].
              { exfalso. unfold esc_step in Hb1. rewrite Ee, Hk in Hb1.
                cbn in Hb1. discriminate. }
              destruct (IH (esc_step n st "}") k false) as (k' & b' & H1 & H2);
                [cbn; rewrite Ee, Hk; cbn [negb andb Ascii.eqb Bool.eqb]; lia|assumption|].
              exists k', b'. split; [assumption|]. rewrite <- H2. cbn [andb].
              reflexivity.
           ++ destruct (IH (esc_step n st c) k false) as (k' & b' & H1 & H2);
                [ |assumption|].
              { cbn. rewrite Ee. cbn [negb andb].
                apply Ascii.eqb_neq in Ho, Hc. rewrite Ho, Hc. assumption. }
              exists k', b'. split; [assumption|]. rewrite <- H2. rewrite andb_false_r.
              f_equal. cbn. apply Ascii.eqb_neq in Hne. rewrite Hne. reflexivity.
Qed.

Lemma mode_embrace s : esc_mode (esc_scan n s) = Embrace ->
  e_bs (esc_scan n s) = false /\ e_brace (esc_scan n s) = 0%Z /\ e_esc (esc_scan n s) = false.
Proof.
  unfold esc_mode. destruct (e_bs _), (Z.eqb_spec (e_brace (esc_scan n s)) 0) as [E|E], (e_esc _);
    cbn; try (destruct (Nat.eqb _ _); cbn); try discriminate; auto.
Qed.

(** The flag after scanning the whole encoded element. *)
Definition elem_cont (s : bytes) : bool :=
  match s with
  | [] => false
  | _ => match esc_mode (esc_scan n s) with
         | Backslash => tail_cont s
         | _ => false
         end
  end.

Lemma gw_run_elem s :
  gw_run sp (GwSt false false 0) (esc_pure n s) = Some (GwSt false (elem_cont s) 0).
Proof.
  destruct Hu as (_ & Hob & _).
  assert (Hopen : gw_step sp false (GwSt false false 0) "{" = Some (GwSt false false 1, false)).
  { unfold gw_step. cbn. rewrite Hob. reflexivity. }
  unfold esc_pure, elem_cont. destruct s as [|c s].
  - cbn [gw_run]. rewrite Hopen. reflexivity.
  - destruct (esc_mode _) eqn:E.
    + apply gw_run_plain; [discriminate|]. apply mode_verbatim; assumption.
    + rewrite gw_run_backslash. reflexivity.
    + apply mode_embrace in E. destruct E as (E1 & E2 & E3).
      cbn [gw_run]. rewrite Hopen.
      destruct (gw_run_braced (c :: s) esc_init 0 false) as (k' & b' & H1 & H2);
        [reflexivity|exact E1|].
      unfold esc_scan in E2, E3.
      assert (k' = 0) by lia. subst k'. rewrite E3 in H2. cbn [esc_init e_esc] in H2.
      rewrite gw_run_app, H2. reflexivity.
Qed.

(** First character of an encoded element is neither a separator nor a quote. *)
Lemma esc_pure_head s : exists d r, esc_pure n s = d :: r /\ mset sp d = false /\ d <> """".
Proof.
  destruct Hu as (_ & Hob & Hbs).
  unfold esc_pure. destruct s as [|c s].
  - do 2 eexists. split; [reflexivity|]. split; [assumption|discriminate].
  - destruct (esc_mode _) eqn:E.
    + apply mode_verbatim in E. inversion E as [|? ? Hc _]; subst.
      do 2 eexists. split; [reflexivity|]. split; [apply plain_not_sep; assumption|].
      apply doit_false in Hc. tauto.
    + cbn [backslash_out]. destruct (doit n c) eqn:D; cbn [app]; do 2 eexists;
        (split; [reflexivity|]).
      * split; [assumption|discriminate].
      * split; [apply plain_not_sep; assumption|]. apply doit_false in D. tauto.
    + do 2 eexists. split; [reflexivity|]. split; [assumption|discriminate].
Qed.

Lemma skip_seps_app pre s : Forall (fun c => mset sp c = true) pre ->
  skip_seps sp (pre ++ s) = skip_seps sp s.
Proof.
  induction 1 as [|c pre Hc _ IH]; cbn; [reflexivity|]. rewrite Hc. assumption.
Qed.

Lemma getword_elem_gen pre s t w rest fin :
  Forall (fun c => mset sp c = true) pre ->
  gw_scan sp false (GwSt false (elem_cont s) 0) t = (w, rest, fin) ->
  w = [] -> g_brace fin = 0 -> g_esc fin = false ->
  getword_scan sp true (pre ++ esc_pure n s ++ t) =
  if g_cont fin then Ok GNone else Ok (GWord s rest).
Proof.
  intros Hpre Hsc -> Hb He.
  unfold getword_scan. rewrite skip_seps_app by assumption.
  destruct (esc_pure_head s) as (d & r & Hd & Hds & Hdq).
  pose proof (gw_scan_run_app sp _ _ _ t (gw_run_elem s)) as Hrun.
  pose proof (unescape_escape_emit n s) as Hun.
  rewrite Hd in *. cbn [app skip_seps] in *. rewrite Hds.
  apply Ascii.eqb_neq in Hdq. rewrite Hdq. rewrite Hrun, Hsc, Hb, He. rewrite app_nil_r.
  cbn [Nat.eqb negb orb]. destruct (g_cont fin); [reflexivity|].
  rewrite Hun. reflexivity.
Qed.

Lemma getword_elem_sep pre s c t :
  Forall (fun c => mset sp c = true) pre -> mset sp c = true ->
  getword_scan sp true (pre ++ esc_pure n s ++ c :: t) = Ok (GWord s (c :: t)).
Proof.
  intros Hpre Hc. destruct Hu as (_ & _ & Hbs).
  rewrite (getword_elem_gen pre s (c :: t) [] (c :: t) (GwSt false false 0)); auto.
  cbn [gw_scan]. unfold gw_step. cbn [g_esc g_brace Nat.eqb andb negb].
  destruct (Ascii.eqb_spec c "\") as [->|]; [congruence|]. rewrite Hc. reflexivity.
Qed.

Lemma getword_elem_end pre s :
  Forall (fun c => mset sp c = true) pre ->
  getword_scan sp true (pre ++ esc_pure n s) =
  if elem_cont s then Ok GNone else Ok (GWord s []).
Proof.
  intros Hpre. rewrite <- (app_nil_r (esc_pure n s)).
  rewrite (getword_elem_gen pre s [] [] [] (GwSt false (elem_cont s) 0)); auto.
Qed.

(** ** Whole lists *)
Fixpoint enc_pure (sep : byte) (l : list bytes) : bytes :=
  match l with
  | [] => []
  | [x] => esc_pure n x
  | x :: r => esc_pure n x ++ sep :: enc_pure sep r
  end.

Definition dropped (l : list bytes) : list bytes :=
  match rev l with
  | [] => []
  | x :: r => if elem_cont x then rev r else l
  end.

Lemma dropped_single x : dropped [x] = if elem_cont x then [] else [x].
Proof. reflexivity. Qed.
Lemma dropped_cons x y l : dropped (x :: y :: l) = x :: dropped (y :: l).
Proof.
  unfold dropped. cbn [rev].
  destruct (rev l ++ [y]) as [|z w] eqn:E.
  - destruct (rev l); discriminate.
  - cbn [app]. destruct (elem_cont z); [|reflexivity].
    rewrite rev_app_distr. reflexivity.
Qed.

Lemma decode_enc sep l : mset sp sep = true -> Forall nul_free l ->
  forall fuel pre, Forall (fun c => mset sp c = true) pre ->
  length (pre ++ enc_pure sep l) < fuel ->
  decode_loop fuel sp true (pre ++ enc_pure sep l) = Ok (dropped l).
Proof.
  intros Hsep. induction l as [|x l IH]; intros Hl fuel pre Hpre Hf.
  - destruct fuel as [|fuel]; [lia|]. cbn [enc_pure decode_loop].
    unfold getword_scan. rewrite skip_seps_app by assumption. reflexivity.
  - inversion Hl as [|? ? Hx Hl']; subst.
    destruct fuel as [|fuel]; [lia|]. destruct l as [|y l].
    + cbn [enc_pure decode_loop]. rewrite getword_elem_end by assumption.
      rewrite dropped_single. destruct (elem_cont x); [reflexivity|]. cbn [bind].
      rewrite make_string_ok, cstr_nul_free by assumption. cbn [bind].
      destruct fuel as [|fuel].
      * exfalso. cbn [enc_pure] in Hf. rewrite app_length in Hf.
        destruct (esc_pure_head x) as (d & r & Hd & _). rewrite Hd in Hf. cbn in Hf. lia.
      * reflexivity.
    + change (enc_pure sep (x :: y :: l)) with (esc_pure n x ++ sep :: enc_pure sep (y :: l)) in *.
      cbn [decode_loop]. rewrite getword_elem_sep by assumption. cbn [bind].
      rewrite make_string_ok, cstr_nul_free by assumption. cbn [bind].
      change (sep :: enc_pure sep (y :: l)) with ([sep] ++ enc_pure sep (y :: l)).
      rewrite IH; auto.
      * cbn [bind]. rewrite dropped_cons. reflexivity.
      * rewrite !app_length in Hf. cbn [length] in Hf.
        rewrite app_length. cbn [length].
        destruct (esc_pure_head x) as (d & r & Hd & _). rewrite Hd in Hf. cbn [length] in Hf. lia.
Qed.
End Masks.

(** *** The encoder loops *)
Lemma encode_size_acc n l : forall a,
  fold_left (fun size s => size + fst (escape_size n s)) (map Some l) a =
  a + length (concat (map (esc_pure n) l)).
Proof.
  induction l as [|x l IH]; intros a; cbn [map fold_left concat]; [cbn; lia|].
  rewrite IH, escape_size_pure, app_length. lia.
Qed.

Lemma enc_pure_length n sep l :
  length (enc_pure n sep l) + (match l with [] => 0 | _ => 1 end) =
  length (concat (map (esc_pure n) l)) + length l.
Proof.
  induction l as [|x l IH]; [reflexivity|]. destruct l as [|y l].
  - cbn [enc_pure map concat length]. rewrite app_nil_r. lia.
  - change (enc_pure n sep (x :: y :: l)) with (esc_pure n x ++ sep :: enc_pure n sep (y :: l)).
    cbn [map concat length] in *. rewrite !app_length in *. cbn [length]. lia.
Qed.

Lemma encode_write_cons2 n sep m p s t r :
  encode_write n sep m p (s :: t :: r) =
  (let! (m, k) := escape_write n m p s in
   let! m := of_opt (store m (p + k) sep) in
   encode_write n sep m (S (p + k)) (t :: r)).
Proof. reflexivity. Qed.

Lemma encode_write_pure n sep l : forall m p,
  p + length (enc_pure n sep l) <= length m ->
  encode_write n sep m p (map Some l) =
  Ok (firstn p m ++ enc_pure n sep l ++ skipn (p + length (enc_pure n sep l)) m,
      p + length (enc_pure n sep l)).
Proof.
  induction l as [|x l IH]; intros m p H.
  - cbn [map encode_write enc_pure length app]. rewrite Nat.add_0_r, firstn_skipn. reflexivity.
  - destruct l as [|y l].
    + cbn [map encode_write enc_pure] in *. rewrite escape_write_pure by assumption. reflexivity.
    + change (enc_pure n sep (x :: y :: l)) with (esc_pure n x ++ sep :: enc_pure n sep (y :: l)) in *.
      rewrite app_length in H. cbn [length] in H.
      cbn [map]. rewrite encode_write_cons2. rewrite escape_write_pure by lia.
      cbn [bind].
      set (E := esc_pure n x) in *. set (R := enc_pure n sep (y :: l)) in *.
      assert (Hf : length (firstn p m) = p) by (rewrite firstn_length; lia).
      rewrite store_some by (rewrite !app_length, skipn_length, Hf; lia).
      cbn [of_opt bind].
      replace (firstn (p + length E) (firstn p m ++ E ++ skipn (p + length E) m))
        with (firstn p m ++ E).
      2:{ rewrite app_assoc, firstn_app_len by (rewrite app_length, Hf; lia). reflexivity. }
      replace (skipn (S (p + length E)) (firstn p m ++ E ++ skipn (p + length E) m))
        with (skipn (S (p + length E)) m).
      2:{ rewrite app_assoc.
          rewrite (skipn_app_len _ _ _ 1) by (rewrite app_length, Hf; lia).
          rewrite skipn_skipn_add. reflexivity. }
      change (Some y :: map Some l) with (map Some (y :: l)).
      rewrite IH.
      2:{ rewrite !app_length. cbn [length]. rewrite skipn_length, Hf. lia. }
      assert (Hp : length ((firstn p m ++ E) ++ [sep]) = S (p + length E)).
      { rewrite !app_length, Hf. cbn. lia. }
      replace ((firstn p m ++ E) ++ sep :: skipn (S (p + length E)) m)
          with (((firstn p m ++ E) ++ [sep]) ++ skipn (S (p + length E)) m)
          by (rewrite <- !app_assoc; reflexivity).
      rewrite firstn_app_len by lia.
      rewrite (skipn_app_len _ _ _ (length R)) by lia.
      rewrite skipn_skipn_add, <- !app_assoc, app_length. cbn [length app].
      f_equal. f_equal; [|lia]. do 5 f_equal. lia.
Qed.

Lemma enc_pure_nul_free n sep l : sep <> nul -> Forall nul_free l -> nul_free (enc_pure n sep l).
Proof.
  intros Hs. induction 1 as [|x l Hx Hl IH].
  - unfold nul_free; cbn; tauto.
  - destruct l as [|y l]; [apply esc_pure_nul_free; assumption|].
    change (enc_pure n sep (x :: y :: l)) with (esc_pure n x ++ sep :: enc_pure n sep (y :: l)).
    apply nul_free_app. split; [apply esc_pure_nul_free; assumption|].
    apply nul_free_cons. auto.
Qed.

Lemma encode_total n sp l : mfirst sp <> nul -> Forall nul_free l ->
  wvtcl_encode n sp (map Some l) = Ok (enc_pure n (mfirst sp) l).
Proof.
  intros Hs Hl. unfold wvtcl_encode, encode_size. rewrite encode_size_acc.
  pose proof (enc_pure_length n (mfirst sp) l) as Hlen.
  rewrite map_length. cbn [Nat.add].
  assert (Hle : length (enc_pure n (mfirst sp) l) <= length (concat (map (esc_pure n) l)) + length l)
    by lia.
  rewrite encode_write_pure by
    (unfold setsize; rewrite calloc_length; lia).
  cbn [bind]. change (0 + length (enc_pure n (mfirst sp) l)) with (length (enc_pure n (mfirst sp) l)) at 2.
  rewrite (store_end _ _ (S (length (concat (map (esc_pure n) l)) + length l)))
    by (unfold setsize; rewrite ?calloc_length; lia).
  cbn [of_opt bind]. rewrite cstr_app_nul by (apply enc_pure_nul_free; assumption). reflexivity.
Qed.

(** ** Balanced text: the escaper's brace counter decides the grammar *)
Inductive closes : nat -> bytes -> Prop :=
| cl_O s : balanced s -> closes 0 s
| cl_S k s t : balanced s -> closes k t -> closes (S k) (s ++ "}" :: t).

Lemma closes_char c k s : c <> "{" -> c <> "}" -> c <> "\" -> closes k s -> closes k (c :: s).
Proof.
  intros H1 H2 H3 H. inversion H; subst.
  - constructor. constructor; assumption.
  - change (c :: s0 ++ "}" :: t) with ((c :: s0) ++ "}" :: t). constructor; [|assumption].
    constructor; assumption.
Qed.
Lemma closes_esc c k s : closes k s -> closes k ("\" :: c :: s).
Proof.
  intros H. inversion H; subst.
  - constructor. constructor; assumption.
  - change ("\" :: c :: s0 ++ "}" :: t) with (("\" :: c :: s0) ++ "}" :: t).
    constructor; [|assumption]. constructor; assumption.
Qed.
Lemma closes_open k s : closes (S k) s -> closes k ("{" :: s).
Proof.
  intros H. inversion H as [|k' s0 t Hs Ht]; subst. inversion Ht as [? Hb|k2 s1 t1 Hs1 Ht1]; subst.
  - constructor. constructor; assumption.
  - change ("{" :: s0 ++ "}" :: s1 ++ "}" :: t1) with ("{" :: s0 ++ ("}" :: s1) ++ "}" :: t1).
    rewrite app_assoc. change ("{" :: (s0 ++ "}" :: s1) ++ "}" :: t1) with
      (("{" :: (s0 ++ "}" :: s1)) ++ "}" :: t1).
    constructor; [|assumption]. constructor; assumption.
Qed.

(** Counter semantics of a string: from state [st], never negative, ending at
    zero outside an escape. *)
Definition counts_ok n st s : Prop :=
  let st' := fold_left (esc_step n) s st in
  e_bs st' = false /\ e_brace st' = 0%Z /\ e_esc st' = false.

Lemma step_cases n st c : e_esc st = false -> e_bs st = false ->
  (c = "\" /\ esc_step n st c = EscSt (e_len (esc_step n st c)) (e_unprint (esc_step n st c)) (e_brace st) (e_brace st <? 0)%Z true) \/
  (c = "{" /\ esc_step n st c = EscSt (e_len (esc_step n st c)) (e_unprint (esc_step n st c)) (e_brace st + 1) (e_brace st + 1 <? 0)%Z false) \/
  (c = "}" /\ esc_step n st c = EscSt (e_len (esc_step n st c)) (e_unprint (esc_step n st c)) (e_brace st - 1) (e_brace st - 1 <? 0)%Z false) \/
  (c <> "\" /\ c <> "{" /\ c <> "}" /\ esc_step n st c = EscSt (e_len (esc_step n st c)) (e_unprint (esc_step n st c)) (e_brace st) (e_brace st <? 0)%Z false).
Proof.
  intros He Hb. unfold esc_step. cbn [e_len e_unprint]. rewrite He, Hb. cbn [negb andb].
  destruct (Ascii.eqb_spec c "{") as [->|H1]; [right; left; split; [reflexivity|]; destruct (_ <? 0)%Z; reflexivity|].
  destruct (Ascii.eqb_spec c "}") as [->|H2]; [do 2 right; left; split; [reflexivity|]; destruct (_ <? 0)%Z; reflexivity|].
  destruct (Ascii.eqb_spec c "\") as [->|H3]; [left; split; [reflexivity|]; destruct (_ <? 0)%Z; reflexivity|].
  do 3 right. repeat split; try assumption. destruct (_ <? 0)%Z; reflexivity.
Qed.

Lemma counts_closes n s : forall len, length s <= len -> forall st k,
  e_brace st = Z.of_nat k -> e_esc st = false -> e_bs st = false ->
  counts_ok n st s -> closes k s.
Proof.
  intros len. revert s. induction len as [|len IH]; intros s Hlen st k Hk He Hb Hc.
  - destruct s; [|cbn in Hlen; lia]. destruct Hc as (_ & Hz & _). cbn in Hz.
    assert (k = 0) by lia. subst. constructor. constructor.
  - destruct s as [|c s].
    { destruct Hc as (_ & Hz & _). cbn in Hz.
      assert (k = 0) by lia. subst. constructor. constructor. }
    change (counts_ok n (esc_step n st c) s) in Hc. cbn [length] in Hlen.
    destruct (step_cases n st c He Hb) as [[-> E]|[[-> E]|[[-> E]|(H1 & H2 & H3 & E)]]];
      rewrite E in Hc; clear E.
    + destruct s as [|d s].
      { destruct Hc as (_ & _ & Hz). discriminate Hz. }
      apply closes_esc. cbn [length] in Hlen.
      match type of Hc with counts_ok _ ?S1 _ => change (counts_ok n (esc_step n S1 d) s) in Hc end.
      refine (IH s ltac:(lia) _ k _ _ _ Hc).
      * cbn. assumption.
      * cbn. destruct (Ascii.eqb d "\"); reflexivity.
      * cbn. rewrite Hk. replace (Z.of_nat k <? 0)%Z with false by lia. reflexivity.
    + apply closes_open.
      refine (IH s ltac:(lia) _ (S k) _ _ _ Hc); cbn; try reflexivity; lia.
    + destruct k as [|k].
      { exfalso. destruct Hc as (Hz & _). rewrite esc_bs_mono in Hz; [discriminate|].
        cbn. lia. }
      change ("}" :: s) with ([] ++ "}" :: s). constructor; [constructor|].
      refine (IH s ltac:(lia) _ k _ _ _ Hc); cbn; try reflexivity; lia.
    + apply closes_char; auto.
      refine (IH s ltac:(lia) _ k _ _ _ Hc); cbn; try reflexivity; lia.
Qed.

Lemma balanced_counts n s : balanced s -> forall st,
  (0 <= e_brace st)%Z -> e_esc st = false -> e_bs st = false ->
  e_bs (fold_left (esc_step n) s st) = false /\
  e_brace (fold_left (esc_step n) s st) = e_brace st /\
  e_esc (fold_left (esc_step n) s st) = false.
Proof.
  induction 1 as [|c s H1 H2 H3 Hs IH|c s Hs IH|s t Hs IHs Ht IHt]; intros st Hk He Hb;
    cbn [fold_left].
  - auto.
  - destruct (step_cases n st c He Hb) as [[-> E]|[[-> E]|[[-> E]|(_ & _ & _ & E)]]]; try congruence.
    rewrite E. match goal with |- context [fold_left _ s ?S1] => destruct (IH S1) as (A & B & C) end;
      cbn [e_brace e_bs e_esc]; try lia; auto.
  - destruct (step_cases n st "\" He Hb) as [[_ E]|[[F E]|[[F E]|(F & _ & _ & E)]]]; try congruence.
    rewrite E. cbn [fold_left].
    match goal with |- context [fold_left _ s ?S1] => destruct (IH S1) as (A & B & C) end; auto.
    + cbn. destruct (Ascii.eqb c "\"); reflexivity.
    + cbn. replace (e_brace st <? 0)%Z with false by lia. reflexivity.
  - destruct (step_cases n st "{" He Hb) as [[F E]|[[_ E]|[[F E]|(_ & F & _ & E)]]]; try congruence.
    rewrite E. rewrite fold_left_app. cbn [fold_left].
    match goal with |- context [fold_left _ s ?S1] => destruct (IHs S1) as (A & B & C) end;
      cbn [e_brace e_bs e_esc]; try lia; try reflexivity.
    set (st1 := fold_left (esc_step n) s _) in *. clearbody st1.
    destruct (step_cases n st1 "}" C A) as [[F E2]|[[F E2]|[[_ E2]|(_ & _ & F & E2)]]]; try congruence.
    rewrite E2. cbn [e_brace] in B.
    match goal with |- context [fold_left _ t ?S1] => destruct (IHt S1) as (A2 & B2 & C2) end;
      cbn [e_brace e_bs e_esc]; try lia; try reflexivity.
    repeat split; auto. rewrite B2. cbn [e_brace]. lia.
Qed.

Lemma scan_balanced n s :
  (e_bs (esc_scan n s) || negb (Z.eqb (e_brace (esc_scan n s)) 0) || e_esc (esc_scan n s)) = false
  <-> balanced s.
Proof.
  rewrite !orb_false_iff, negb_false_iff, Z.eqb_eq. split.
  - intros [[H1 H2] H3].
    assert (closes 0 s) as H.
    { apply (counts_closes n s (length s) (le_n _) esc_init 0); try reflexivity.
      repeat split; assumption. }
    inversion H; assumption.
  - intros H. destruct (balanced_counts n s H esc_init) as (A & B & C); try reflexivity.
    unfold esc_scan. rewrite A, B, C. auto.
Qed.

Lemma elem_cont_spec n s : elem_cont n s = true <->
  exists x, s = x ++ [newline] /\ mset n newline = true /\ ~ balanced s.
Proof.
  unfold elem_cont, tail_cont. split.
  - destruct s as [|c s]; [discriminate|].
    destruct (esc_mode _) eqn:E; try discriminate.
    rewrite andb_true_iff. intros [H1 H2].
    exists (removelast (c :: s)).
    assert (Hne : c :: s <> []) by discriminate.
    pose proof (app_removelast_last nul Hne) as Hl.
    apply Ascii.eqb_eq in H1. rewrite H1 in Hl. split; [exact Hl|].
    split; [|intros Hbal; apply (scan_balanced n) in Hbal; unfold esc_mode in E; rewrite Hbal in E;
             cbn in E; destruct (Nat.eqb _ _); discriminate].
    unfold doit in H2. apply orb_true_iff in H2. destruct H2 as [H2|H2]; [discriminate H2|exact H2].
  - intros (x & Hx & Hn & Hb). subst s.
    rewrite last_snoc. unfold doit. rewrite Hn, orb_true_r. cbn [andb].
    assert (Hbs : (e_bs (esc_scan n (x ++ [newline])) || negb (Z.eqb (e_brace (esc_scan n (x ++ [newline]))) 0) || e_esc (esc_scan n (x ++ [newline]))) = true).
    { destruct (_ || _ || _) eqn:E; [reflexivity|]. apply scan_balanced in E. contradiction. }
    unfold esc_mode. rewrite Hbs. cbn [negb andb].
    destruct (x ++ [newline]) eqn:E; [destruct x; discriminate|].
    rewrite Ascii.eqb_refl. reflexivity.
Qed.

Lemma dropped_not_lost n l : ~ lost_last (mset n) l -> dropped n l = l.
Proof.
  intros H. unfold dropped. destruct (rev l) as [|x r] eqn:E.
  - destruct l as [|y l]; [reflexivity|]. cbn in E. destruct (rev l); discriminate.
  - destruct (elem_cont n x) eqn:C; [|reflexivity].
    exfalso. apply H. apply elem_cont_spec in C. destruct C as (y & Hy & Hn & Hb).
    exists (rev r), y. subst x. repeat split; auto.
    rewrite <- (rev_involutive l), E. reflexivity.
Qed.

Lemma dropped_lost n l : lost_last (mset n) l -> dropped n l = removelast l.
Proof.
  intros (l' & x & -> & Hn & Hb). unfold dropped. rewrite rev_app_distr. cbn [rev app].
  replace (elem_cont n (x ++ [newline])) with true.
  - rewrite rev_involutive, removelast_snoc. reflexivity.
  - symmetry. apply elem_cont_spec. eauto.
Qed.

Theorem decode_encode_gen n sp l :
  usable_separators (mset n) (mset sp) ->
  mset sp (mfirst sp) = true -> mfirst sp <> nul -> Forall nul_free l ->
  exists e, wvtcl_encode n sp (map Some l) = Ok e /\
    wvtcl_decode sp true e = Ok (dropped n l).
Proof.
  intros Hu Hf Hz Hl. exists (enc_pure n (mfirst sp) l). split.
  - apply encode_total; assumption.
  - unfold wvtcl_decode.
    apply (decode_enc n sp Hu (mfirst sp) l Hf Hl (S (length (enc_pure n (mfirst sp) l))) []).
    + constructor.
    + cbn. lia.
Qed.

Theorem decode_encode n sp l :
  usable_separators (mset n) (mset sp) ->
  mset sp (mfirst sp) = true -> mfirst sp <> nul -> Forall nul_free l ->
  ~ lost_last (mset n) l ->
  exists e, wvtcl_encode n sp (map Some l) = Ok e /\ wvtcl_decode sp true e = Ok l.
Proof.
  intros Hu Hf Hz Hl Hn. destruct (decode_encode_gen n sp l Hu Hf Hz Hl) as (e & H1 & H2).
  exists e. rewrite H2, dropped_not_lost by assumption. auto.
Qed.

Theorem decode_encode_lost n sp l :
  usable_separators (mset n) (mset sp) ->
  mset sp (mfirst sp) = true -> mfirst sp <> nul -> Forall nul_free l ->
  lost_last (mset n) l ->
  exists e, wvtcl_encode n sp (map Some l) = Ok e /\ wvtcl_decode sp true e = Ok (removelast l).
Proof.
  intros Hu Hf Hz Hl Hn. destruct (decode_encode_gen n sp l Hu Hf Hz Hl) as (e & H1 & H2).
  exists e. rewrite H2, dropped_lost by assumption. auto.
Qed.

(** ** Framing of getword *)
Lemma gw_scan_split sp q s : forall st t rest st',
  gw_scan sp q st s = (t, rest, st') -> s = t ++ rest.
Proof.
  induction s as [|c s IH]; intros st t rest st' H; cbn [gw_scan] in H.
  - inversion H; reflexivity.
  - destruct (gw_step sp q st c) as [[st1 b]|].
    + destruct b.
      * inversion H; subst. reflexivity.
      * destruct (gw_scan sp q st1 s) as [[t1 r1] s1] eqn:E. inversion H; subst.
        cbn [app]. f_equal. eapply IH; eassumption.
    + inversion H; subst. reflexivity.
Qed.

Lemma gw_step_break_sep sp st c : gw_step sp false st c = None -> mset sp c = true.
Proof.
  unfold gw_step. destruct (g_esc st); [discriminate|].
  destruct (Ascii.eqb c "\"); [discriminate|].
  destruct (mset sp c); [reflexivity|]. rewrite andb_false_r. rewrite andb_false_r. discriminate.
Qed.

Lemma gw_scan_rest sp s : forall st t rest st',
  gw_scan sp false st s = (t, rest, st') ->
  match rest with [] => True | c :: _ => mset sp c = true end.
Proof.
  induction s as [|c s IH]; intros st t rest st' H; cbn [gw_scan] in H.
  - inversion H; exact I.
  - destruct (gw_step sp false st c) as [[st1 b]|] eqn:Es.
    + assert (b = false) as ->.
      { destruct (gw_step_noquote sp st c) as (x & Hx); congruence. }
      destruct (gw_scan sp false st1 s) as [[t1 r1] s1] eqn:E. inversion H; subst.
      eapply IH; eassumption.
    + inversion H; subst. apply gw_step_break_sep with st. assumption.
Qed.

Lemma gw_scan_extend sp s u : forall st t c rest st',
  gw_scan sp false st s = (t, c :: rest, st') ->
  gw_scan sp false st (s ++ u) = (t, c :: rest ++ u, st').
Proof.
  induction s as [|d s IH]; intros st t c rest st' H; cbn [gw_scan app] in *.
  - discriminate.
  - destruct (gw_step sp false st d) as [[st1 b]|] eqn:Es.
    + assert (b = false) as ->.
      { destruct (gw_step_noquote sp st d) as (x & Hx); congruence. }
      destruct (gw_scan sp false st1 s) as [[t1 r1] s1] eqn:E. inversion H; subst.
      rewrite (IH _ _ _ _ _ E). reflexivity.
    + inversion H; subst. reflexivity.
Qed.

Lemma skip_seps_split sp s : exists pre,
  s = pre ++ skip_seps sp s /\ Forall (fun c => mset sp c = true) pre.
Proof.
  induction s as [|c s (pre & H1 & H2)]; cbn [skip_seps].
  - exists []. split; [reflexivity|constructor].
  - destruct (mset sp c) eqn:E.
    + exists (c :: pre). cbn [app]. split; [f_equal; assumption|constructor; assumption].
    + exists []. split; [reflexivity|constructor].
Qed.

Lemma unescape_emit_ok c r : c <> """" -> exists out, unescape_emit (c :: r) = Ok out.
Proof.
  intros H. unfold unescape_emit. apply Ascii.eqb_neq in H. rewrite H. cbn [andb].
  destruct (_ && _); eauto.
Qed.

Lemma getword_scan_inv sp u s :
  (getword_scan sp u s = Ok GNone) \/
  exists pre raw rest out, getword_scan sp u s = Ok (GWord out rest) /\
    s = pre ++ raw ++ rest /\ Forall (fun c => mset sp c = true) pre /\ raw <> [] /\
    match rest with [] => True | c :: _ => mset sp c = true end /\
    (if u then unescape_emit raw = Ok out else out = raw).
Proof.
  unfold getword_scan. destruct (skip_seps_split sp s) as (pre & Hs & Hpre).
  destruct (skip_seps sp s) as [|c r] eqn:Esk; [left; reflexivity|].
  destruct (Ascii.eqb_spec c """") as [->|Hq].
  - left. destruct (gw_scan sp true _ r) as [[t rest] st]. rewrite !orb_true_r. reflexivity.
  - destruct (gw_scan sp false _ (c :: r)) as [[t rest] st] eqn:E.
    pose proof (gw_scan_split _ _ _ _ _ _ _ E) as Hsp.
    pose proof (gw_scan_rest _ _ _ _ _ _ E) as Hrest.
    destruct (_ || _ || _ || _ || _) eqn:Econd; [left; reflexivity|right].
    destruct t as [|d t].
    { rewrite orb_true_r in Econd. discriminate. }
    cbn [app] in Hsp. inversion Hsp; subst d.
    exists pre, (c :: t), rest. destruct u.
    + destruct (unescape_emit_ok c t Hq) as (out & Hout). exists out. rewrite Hout. cbn [bind].
      repeat split; auto; try discriminate. rewrite Hs. f_equal. rewrite H1. reflexivity.
    + exists (c :: t). repeat split; auto; try discriminate. rewrite Hs. f_equal. rewrite H1. reflexivity.
Qed.

Theorem getword_framing sp u buf :
  wvtcl_getword sp u buf = Ok (None, buf) \/
  exists pre raw rest w, wvtcl_getword sp u buf = Ok (Some w, rest) /\
    buf = pre ++ raw ++ rest /\ Forall (fun c => mset sp c = true) pre /\ raw <> [] /\
    match rest with [] => True | c :: _ => mset sp c = true end /\
    (if u then wvtcl_unescape (Some raw) = Ok (Some w) else w = cstr raw).
Proof.
  unfold wvtcl_getword.
  destruct (getword_scan_inv sp u buf) as [E|(pre & raw & rest & out & E & Hs & Hp & Hne & Hr & Hu)].
  - left. rewrite E. reflexivity.
  - right. exists pre, raw, rest, (cstr out). rewrite E. cbn [bind].
    rewrite make_string_ok. cbn [bind].
    repeat split; auto.
    + do 2 f_equal. subst buf. rewrite app_assoc.
      rewrite (skipn_app_len _ _ _ 0); [reflexivity|]. rewrite !app_length. lia.
    + destruct u.
      * unfold wvtcl_unescape. rewrite Hu. cbn [bind]. rewrite make_string_ok. reflexivity.
      * subst. reflexivity.
Qed.

Lemma skip_seps_extend sp s u c r : skip_seps sp s = c :: r ->
  skip_seps sp (s ++ u) = (c :: r) ++ u.
Proof.
  induction s as [|d s IH]; cbn; [discriminate|].
  destruct (mset sp d); [apply IH|]. intros H; inversion H; reflexivity.
Qed.

Lemma getword_scan_extend sp u s t out c rest :
  getword_scan sp u s = Ok (GWord out (c :: rest)) ->
  getword_scan sp u (s ++ t) = Ok (GWord out (c :: rest ++ t)).
Proof.
  unfold getword_scan. destruct (skip_seps sp s) as [|d r] eqn:Esk; [discriminate|].
  rewrite (skip_seps_extend _ _ t _ _ Esk). cbn [app].
  destruct (Ascii.eqb d """") eqn:Eq.
  - destruct (gw_scan sp true _ r) as [[? ?] ?]. rewrite !orb_true_r. discriminate.
  - destruct (gw_scan sp false _ (d :: r)) as [[w rest'] st] eqn:E.
    intros H.
    assert (rest' = c :: rest).
    { destruct (_ || _ || _ || _ || _); [discriminate|].
      destruct u; [|inversion H; reflexivity].
      destruct (unescape_emit w); cbn in H; congruence. }
    subst rest'.
    change (d :: r ++ t) with ((d :: r) ++ t).
    rewrite (gw_scan_extend _ _ t _ _ _ _ _ E).
    destruct (_ || _ || _ || _ || _); [discriminate|].
    destruct u.
    + destruct (unescape_emit w); cbn in *; congruence.
    + congruence.
Qed.

Theorem getword_stable sp u buf t w c rest :
  wvtcl_getword sp u buf = Ok (Some w, c :: rest) ->
  wvtcl_getword sp u (buf ++ t) = Ok (Some w, c :: rest ++ t).
Proof.
  unfold wvtcl_getword.
  destruct (getword_scan_inv sp u buf) as [E|(pre & raw & rest' & out & E & Hs & _)].
  - rewrite E. cbn. discriminate.
  - rewrite E. cbn [bind]. rewrite make_string_ok. cbn [bind]. intros H.
    assert (Hr : rest' = c :: rest).
    { assert (Hk : skipn (length buf - length rest') buf = rest').
      { rewrite Hs at 2. rewrite app_assoc.
        rewrite (skipn_app_len _ _ _ 0); [reflexivity|]. rewrite Hs, !app_length. lia. }
      rewrite Hk in H. inversion H. reflexivity. }
    subst rest'. rewrite (getword_scan_extend _ _ _ t _ _ _ E). cbn [bind].
    rewrite make_string_ok. cbn [bind].
    inversion H. do 2 f_equal.
    subst buf. rewrite <- !app_assoc. cbn [app]. rewrite app_assoc.
    rewrite (skipn_app_len _ _ _ 0); [reflexivity|]. rewrite !app_length. cbn [length].
    rewrite !app_length. lia.
Qed.

(** ** Decoding any text whatever is safe and terminates *)
Lemma decode_loop_total sp u fuel : forall s, length s < fuel ->
  exists l, decode_loop fuel sp u s = Ok l.
Proof.
  induction fuel as [|fuel IH]; intros s Hf; [lia|]. cbn [decode_loop].
  destruct (getword_scan_inv sp u s) as [E|(pre & raw & rest & out & E & Hs & _ & Hne & _)];
    rewrite E; cbn [bind].
  - eauto.
  - rewrite make_string_ok. cbn [bind]. destruct (IH rest) as (l & Hl).
    + subst s. rewrite !app_length in Hf. destruct raw; [congruence|]. cbn in Hf. lia.
    + rewrite Hl. cbn [bind]. eauto.
Qed.

Theorem decode_total sp u s : exists l, wvtcl_decode sp u s = Ok l.
Proof. apply decode_loop_total. lia. Qed.

Theorem unescape_safe_iff s : (exists r, wvtcl_unescape (Some s) = Ok r) <-> s <> [""""].
Proof.
  unfold wvtcl_unescape. split.
  - intros (r & Hr) ->. discriminate Hr.
  - intros Hne.
    assert (exists out, unescape_emit s = Ok out) as (out & Ho).
    { destruct s as [|c r]; [cbn; eauto|].
      destruct (Ascii.eqb_spec c """") as [->|Hq]; [|apply unescape_emit_ok; assumption].
      destruct r as [|d r]; [congruence|].
      unfold unescape_emit. destruct (_ && _); [eauto|]. destruct (_ && _); eauto. }
    rewrite Ho. cbn [bind]. rewrite make_string_ok. cbn. eauto.
Qed.

(** Escaping never stores outside its buffer, whatever bytes come in. *)
Theorem escape_safe n s : exists r, wvtcl_escape n s = Ok r.
Proof.
  unfold wvtcl_escape. destruct s as [s|]; [|cbn; eauto].
  pose proof (escape_size_pure n s) as Hsz.
  destruct (escape_size n (Some s)) as [len vb] eqn:E. cbn [fst] in Hsz. subst len.
  destruct vb; [eauto|].
  rewrite escape_write_pure by (unfold setsize; rewrite calloc_length; lia).
  cbn [bind].
  rewrite (store_end _ _ (S (length (esc_pure n s)))) by
    (unfold setsize; rewrite ?calloc_length; lia).
  cbn. eauto.
Qed.

(** The size announced by the first pass is the number of bytes the second
    pass reports and writes, and nothing beyond them changes. *)
Theorem escape_two_pass n s m off :
  off + fst (escape_size n s) <= length m ->
  exists out, escape_write n m off s =
    Ok (firstn off m ++ out ++ skipn (off + length out) m, length out) /\
    length out = fst (escape_size n s).
Proof.
  destruct s as [s|].
  - rewrite escape_size_pure. intros H. exists (esc_pure n s).
    rewrite escape_write_pure by assumption. auto.
  - cbn. intros _. exists []. cbn. rewrite Nat.add_0_r, firstn_skipn. auto.
Qed.

(** ** Masks *)
Lemma mask_set_loop_spec s : forall m,
  Forall (fun c => nat_of_ascii c < 128) s ->
  exists m', mask_set_loop m s true = Ok m' /\ mfirst m' = mfirst m /\
    forall c, mset m' c = true <-> In c s \/ mset m c = true.
Proof.
  induction s as [|d s IH]; intros m H; cbn [mask_set_loop].
  - exists m. split; [reflexivity|]. split; [reflexivity|]. intros c. cbn. tauto.
  - inversion H as [|? ? Hd Hs]; subst.
    destruct (Nat.leb_spec 128 (nat_of_ascii d)); [lia|].
    destruct (IH (Mask (fun x => if Ascii.eqb x d then true else mset m x) (mfirst m)) Hs)
      as (m' & H1 & H2 & H3).
    exists m'. split; [assumption|]. split; [assumption|]. intros c. rewrite H3. cbn.
    destruct (Ascii.eqb_spec c d); subst; intuition congruence.
Qed.

Theorem mask_of_spec s : Forall (fun c => nat_of_ascii c < 128) s ->
  exists m, mask_of (Some s) = Ok m /\ mfirst m = hd nul s /\
    forall c, mset m c = true <-> In c s.
Proof.
  intros H. unfold mask_of, mask_set_str. cbn [mask_zap mfirst mset].
  rewrite Ascii.eqb_refl.
  destruct (mask_set_loop_spec s (Mask (fun _ => false) (hd nul s)) H) as (m & H1 & H2 & H3).
  exists m. split; [assumption|]. split; [assumption|].
  intros c. rewrite H3. cbn. intuition congruence.
Qed.

Lemma mask_set_loop_high s v : forall m, Exists (fun c => 128 <= nat_of_ascii c) s ->
  mask_set_loop m s v = Fault.
Proof.
  induction s as [|d s IH]; intros m H; inversion H; subst; cbn [mask_set_loop].
  - destruct (Nat.leb_spec 128 (nat_of_ascii d)); [reflexivity|lia].
  - destruct (Nat.leb_spec 128 (nat_of_ascii d)); [reflexivity|]. apply IH. assumption.
Qed.

Theorem mask_of_high s : Exists (fun c => 128 <= nat_of_ascii c) s -> mask_of (Some s) = Fault.
Proof. intros H. unfold mask_of, mask_set_str. apply mask_set_loop_high. assumption. Qed.

Theorem mask_set_char_spec m c v : nat_of_ascii c < 128 ->
  exists m', mask_set_char m c v = Ok m' /\
    (forall x, mset m' x = if Ascii.eqb x c then v else mset m x) /\
    (mfirst m <> nul -> mfirst m' = mfirst m) /\ (mfirst m = nul -> mfirst m' = c).
Proof.
  intros H. unfold mask_set_char. destruct (Nat.leb_spec 128 (nat_of_ascii c)); [lia|].
  eexists. split; [reflexivity|]. cbn [mset mfirst]. split; [reflexivity|].
  split; intros Hf; destruct (Ascii.eqb_spec (mfirst m) nul); congruence.
Qed.
