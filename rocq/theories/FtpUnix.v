(** UNIX listings. *)
From Verif Require Import Base FtpModel FtpSpec FtpDates FtpProofs FtpTrips.
Local Open Scope Z_scope.
Local Open Scope list_scope.

Lemma is_space c : is " " c = Ascii.eqb c space.
Proof. reflexivity. Qed.

Lemma not_space c : c <> space -> is " " c = false.
Proof. intros H. rewrite is_space. apply Ascii.eqb_neq. exact H. Qed.

(** Bytes that are not spaces end no word. *)
Lemma uloop_letters clock l w : forall pre post n s, l = pre ++ w ++ post -> ~ In space w ->
  uloop clock l (length w + n) (length pre) s = uloop clock l n (length pre + length w) s.
Proof.
  induction w as [|c r IH]; intros pre post n s El Hn; cbn [length Nat.add].
  - rewrite Nat.add_0_r. reflexivity.
  - cbn [uloop]. rewrite (rd_at' l pre c (r ++ post)) by auto. cbn [obind].
    rewrite not_space by (intros ->; apply Hn; left; reflexivity). cbn [obind].
    specialize (IH (pre ++ [c]) post n s). rewrite app_length in IH. cbn [length] in IH.
    replace (length pre + S (length r))%nat with (length pre + 1 + length r)%nat by lia.
    rewrite <- IH; [f_equal; lia| |intros X; apply Hn; right; exact X].
    rewrite <- app_assoc. exact El.
Qed.

(** Nor does a space after a space. *)
Lemma uloop_spaces clock l g : forall pre post n s, l = pre ++ [space] ++ repeat space g ++ post ->
  uloop clock l (g + n) (length pre + 1) s = uloop clock l n (length pre + 1 + g) s.
Proof.
  induction g as [|g IH]; intros pre post n s El; cbn [Nat.add].
  - rewrite Nat.add_0_r. reflexivity.
  - cbn [uloop repeat] in *.
    rewrite (rd_at' l (pre ++ [space]) space (repeat space g ++ post)).
    2: { rewrite <- app_assoc. exact El. }
    2: { rewrite app_length. reflexivity. }
    cbn [obind]. change (is " " space) with true. cbv iota.
    rewrite (rd_at' l pre space (space :: repeat space g ++ post)); [|exact El|lia].
    cbn [obind]. change (negb (is " " space)) with false. cbv iota.
    specialize (IH (pre ++ [space]) post n s). rewrite app_length in IH. cbn [length] in IH.
    replace (S (length pre + 1)) with (length pre + 1 + 1)%nat by lia.
    replace (length pre + 1 + S g)%nat with (length pre + 1 + 1 + g)%nat by lia.
    apply IH. rewrite <- app_assoc. exact El.
Qed.

Lemma skipsp_gap l g : forall pre post n, l = pre ++ repeat space g ++ post ->
  (forall c r, post = c :: r -> c <> space) -> n = (length l - length pre)%nat ->
  skipsp l n (length pre) = Ret (length pre + g)%nat.
Proof.
  induction g as [|g IH]; intros pre post n El Hp Hn.
  - cbn [repeat app] in El. destruct post as [|c r].
    + subst. rewrite app_nil_r, Nat.sub_diag. cbn [skipsp]. f_equal. lia.
    + subst. rewrite app_length. cbn [length].
      replace (length pre + S (length r) - length pre)%nat with (S (length r)) by lia.
      cbn [skipsp]. rewrite rd_at. cbn [obind]. rewrite not_space by (eapply Hp; reflexivity).
      f_equal. lia.
  - cbn [repeat app] in El.
    assert (exists n', n = S n') as [n' ->].
    { destruct n; [|eauto]. rewrite El, app_length in Hn. cbn [length] in Hn. lia. }
    cbn [skipsp]. rewrite (rd_at' l pre space (repeat space g ++ post)) by auto.
    cbn [obind]. change (is " " space) with true. cbv iota.
    replace (length pre + S g)%nat with (length (pre ++ [space]) + g)%nat
      by (rewrite app_length; cbn [length]; lia).
    replace (S (length pre)) with (length (pre ++ [space])) by (rewrite app_length; cbn [length]; lia).
    apply (IH (pre ++ [space]) post); auto.
    + rewrite <- app_assoc. exact El.
    + rewrite app_length. cbn [length]. lia.
Qed.

(** The end of a word. *)
Lemma uloop_end clock l pre w post s s' : l = pre ++ w ++ space :: post -> word w ->
  uword clock l (length pre + length w) s = Ret (Some s') ->
  uloop clock l (length l - length pre) (length pre) s =
  (do! i := skipsp l (length l - (length pre + length w + 1)) (length pre + length w + 1) in
   uloop clock l (length l - (length pre + length w + 1)) (length pre + length w + 1) (to_i i s')).
Proof.
  intros El [Hne Hw] E.
  assert (Ll : (length l = length pre + length w + 1 + length post)%nat)
    by (rewrite El, !app_length; cbn [length]; lia).
  replace (length l - length pre)%nat with (length w + S (length post))%nat by lia.
  rewrite (uloop_letters clock l w pre (space :: post)) by auto.
  cbn [uloop].
  rewrite (rd_at' l (pre ++ w) space post).
  2: { rewrite <- app_assoc. exact El. }
  2: { rewrite app_length. reflexivity. }
  cbn [obind]. change (is " " space) with true. cbv iota.
  destruct (exists_last Hne) as (w0 & x & Ew).
  rewrite (rd_at' l (pre ++ w0) x (space :: post)).
  2: { rewrite El, Ew, <- !app_assoc. reflexivity. }
  2: { rewrite app_length, Ew, app_length. cbn [length]. lia. }
  cbn [obind]. rewrite not_space.
  2: { intros ->. apply Hw. rewrite Ew. apply in_or_app. right. left. reflexivity. }
  cbn [negb]. rewrite E. cbn [obind].
  replace (length l - (length pre + length w + 1))%nat with (length post) by lia.
  replace (S (length pre + length w)) with (length pre + length w + 1)%nat by lia.
  reflexivity.
Qed.

Lemma to_i_i i j s : to_i i (to_i j s) = to_i i s.
Proof. reflexivity. Qed.

Lemma uloop_word clock l pre w g post s s' : l = pre ++ w ++ gap g ++ post -> word w ->
  (forall c r, post = c :: r -> c <> space) ->
  uword clock l (length pre + length w) s = Ret (Some s') ->
  uloop clock l (length l - length pre) (length pre) s =
  uloop clock l (length l - length (pre ++ w ++ gap g)) (length (pre ++ w ++ gap g))
    (to_i (length (pre ++ w ++ gap g)) s').
Proof.
  intros El Hw Hp E. unfold gap in *. cbn [repeat app] in El.
  rewrite (uloop_end clock l pre w (repeat space g ++ post) s s') by auto.
  assert (Ll : (length l = length pre + length w + 1 + g + length post)%nat).
  { rewrite El, !app_length. cbn [length]. rewrite app_length, repeat_length. lia. }
  assert (Lp : length (pre ++ w ++ repeat space (S g)) = (length pre + length w + 1 + g)%nat).
  { rewrite !app_length, repeat_length. lia. }
  rewrite Lp.
  assert (E1 : (length pre + length w + 1)%nat = length (pre ++ w ++ [space])).
  { rewrite !app_length. cbn [length]. lia. }
  rewrite E1.
  rewrite (skipsp_gap l g (pre ++ w ++ [space]) post); auto.
  2: { rewrite <- !app_assoc. exact El. }
  cbn [obind]. rewrite <- E1.
  replace (length l - (length pre + length w + 1))%nat with (g + length post)%nat by lia.
  replace (length pre + length w + 1)%nat with (length (pre ++ w) + 1)%nat
    by (rewrite app_length; lia).
  rewrite (uloop_spaces clock l g (pre ++ w) post).
  2: { rewrite <- !app_assoc. exact El. }
  rewrite app_length. f_equal. lia.
Qed.

(** Once the name is found, nothing changes. *)
Lemma uloop_8 clock l n : forall j s, n = (length l - j)%nat -> (1 <= j)%nat -> u_state s = 8%nat ->
  exists i, uloop clock l n j s = Ret (Some (to_i i s)).
Proof.
  induction n as [|n IH]; intros j s Hn Hj H8; cbn [uloop].
  - exists (u_i s). destruct s; reflexivity.
  - assert (Hr : forall k, (k < length l)%nat -> exists c, rd l k = Ret c).
    { intros k Hk. unfold rd. destruct (nth_error l k) eqn:E; [eauto|].
      apply nth_error_None in E. lia. }
    destruct (Hr j ltac:(lia)) as [c ->]. cbn [obind].
    destruct (Hr (j - 1)%nat ltac:(lia)) as [p ->].
    destruct (is " " c); cbn [obind].
    + destruct (negb (is " " p)); [|apply IH; auto; lia].
      unfold uword. rewrite H8. cbn [obind].
      assert (X : exists i, skipsp l (length l - (j + 1)) (j + 1) = Ret i).
      { clear - Hr. generalize (j + 1)%nat as a.
        intros a. remember (length l - a)%nat as m. revert a Heqm.
        induction m as [|m IHm]; intros a Hm; cbn [skipsp]; [eauto|].
        destruct (Hr a ltac:(lia)) as [c ->]. cbn [obind].
        destruct (is " " c); [apply IHm; lia|eauto]. }
      destruct X as [i ->]. cbn [obind].
      destruct (IH (S j) (to_i i s)) as [i' E]; auto; try lia.
      exists i'. rewrite E. reflexivity.
    + apply IH; auto; lia.
Qed.

(** ** Stages *)

Definition go (clock : Z) (l pre : bytes) (s : ust) : out (option ust) :=
  uloop clock l (length l - length pre) (length pre) s.

(** Where the loop is: in state [n], at the beginning of a word. *)
Definition here (n : nat) (pre : bytes) (f : fp) (k : cache) (s : ust) : Prop :=
  u_state s = n /\ u_i s = length pre /\ u_fp s = f /\ u_cache s = k.

Lemma spaced_app a b : spaced (a ++ b) = spaced a ++ spaced b.
Proof. unfold spaced. apply flat_map_app. Qed.

Lemma head_ok ws rest : Forall (fun p => word (fst p)) ws ->
  (forall c r, rest = c :: r -> c <> space) ->
  forall c r, spaced ws ++ rest = c :: r -> c <> space.
Proof.
  intros H Hr c r E. destruct ws as [|[w g] ws]; [eapply Hr; exact E|].
  inversion H as [|? ? [Hw1 Hw2] _]; subst. cbn [fst] in *.
  destruct w as [|x w]; [congruence|]. cbn in E. injection E as -> _.
  intros ->. apply Hw2. left. reflexivity.
Qed.

Lemma go_word clock l pre w g ws rest s s' :
  l = pre ++ spaced ((w, g) :: ws) ++ rest ->
  Forall (fun p => word (fst p)) ((w, g) :: ws) ->
  (forall c r, rest = c :: r -> c <> space) ->
  uword clock l (length pre + length w) s = Ret (Some s') ->
  go clock l pre s =
    go clock l (pre ++ spaced [(w, g)]) (to_i (length (pre ++ spaced [(w, g)])) s') /\
  l = (pre ++ spaced [(w, g)]) ++ spaced ws ++ rest.
Proof.
  intros El Hw Hr E. unfold go.
  assert (E1 : spaced [(w, g)] = w ++ gap g).
  { unfold spaced. cbn [flat_map fst snd]. apply app_nil_r. }
  assert (El' : l = (pre ++ spaced [(w, g)]) ++ spaced ws ++ rest).
  { rewrite E1, El. unfold spaced. cbn [flat_map fst snd]. rewrite <- !app_assoc. reflexivity. }
  split; [|exact El']. rewrite E1 in *.
  inversion Hw; subst x l0.
  apply uloop_word with (post := spaced ws ++ rest); auto.
  - rewrite El', <- !app_assoc. reflexivity.
  - apply head_ok; auto.
Qed.

(** The word that begins at the place reached. *)
Lemma word_at l pre w g ws rest : l = pre ++ spaced ((w, g) :: ws) ++ rest ->
  l = pre ++ w ++ (gap g ++ spaced ws ++ rest).
Proof. intros ->. unfold spaced. cbn [flat_map fst snd]. rewrite <- !app_assoc. reflexivity. Qed.

Lemma stage_owner clock l pre owner ws rest s f k :
  l = pre ++ spaced (owner ++ ws) ++ rest -> Forall (fun p => word (fst p)) (owner ++ ws) ->
  (forall c r, rest = c :: r -> c <> space) -> ownership owner -> here 2 pre f k s ->
  exists s', go clock l pre s = go clock l (pre ++ spaced owner) s' /\
    here 4 (pre ++ spaced owner) f k s' /\ l = (pre ++ spaced owner) ++ spaced ws ++ rest.
Proof.
  intros El Hw Hr Ho (H1 & H2 & H3 & H4).
  destruct Ho as [(n & g & u & h & -> & Hf)|(n & g & -> & Hf)].
  - cbn [app] in *.
    assert (E : uword clock l (length pre + length n) s = Ret (Some (to_state 3 s))).
    { unfold uword. rewrite H1, H2. cbv zeta.
      replace (length pre + length n - length pre)%nat with (length n) by lia.
      destruct (Nat.eqb_spec (length n) 6) as [L|L]; [|reflexivity].
      destruct n as [|c n]; [discriminate L|].
      rewrite (rd_at' l pre c (n ++ gap g ++ spaced ((u, h) :: ws) ++ rest)) by (first [reflexivity | rewrite (word_at _ _ _ _ _ _ El); reflexivity]).
      cbn [obind is]. destruct (Ascii.eqb_spec c "f") as [->|]; [|reflexivity].
      exfalso. apply Hf. split; [exact L|]. exists n. reflexivity. }
    destruct (go_word clock l pre n g ((u, h) :: ws) rest s _ El Hw Hr E) as [G1 El1].
    inversion Hw; subst x l0.
    set (pre1 := pre ++ spaced [(n, g)]) in *.
    set (s1 := to_i (length pre1) (to_state 3 s)) in *.
    assert (E' : uword clock l (length pre1 + length u) s1 = Ret (Some (to_state 4 s1)))
      by reflexivity.
    destruct (go_word clock l pre1 u h ws rest s1 _ El1 H6 Hr E') as [G2 El2].
    assert (Ep : pre ++ spaced [(n, g); (u, h)] = pre1 ++ spaced [(u, h)]).
    { unfold pre1. rewrite <- app_assoc, <- spaced_app. reflexivity. }
    rewrite Ep. eexists. split; [rewrite G1; exact G2|]. split; [|exact El2].
    repeat split; assumption.
  - cbn [app] in *.
    assert (E : uword clock l (length pre + length n) s = Ret (Some (to_state 4 s))).
    { destruct Hf as (L & r & ->). unfold uword. rewrite H1, H2. cbv zeta.
      replace (length pre + length (B "f" ++ r) - length pre)%nat with (length (B "f" ++ r)) by lia.
      rewrite L. cbn [Nat.eqb].
      rewrite (rd_at' l pre "f"%char (r ++ gap g ++ spaced ws ++ rest)) by (first [reflexivity | rewrite (word_at _ _ _ _ _ _ El); reflexivity]).
      reflexivity. }
    destruct (go_word clock l pre n g ws rest s _ El Hw Hr E) as [G1 El1].
    eexists. split; [exact G1|]. split; [|exact El1]. repeat split; assumption.
Qed.

(** Words that are no month do not name one. *)
Definition monthly (w : bytes) : Prop := exists m, names_month w m.

Lemma letter_upper c d : (97 <= nat_of_ascii d <= 122)%nat ->
  letter c d = Ascii.eqb (upper c) (upper d).
Proof.
  intros H. pose proof (nat_ascii_bounded c) as Hc.
  assert (F : forallb (fun a => forallb (fun b =>
     Bool.eqb (letter (ascii_of_nat a) (ascii_of_nat b))
              (Ascii.eqb (upper (ascii_of_nat a)) (upper (ascii_of_nat b))))
     (seq 97 26)) (seq 0 256) = true) by (vm_compute; reflexivity).
  rewrite forallb_forall in F.
  specialize (F (nat_of_ascii c)). rewrite forallb_forall in F.
  assert (In (nat_of_ascii c) (seq 0 256)) as I1 by (apply in_seq; lia).
  assert (In (nat_of_ascii d) (seq 97 26)) as I2 by (apply in_seq; lia).
  specialize (F I1 _ I2). rewrite !ascii_nat_embedding in F.
  apply Bool.eqb_prop in F. exact F.
Qed.

Lemma check_spec l pre a b c post m0 m1 m2 : l = pre ++ [a; b; c] ++ post ->
  Forall (fun d => (97 <= nat_of_ascii d <= 122)%nat) [m0; m1; m2] ->
  check l (length pre) [m0; m1; m2] =
  Ret (Ascii.eqb (upper a) (upper m0) && Ascii.eqb (upper b) (upper m1)
       && Ascii.eqb (upper c) (upper m2)).
Proof.
  intros El H. inversion H as [|? ? A0 HA]; subst x l0. inversion HA as [|? ? A1 HB]; subst x l0.
  inversion HB as [|? ? A2 _]; subst x l0.
  unfold check.
  rewrite (rd_at' l pre a (b :: c :: post)) by auto. cbn [obind].
  rewrite (letter_upper a m0 A0).
  destruct (Ascii.eqb (upper a) (upper m0)); [|reflexivity]. cbn [negb andb].
  rewrite (rd_at' l (pre ++ [a]) b (c :: post)).
  2: { rewrite <- app_assoc. exact El. } 2: { rewrite app_length. reflexivity. }
  cbn [obind]. rewrite (letter_upper b m1 A1).
  destruct (Ascii.eqb (upper b) (upper m1)); [|reflexivity]. cbn [negb andb].
  rewrite (rd_at' l (pre ++ [a; b]) c post).
  2: { rewrite <- app_assoc. exact El. } 2: { rewrite app_length. reflexivity. }
  cbn [obind]. rewrite (letter_upper c m2 A2). reflexivity.
Qed.

Lemma getmonth_spec l pre w post k n : l = pre ++ w ++ post -> k = length pre -> n = length w ->
  (forall m, names_month w m -> getmonth l k n = Ret m) /\
  (~ monthly w -> getmonth l k n = Ret (-1)).
Proof.
  intros El -> ->. unfold getmonth.
  destruct (Nat.eqb_spec (length w) 3) as [L|L].
  2: { split; [|auto]. intros m [Hm Hn]. exfalso. apply L.
       rewrite <- (map_length upper w).
       assert (F : forallb (fun x : list ascii => Nat.eqb (length x) 3) month_names = true) by reflexivity.
       rewrite forallb_forall in F. apply Nat.eqb_eq, F. eapply nth_error_In. exact Hn. }
  destruct w as [|a [|b [|c [|]]]]; try discriminate L.
  set (F := fun ms : list bytes => forall m, In m ms -> exists x y z, m = [x; y; z] /\
     Forall (fun d => (97 <= nat_of_ascii d <= 122)%nat) [x; y; z]).
  assert (HF : F months).
  { intros m Hm. cbn in Hm.
    repeat (destruct Hm as [<-|Hm]; [do 3 eexists; split; [reflexivity|repeat constructor; cbn; lia]|]).
    destruct Hm. }
  assert (HM : map (map upper) months = month_names) by reflexivity.
  assert (G : forall ms i, F ms ->
    (exists q, nth_error (map (map upper) ms) q = Some (map upper [a; b; c]) /\
       (forall q', (q' < q)%nat -> nth_error (map (map upper) ms) q' <> Some (map upper [a; b; c])) /\
       findmonth l (length pre) ms i = Ret (i + Z.of_nat q)) \/
    ((forall q, nth_error (map (map upper) ms) q <> Some (map upper [a; b; c])) /\
     findmonth l (length pre) ms i = Ret (-1))).
  { induction ms as [|m ms IH]; intros i HFm.
    - right. split; [intros [|q]; discriminate|reflexivity].
    - destruct (HFm m (or_introl eq_refl)) as (x & y & z & -> & Hl).
      cbn [findmonth]. rewrite (check_spec l pre a b c post x y z El Hl). cbn [obind].
      destruct (Ascii.eqb (upper a) (upper x) && Ascii.eqb (upper b) (upper y)
       && Ascii.eqb (upper c) (upper z)) eqn:Ex.
      + left. exists 0%nat. apply andb_prop in Ex. destruct Ex as [Ex Ez].
        apply andb_prop in Ex. destruct Ex as [Ex Ey].
        apply Ascii.eqb_eq in Ex, Ey, Ez. cbn [map nth_error].
        split; [congruence|]. split; [lia|]. f_equal. lia.
      + assert (N : map upper [x; y; z] <> map upper [a; b; c]).
        { cbn [map]. intros X. injection X as X1 X2 X3. rewrite X1, X2, X3, !Ascii.eqb_refl in Ex.
          discriminate. }
        cbn [map] in N.
        destruct (IH (i + 1)) as [(q & Q1 & Q2 & Q3)|(Q1 & Q2)].
        { intros m' Hm'. apply HFm. right. exact Hm'. }
        * left. exists (S q). split; [exact Q1|]. split.
          -- intros [|q'] Hq'; cbn [map nth_error]; [congruence|apply Q2; lia].
          -- rewrite Q3. f_equal. lia.
        * right. split; [|exact Q2]. intros [|q]; cbn [map nth_error]; [congruence|apply Q1]. }
  destruct (G months 0 HF) as [(q & Q1 & Q2 & Q3)|(Q1 & Q2)]; rewrite HM in *.
  - split.
    + intros m [Hm Hn]. rewrite Q3. f_equal.
      destruct (Nat.lt_trichotomy (Z.to_nat m) q) as [C|[C|C]].
      * exfalso. exact (Q2 _ C Hn).
      * lia.
      * exfalso. clear - C Q1 Hn Hm.
        assert (ND : NoDup month_names).
        {           repeat constructor; cbn; intros X;
            repeat (destruct X as [X|X]; [discriminate X|]); exact X. }
        rewrite NoDup_nth_error in ND.
        assert (q = Z.to_nat m); [|lia]. apply ND; [|congruence].
        apply nth_error_Some. congruence.
    + intros N. exfalso. apply N. exists (Z.of_nat q). split.
      * assert (q < 12)%nat; [|lia]. change 12%nat with (length month_names).
        apply nth_error_Some. congruence.
      * rewrite Nat2Z.id. exact Q1.
  - split; [|auto]. intros m [Hm Hn]. exfalso. exact (Q1 _ Hn).
Qed.

Lemma digit_upper c : digit c -> upper c = c.
Proof.
  unfold digit, upper. intros H.
  destruct (Nat.leb_spec 97 (nat_of_ascii c)); [lia|]. reflexivity.
Qed.

Lemma digits_not_monthly w : Forall digit w -> ~ monthly w.
Proof.
  intros H (m & Hm & Hn). apply nth_error_In in Hn.
  assert (F : forallb (fun x => match x with c :: _ => Nat.ltb 57 (nat_of_ascii c) | [] => false end)
    month_names = true) by reflexivity.
  rewrite forallb_forall in F. specialize (F _ Hn).
  destruct w as [|c w]; cbn [map] in F; [discriminate|]. inversion H; subst.
  rewrite digit_upper in F by auto. apply Nat.ltb_lt in F. unfold digit in *. lia.
Qed.

Lemma five clock l pre w post s z f k : l = pre ++ w ++ post -> here 5 pre f k s ->
  ~ monthly w -> gl w 0 = Ret z ->
  uword clock l (length pre + length w) s = Ret (Some (to_size z (to_month (-1) s))).
Proof.
  intros El (H1 & H2 & _) Hm Hz. unfold uword. rewrite H1, H2. cbv zeta.
  replace (length pre + length w - length pre)%nat with (length w) by lia.
  rewrite (proj2 (getmonth_spec l pre w post _ _ El eq_refl eq_refl) Hm). cbn [obind].
  change (0 <=? -1) with false. cbv iota.
  rewrite (getlong_gl l pre w post) by auto. rewrite Hz. reflexivity.
Qed.

Lemma stage_extra clock l xs : forall pre ws rest s f k,
  l = pre ++ spaced (xs ++ ws) ++ rest -> Forall (fun p => word (fst p)) (xs ++ ws) ->
  (forall c r, rest = c :: r -> c <> space) ->
  Forall (fun p => (length (fst p) <= 17)%nat /\ ~ monthly (fst p)) xs -> here 5 pre f k s ->
  exists s', go clock l pre s = go clock l (pre ++ spaced xs) s' /\
    here 5 (pre ++ spaced xs) f k s' /\ l = (pre ++ spaced xs) ++ spaced ws ++ rest.
Proof.
  induction xs as [|[x g] xs IH]; intros pre ws rest s f k El Hw Hr Hx Hs.
  - exists s. unfold spaced at 1 2 3. cbn [flat_map]. rewrite app_nil_r.
    split; [reflexivity|]. split; [exact Hs|exact El].
  - inversion Hx as [|? ? [Lx Nx] Hxs]; subst x0 l0. cbn [fst] in *.
    destruct (gl_word x Lx) as [z Hz].
    assert (E := five clock l pre x _ s z f k (word_at _ _ _ _ _ _ El) Hs Nx Hz).
    destruct (go_word clock l pre x g (xs ++ ws) rest s _ El Hw Hr E) as [G1 El1].
    inversion Hw; subst x0 l0.
    set (s1 := to_i _ _) in G1.
    assert (Hs1 : here 5 (pre ++ spaced [(x, g)]) f k s1).
    { destruct Hs as (A1 & A2 & A3 & A4). repeat split; assumption. }
    destruct (IH _ ws rest s1 f k El1 H2 Hr Hxs Hs1) as (s' & G2 & H2' & El2).
    assert (Ep : pre ++ spaced ((x, g) :: xs) = (pre ++ spaced [(x, g)]) ++ spaced xs).
    { rewrite <- app_assoc, <- spaced_app. reflexivity. }
    exists s'. rewrite Ep. split; [rewrite G1; exact G2|]. split; assumption.
Qed.

(** The size is the last word before the month. *)
Lemma stage_size clock l pre more size g ws rest s f k :
  l = pre ++ spaced (more ++ (size, g) :: ws) ++ rest ->
  Forall (fun p => word (fst p)) (more ++ (size, g) :: ws) ->
  (forall c r, rest = c :: r -> c <> space) ->
  Forall (fun p => (length (fst p) <= 17)%nat) more ->
  Forall (fun p => ~ monthly (fst p)) (tl more) -> number (10 ^ 18) size -> here 4 pre f k s ->
  exists s', let pre' := pre ++ spaced (more ++ [(size, g)]) in
    go clock l pre s = go clock l pre' s' /\
    here 5 pre' f k s' /\ u_size s' = value size /\ l = pre' ++ spaced ws ++ rest.
Proof.
  intros El Hw Hr Hm Ht Hn Hs. cbv zeta.
  pose proof (gl_number size _ Hn ltac:(lia)) as Hz.
  assert (FOUR : forall w z post, l = pre ++ w ++ post -> gl w 0 = Ret z ->
    uword clock l (length pre + length w) s = Ret (Some (to_state 5 (to_size z s)))).
  { intros w z post E1 E2. destruct Hs as (H1 & H2 & _). unfold uword. rewrite H1, H2. cbv zeta.
    replace (length pre + length w - length pre)%nat with (length w) by lia.
    rewrite (getlong_gl l pre w post) by auto. rewrite E2. reflexivity. }
  destruct more as [|[x h] more]; cbn [app tl] in *.
  - assert (E := FOUR size _ _ (word_at _ _ _ _ _ _ El) Hz).
    destruct (go_word clock l pre size g ws rest s _ El Hw Hr E) as [G1 El1].
    eexists. split; [exact G1|]. destruct Hs as (A1 & A2 & A3 & A4).
    repeat split; assumption.
  - inversion Hm as [|? ? Lx Hm']; subst x0 l0. cbn [fst] in *.
    destruct (gl_word x Lx) as [z Hz'].
    assert (E := FOUR x _ _ (word_at _ _ _ _ _ _ El) Hz').
    destruct (go_word clock l pre x h (more ++ (size, g) :: ws) rest s _ El Hw Hr E) as [G1 El1].
    inversion Hw; subst x0 l0.
    set (s0 := to_i _ _) in G1.
    assert (Hs0 : here 5 (pre ++ spaced [(x, h)]) f k s0).
    { destruct Hs as (A1 & A2 & A3 & A4). repeat split; assumption. }
    assert (Hmt : Forall (fun p => (length (fst p) <= 17)%nat /\ ~ monthly (fst p)) more).
    { clear - Hm' Ht. induction more; [constructor|]. inversion Hm'; inversion Ht; subst.
      constructor; auto. }
    destruct (stage_extra clock l more _ ((size, g) :: ws) rest s0 f k El1 H2 Hr Hmt Hs0)
      as (s1 & G2 & H2' & El2).
    assert (Hw2 : Forall (fun p => word (fst p)) ((size, g) :: ws)).
    { apply Forall_app in H2. tauto. }
    assert (E5 := five clock l _ size _ s1 _ f k (word_at _ _ _ _ _ _ El2) H2'
                   (digits_not_monthly size (proj1 (proj2 Hn))) Hz).
    destruct (go_word clock l _ size g ws rest s1 _ El2 Hw2 Hr E5) as [G3 El3].
    assert (Ep : pre ++ spaced ((x, h) :: more ++ [(size, g)]) =
      ((pre ++ spaced [(x, h)]) ++ spaced more) ++ spaced [(size, g)]).
    { rewrite <- !app_assoc. f_equal.
      change ((x, h) :: more ++ [(size, g)]) with ([(x, h)] ++ more ++ [(size, g)]).
      rewrite !spaced_app. reflexivity. }
    rewrite Ep. eexists. split; [rewrite G1, G2; exact G3|].
    destruct H2' as (A1 & A2 & A3 & A4). repeat split; try assumption.
Qed.

Lemma stage_month clock l pre mon g day h rest s f k m :
  l = pre ++ spaced [(mon, g); (day, h)] ++ rest ->
  Forall (fun p => word (fst p)) [(mon, g); (day, h)] ->
  (forall c r, rest = c :: r -> c <> space) ->
  names_month mon m -> number (10 ^ 18) day -> here 5 pre f k s ->
  exists s', let pre' := pre ++ spaced [(mon, g); (day, h)] in
    go clock l pre s = go clock l pre' s' /\
    here 7 pre' f k s' /\ u_size s' = u_size s /\ u_month s' = m /\ u_mday s' = value day /\
    l = pre' ++ rest.
Proof.
  intros El Hw Hr Hm Hd Hs. cbv zeta.
  assert (E : uword clock l (length pre + length mon) s = Ret (Some (to_state 6 (to_month m s)))).
  { destruct Hs as (H1 & H2 & _). unfold uword. rewrite H1, H2. cbv zeta.
    replace (length pre + length mon - length pre)%nat with (length mon) by lia.
    rewrite (proj1 (getmonth_spec l pre mon _ _ _ (word_at _ _ _ _ _ _ El) eq_refl eq_refl) m Hm).
    cbn [obind]. destruct Hm as [Hm _].
    replace (0 <=? m) with true by (symmetry; apply Z.leb_le; lia). reflexivity. }
  destruct (go_word clock l pre mon g [(day, h)] rest s _ El Hw Hr E) as [G1 El1].
  inversion Hw; subst x l0.
  set (pre1 := pre ++ spaced [(mon, g)]) in *.
  set (s1 := to_i (length pre1) (to_state 6 (to_month m s))) in *.
  assert (E' : uword clock l (length pre1 + length day) s1 =
               Ret (Some (to_state 7 (to_mday (value day) s1)))).
  { unfold uword. cbn [u_state s1 to_i to_state]. cbv zeta. cbn [u_i s1 to_i].
    replace (length pre1 + length day - length pre1)%nat with (length day) by lia.
    rewrite (getlong_gl l pre1 day _ _ _ (word_at _ _ _ _ _ _ El1)) by auto.
    rewrite (gl_number day (10 ^ 18)) by (auto; lia). reflexivity. }
  destruct (go_word clock l pre1 day h [] rest s1 _ El1 H2 Hr E') as [G2 El2].
  assert (Ep : pre ++ spaced [(mon, g); (day, h)] = pre1 ++ spaced [(day, h)]).
  { unfold pre1. rewrite <- app_assoc, <- spaced_app. reflexivity. }
  rewrite Ep. eexists. split; [rewrite G1; exact G2|].
  destruct Hs as (A1 & A2 & A3 & A4). repeat split; try assumption.
Qed.

(** ** The name *)

Lemma starts_arrow l : starts (B " -> ") l = true ->
  exists r, l = " "%char :: "-"%char :: ">"%char :: " "%char :: r.
Proof.
  intros H. destruct l as [|a [|b [|c [|d r]]]]; cbn [starts B list_ascii_of_string] in H;
    rewrite ?andb_false_r in H; try discriminate.
  apply andb_prop in H as [H1 H]. apply andb_prop in H as [H2 H].
  apply andb_prop in H as [H3 H]. apply andb_prop in H as [H4 _].
  apply Ascii.eqb_eq in H1, H2, H3, H4. subst. eauto.
Qed.

Lemma before_short l : (length l <= 3)%nat -> before_arrow l = l.
Proof.
  induction l as [|c r IH]; intros H; [reflexivity|]. cbn [before_arrow].
  destruct (starts (B " -> ") (c :: r)) eqn:E.
  - apply starts_arrow in E. destruct E as [t E]. rewrite E in H. cbn [length] in H. lia.
  - f_equal. apply IH. cbn [length] in H. lia.
Qed.

Lemma before_prefix l : exists t, l = before_arrow l ++ t.
Proof.
  induction l as [|c r [t IH]]; [exists []; reflexivity|]. cbn [before_arrow].
  destruct (starts (B " -> ") (c :: r)); [exists (c :: r); reflexivity|].
  exists t. cbn [app]. f_equal. exact IH.
Qed.

Lemma arrow_spec l pre n2 : forall n1 m i, l = pre ++ n1 ++ n2 -> m = length n2 -> i = length n1 ->
  arrow l (length pre) (length n1 + length n2) m i = Ret (length n1 + length (before_arrow n2))%nat.
Proof.
  induction n2 as [|c r IH]; intros n1 m i El -> ->; cbn [length arrow].
  - reflexivity.
  - destruct (Nat.ltb_spec (length n1 + 3) (length n1 + S (length r))) as [L|L].
    2: { rewrite before_short; [reflexivity|cbn [length]; lia]. }
    destruct r as [|d [|e [|f r]]]; cbn [length] in L; try lia.
    set (r' := d :: e :: f :: r) in *.
    rewrite (rd_at' l (pre ++ n1) c r').
    2: { rewrite <- app_assoc. exact El. } 2: { rewrite app_length. reflexivity. }
    cbn [obind].
    assert (X : (if negb (is " " c) then Ret false else
          do! c1 := rd l (length pre + length n1 + 1) in
          if negb (is "-" c1) then Ret false else
          do! c2 := rd l (length pre + length n1 + 2) in
          if negb (is ">" c2) then Ret false else
          do! c3 := rd l (length pre + length n1 + 3) in Ret (is " " c3))
       = Ret (starts (B " -> ") (c :: r'))).
    { unfold r'. rewrite (rd_at' l (pre ++ n1 ++ [c]) d (e :: f :: r)).
      2: { rewrite <- !app_assoc. exact El. } 2: { rewrite !app_length. cbn [length]. lia. }
      cbn [obind].
      rewrite (rd_at' l (pre ++ n1 ++ [c; d]) e (f :: r)).
      2: { rewrite <- !app_assoc. exact El. } 2: { rewrite !app_length. cbn [length]. lia. }
      cbn [obind].
      rewrite (rd_at' l (pre ++ n1 ++ [c; d; e]) f r).
      2: { rewrite <- !app_assoc. exact El. } 2: { rewrite !app_length. cbn [length]. lia. }
      cbn [obind is B list_ascii_of_string starts].
      rewrite (Ascii.eqb_sym " " c), (Ascii.eqb_sym "-" d), (Ascii.eqb_sym ">" e), (Ascii.eqb_sym " " f).
      destruct (Ascii.eqb c " "); [|reflexivity]. destruct (Ascii.eqb d "-"); [|reflexivity].
      destruct (Ascii.eqb e ">"); [|reflexivity]. destruct (Ascii.eqb f " "); reflexivity. }
    rewrite X. cbn [obind]. change (before_arrow (c :: r')) with
      (if starts (B " -> ") (c :: r') then [] else c :: before_arrow r').
    destruct (starts (B " -> ") (c :: r')).
    + cbn [length]. f_equal. lia.
    + specialize (IH (n1 ++ [c]) (length r') (S (length n1))).
      rewrite app_length in IH. cbn [length] in IH.
      replace (length n1 + S (length r'))%nat with (length n1 + 1 + length r')%nat by lia.
      change (S (S (S (length r)))) with (length r').
      rewrite IH; [|rewrite <- app_assoc; exact El|reflexivity|lia].
      cbn [length]. f_equal. lia.
Qed.

Lemma unpad_other c p n : c <> "["%char -> unpad (c :: p) n = n.
Proof.
  intros H. destruct c as [[] [] [] [] [] [] [] []]; try reflexivity. exfalso. apply H. reflexivity.
Qed.

Lemma unpad_pad p n : p = [] \/ (exists q, p = "["%char :: q) ->
  unpad p n = match n with
      | a :: b :: c :: d :: r => if starts (B "   ") n then d :: r else n
      | _ => n end.
Proof. intros [->|[q ->]]; reflexivity. Qed.

Lemma netware_spec l kind perm t0 pre n post f :
  l = kind :: perm ++ space :: t0 -> ~ In space perm ->
  l = pre ++ n ++ post -> f_name f = length pre -> f_namelen f = length n ->
  exists f', netware l f = Ret f' /\ sub l (f_name f') (f_namelen f') = unpad perm n /\
    f_cwd f' = f_cwd f /\ f_retr f' = f_retr f /\ f_size f' = f_size f /\
    f_mtype f' = f_mtype f /\ f_mtime f' = f_mtime f /\ f_id f' = f_id f.
Proof.
  intros E1 Hp El Hn Hl. unfold netware.
  assert (Same : sub l (f_name f) (f_namelen f) = n).
  { apply (sub_at l pre n post); auto. }
  assert (R1 : exists c, rd l 1 = Ret c /\
     ((is " " c || is "[" c = true /\ (perm = [] \/ exists q, perm = "["%char :: q)) \/
      (is " " c || is "[" c = false /\ exists c' q, perm = c' :: q /\ c' <> "["%char))).
  { destruct perm as [|c q].
    - exists space. split; [rewrite E1; reflexivity|]. left. split; [reflexivity|auto].
    - exists c. split; [rewrite E1; reflexivity|].
      assert (is " " c = false) as Hc by (apply not_space; intros ->; apply Hp; left; reflexivity).
      rewrite Hc. cbn [orb is].
      destruct (Ascii.eqb_spec c "[") as [->|N]; [left; split; [reflexivity|eauto]|].
      right. split; [reflexivity|eauto]. }
  destruct R1 as (c1 & -> & [[Y P]|[Y (c' & q & -> & P)]]); cbn [obind]; rewrite Y; cbn [negb].
  2: { exists f. split; [reflexivity|]. split; [|tauto]. rewrite unpad_other by auto. exact Same. }
  rewrite (unpad_pad perm n P).
  destruct (Nat.ltb_spec 3 (f_namelen f)) as [L|L]; cbn [negb].
  2: { exists f. split; [reflexivity|]. split; [|tauto]. rewrite Same.
       rewrite Hl in L. destruct n as [|? [|? [|? [|]]]]; cbn [length] in L; try reflexivity; lia. }
  destruct n as [|a [|b [|c [|d r]]]]; cbn [length] in Hl; try lia.
  rewrite Hn.
  rewrite (rd_at' l pre a (b :: c :: d :: r ++ post)) by auto. cbn [obind].
  assert (ST : starts (B "   ") (a :: b :: c :: d :: r) =
               Ascii.eqb a " " && (Ascii.eqb b " " && (Ascii.eqb c " " && true))).
  { cbn [B list_ascii_of_string starts].
    rewrite (Ascii.eqb_sym a), (Ascii.eqb_sym b), (Ascii.eqb_sym c). reflexivity. }
  rewrite ST. cbn [is].
  destruct (Ascii.eqb a " "); cbn [negb andb]; [|exists f; split; [reflexivity|split; [exact Same|tauto]]].
  rewrite (rd_at' l (pre ++ [a]) b (c :: d :: r ++ post)).
  2: { rewrite <- app_assoc. exact El. } 2: { rewrite app_length. reflexivity. }
  cbn [obind].
  destruct (Ascii.eqb b " "); cbn [negb andb]; [|exists f; split; [reflexivity|split; [exact Same|tauto]]].
  rewrite (rd_at' l (pre ++ [a; b]) c (d :: r ++ post)).
  2: { rewrite <- app_assoc. exact El. } 2: { rewrite app_length. reflexivity. }
  cbn [obind].
  destruct (Ascii.eqb c " "); cbn [negb andb]; [|exists f; split; [reflexivity|split; [exact Same|tauto]]].
  eexists. split; [reflexivity|]. split; [|cbn; tauto].
  cbn [set_name f_name f_namelen].
  apply (sub_at l (pre ++ [a; b; c]) (d :: r) post).
  - rewrite <- app_assoc. exact El.
  - rewrite app_length. reflexivity.
  - cbn [length]. lia.
Qed.

(** ** The whole line *)

Definition u_entry (kind : byte) (perm name : bytes) (size : Z) (sr : sort) (t : Z) : entry :=
  Entry (unix_name kind perm name) (Ascii.eqb kind "d" || Ascii.eqb kind "l")
        (Ascii.eqb kind "-" || Ascii.eqb kind "l") (Some size) sr t None.

Lemma kinds kind : In kind (B "bcdlps-") ->
  is "+" kind = false /\
  is "b" kind || is "c" kind || is "d" kind || is "l" kind || is "p" kind
       || is "s" kind || is "-" kind = true.
Proof.
  cbn. intros H. repeat (destruct H as [<-|H]; [split; reflexivity|]). destruct H.
Qed.

Lemma unix_trip clock k kind perm g0 owner more size gs mon gm day gd when_ name m mt t k' :
  let ws := (kind :: perm, g0) :: owner ++ more ++ [(size, gs); (mon, gm); (day, gd)] in
  let l := unix_line ws when_ name in
  In kind (B "bcdlps-") -> Forall (fun p => word (fst p)) ws -> ownership owner ->
  Forall (fun p => (length (fst p) <= 17)%nat) more ->
  Forall (fun p => ~ monthly (fst p)) (tl more) -> number (10 ^ 18) size ->
  names_month mon m -> number (10 ^ 18) day -> word when_ ->
  (forall s, here 7 (spaced ws) (u_fp s) k s -> u_month s = m -> u_mday s = value day ->
     uword clock l (length (spaced ws) + length when_) s =
     Ret (Some (to_state 8 (to_cache k' (to_fp
       (set_name (length (spaced ws) + length when_ + 1)
          (length l - (length (spaced ws) + length when_) - 1) (set_time mt t (u_fp s))) s))))) ->
  exists f, ftpparse clock k l = Ret (Some f, k') /\
    view l f = u_entry kind perm name (value size) (sort_of mt) t.
Proof.
  intros ws l Hk Hw Ho Hm Ht Hsz Hmon Hday Hwh Hwhen.
  destruct (kinds kind Hk) as [K1 K2].
  set (rest := when_ ++ [space] ++ name).
  assert (Hr : forall c r, rest = c :: r -> c <> space).
  { intros c r E. unfold rest in E. destruct Hwh as [W1 W2]. destruct when_ as [|x w]; [congruence|].
    cbn in E. injection E as -> _. intros ->. apply W2. left. reflexivity. }
  assert (El : l = [] ++ spaced ws ++ rest) by reflexivity.
  set (ws1 := owner ++ more ++ [(size, gs); (mon, gm); (day, gd)]) in *.
  set (f0 := if is "l" kind then set_retr (set_cwd (if is "-" kind then set_retr (if is "d" kind then set_cwd fp0 else fp0) else (if is "d" kind then set_cwd fp0 else fp0)))
             else (if is "-" kind then set_retr (if is "d" kind then set_cwd fp0 else fp0) else (if is "d" kind then set_cwd fp0 else fp0))).
  set (s0 := U 0 1 0 0 0 f0 k).
  assert (W0 : word (kind :: perm)) by (inversion Hw; assumption).
  destruct (go_word clock l [] (kind :: perm) g0 ws1 rest s0 (to_state 2 s0) El Hw Hr eq_refl)
    as [G1 El1]. cbn [app] in G1, El1.
  set (pre1 := spaced [(kind :: perm, g0)]) in *. set (s1 := to_i _ _) in G1.
  assert (H1 : here 2 pre1 f0 k s1) by (repeat split).
  assert (Hw1 : Forall (fun p => word (fst p)) ws1) by (inversion Hw; assumption).
  destruct (stage_owner clock l pre1 owner _ rest s1 f0 k El1 Hw1 Hr Ho H1) as (s2 & G2 & H2 & El2).
  set (pre2 := pre1 ++ spaced owner) in *.
  assert (Hw2 : Forall (fun p => word (fst p)) (more ++ [(size, gs); (mon, gm); (day, gd)])).
  { unfold ws1 in Hw1. apply Forall_app in Hw1. tauto. }
  destruct (stage_size clock l pre2 more size gs [(mon, gm); (day, gd)] rest s2 f0 k El2 Hw2 Hr Hm Ht Hsz H2)
    as (s3 & G3 & H3 & Z3 & El3).
  set (pre3 := pre2 ++ spaced (more ++ [(size, gs)])) in *.
  assert (Hw3 : Forall (fun p => word (fst p)) [(mon, gm); (day, gd)]).
  { apply Forall_app in Hw2. destruct Hw2 as [_ Hw2]. inversion Hw2; assumption. }
  destruct (stage_month clock l pre3 mon gm day gd rest s3 f0 k m El3 Hw3 Hr Hmon Hday H3)
    as (s4 & G4 & H4 & Z4 & M4 & D4 & El4).
  set (pre4 := pre3 ++ spaced [(mon, gm); (day, gd)]) in *.
  assert (Ep4 : pre4 = spaced ws).
  { unfold pre4, pre3, pre2, pre1, ws, ws1. rewrite <- !spaced_app. f_equal.
    rewrite <- !app_assoc. reflexivity. }
  rewrite Ep4 in *.
  assert (Hs4 : u_fp s4 = f0) by (destruct H4 as (_ & _ & ? & _); assumption).
  assert (H4' : here 7 (spaced ws) (u_fp s4) k s4) by (rewrite Hs4; exact H4).
  pose proof (Hwhen s4 H4' M4 D4) as E5.
  set (j := (length (spaced ws) + length when_)%nat) in *.
  set (s5 := to_state 8 _) in E5.
  assert (G5 : exists i, go clock l (spaced ws) s4 = Ret (Some (to_i i s5))).
  { unfold go. rewrite (uloop_end clock l (spaced ws) when_ name s4 s5 El4 Hwh E5). fold j.
    pose proof (safe_skipsp l (length l - (j + 1)) (j + 1) eq_refl) as SS.
    assert (X : exists i, skipsp l (length l - (j + 1)) (j + 1) = Ret i).
    { clear. generalize (j + 1)%nat as a.
      intros a. remember (length l - a)%nat as q. revert a Heqq.
      induction q as [|q IHm]; intros a Hm; cbn [skipsp]; [eauto|].
      unfold rd. destruct (nth_error l a) eqn:E; [|apply nth_error_None in E; lia].
      cbn [obind]. destruct (is " " a0); [apply IHm; lia|eauto]. }
    destruct X as [i ->]. cbn [obind].
    destruct (uloop_8 clock l (length l - (j + 1)) (j + 1) (to_i i s5)) as [i' ->]; auto; [lia|].
    exists i'. reflexivity. }
  destruct G5 as [i5 G5].
  assert (GO : uloop clock l (length l - 1) 1 s0 = Ret (Some (to_i i5 s5))).
  { rewrite <- G5, <- G4, <- G3, <- G2, <- G1. unfold go. cbn [length].
    rewrite Nat.sub_0_r.
    assert (exists n, length l = S n) as [n En].
    { rewrite El1. unfold pre1, spaced. cbn [flat_map fst snd app length]. eauto. }
    rewrite En. cbn [uloop].
    replace (rd l 0) with (Ret kind).
    2: { rewrite El1. reflexivity. }
    cbn [obind]. rewrite not_space.
    2: { intros ->. destruct W0 as [_ W0]. apply W0. left. reflexivity. }
    cbn [obind]. replace (S n - 1)%nat with n by lia. reflexivity. }
  assert (Llen : (2 <= length l)%nat).
  { rewrite El1. unfold pre1, spaced. cbn [flat_map fst snd app length].
    rewrite !app_length. unfold gap. cbn [repeat length]. lia. }
  unfold ftpparse. destruct (Nat.ltb_spec (length l) 2); [lia|].
  replace (rd l 0) with (Ret kind) by (rewrite El1; reflexivity).
  cbn [obind]. rewrite K1, K2. unfold unix. cbv zeta. fold f0. fold s0.
  rewrite GO. cbn [obind].
  change (u_state (to_i i5 s5)) with 8%nat. cbn [Nat.eqb negb].
  change (u_size (to_i i5 s5)) with (u_size s4).
  change (u_fp (to_i i5 s5)) with (set_name (j + 1) (length l - j - 1) (set_time mt t (u_fp s4))).
  change (u_cache (to_i i5 s5)) with k'. rewrite Hs4.
  cbn [f_name f_namelen set_size set_name].
  assert (Ej : (j + 1)%nat = length (spaced ws ++ when_ ++ [space])).
  { rewrite !app_length. cbn [length]. unfold j. lia. }
  assert (Eln : l = (spaced ws ++ when_ ++ [space]) ++ name).
  { rewrite El4. unfold rest. rewrite <- !app_assoc. reflexivity. }
  assert (Enl : (length l - j - 1)%nat = length name).
  { rewrite Eln, app_length, <- Ej. lia. }
  rewrite Enl, Ej.
  set (cut := if Ascii.eqb kind "l" then before_arrow name else name).
  assert (A : (if is "l" kind
      then arrow l (length (spaced ws ++ when_ ++ [space])) (length name) (length name) 0
      else Ret (length name)) = Ret (length cut)).
  { unfold cut. cbn [is]. destruct (Ascii.eqb kind "l"); [|reflexivity].
    apply (arrow_spec l (spaced ws ++ when_ ++ [space]) name []); auto. }
  rewrite A. cbn [obind].
  assert (Ecut : exists tl', name = cut ++ tl').
  { unfold cut. destruct (Ascii.eqb kind "l"); [apply before_prefix|exists []; symmetry; apply app_nil_r]. }
  destruct Ecut as [tl' Ecut].
  set (f5 := set_name _ (length cut) _).
  destruct (netware_spec l kind perm (repeat space g0 ++ spaced ws1 ++ rest)
    (spaced ws ++ when_ ++ [space]) cut tl' f5) as (f6 & E6 & N6 & Q1 & Q2 & Q3 & Q4 & Q5 & Q6); auto.
  { rewrite El1. unfold pre1, spaced, gap. cbn [flat_map fst snd repeat app].
    rewrite app_nil_r, <- !app_assoc. reflexivity. }
  { destruct W0 as [_ W0]. intros X. apply W0. right. exact X. }
  { rewrite <- Ecut. exact Eln. }
  rewrite E6. cbn [obind]. exists f6. split; [reflexivity|].
  unfold view. rewrite N6, Q1, Q2, Q3, Q4, Q5, Q6. unfold u_entry, unix_name. fold cut.
  unfold f5. cbn [set_name set_size set_time f_cwd f_retr f_size f_mtype f_mtime f_id].
  rewrite Z4, Z3.
  assert (F1 : f_cwd f0 = Ascii.eqb kind "d" || Ascii.eqb kind "l").
  { unfold f0. cbn [is]. destruct (Ascii.eqb kind "l"), (Ascii.eqb kind "-"), (Ascii.eqb kind "d"); reflexivity. }
  assert (F2 : f_retr f0 = Ascii.eqb kind "-" || Ascii.eqb kind "l").
  { unfold f0. cbn [is]. destruct (Ascii.eqb kind "l"), (Ascii.eqb kind "-"), (Ascii.eqb kind "d"); reflexivity. }
  assert (F3 : f_id f0 = None).
  { unfold f0. cbn [is]. destruct (Ascii.eqb kind "l"), (Ascii.eqb kind "-"), (Ascii.eqb kind "d"); reflexivity. }
  rewrite F1, F2, F3. reflexivity.
Qed.

(** ** The date *)

Lemma colon_digit c : digit c -> is ":" c = false.
Proof.
  intros H. cbn [is]. destruct (Ascii.eqb_spec c ":") as [->|]; [|reflexivity].
  unfold digit in H. cbn in H. lia.
Qed.

Lemma number_word b w : number b w -> word w.
Proof.
  intros (H1 & H2 & _). split; [exact H1|]. intros X.
  rewrite Forall_forall in H2. apply H2 in X. unfold digit in X. cbn in X. lia.
Qed.

Lemma unixtime_range y m d : date y m d -> y <= 10 ^ 10 -> - 10 ^ 12 <= unixtime y m d <= 10 ^ 18.
Proof.
  intros Hd Hy. pose proof (in_year y m d Hd) as I. destruct Hd as (H1 & _).
  assert (0 <= daynum y 0 1).
  { rewrite daynum_march by lia. change (2 <=? 0) with false. cbv iota. unfold march.
    clear - H1 Hy. Z.to_euclidean_division_equations; lia. }
  assert (daynum (y + 1) 0 1 <= 366 * (y + 2)).
  { rewrite daynum_march by lia. change (2 <=? 0) with false. cbv iota. unfold march.
    clear - H1 Hy. Z.to_euclidean_division_equations; lia. }
  unfold unixtime. rewrite daynum_1970. lia.
Qed.

Lemma when_year clock k l pre w name s m d :
  l = pre ++ w ++ space :: name -> number (10 ^ 10) w -> (4 <= length w)%nat ->
  here 7 pre (u_fp s) k s -> u_month s = m -> u_mday s = d -> date (value w) m d ->
  uword clock l (length pre + length w) s =
     Ret (Some (to_state 8 (to_cache k (to_fp
       (set_name (length pre + length w + 1)
          (length l - (length pre + length w) - 1) (set_time MDay (unixtime (value w) m d) (u_fp s))) s)))).
Proof.
  intros El Hn Hl (H1 & H2 & _ & H4) Hm Hd Hdate.
  unfold uword. rewrite H1. unfold uwhen. rewrite H2. cbv zeta.
  replace (length pre + length w - length pre)%nat with (length w) by lia.
  pose proof (proj1 (proj2 Hn)) as Hdig.
  destruct w as [|a [|b [|c [|e w]]]]; cbn [length] in Hl; try lia.
  inversion Hdig as [|? ? Da Hd1]; subst x l0. inversion Hd1 as [|? ? Db Hd2]; subst x l0.
  inversion Hd2 as [|? ? Dc _]; subst x l0.
  rewrite (rd_at' l (pre ++ [a]) b (c :: e :: w ++ space :: name)).
  2: { rewrite <- app_assoc. exact El. } 2: { rewrite app_length. reflexivity. }
  rewrite (rd_at' l (pre ++ [a; b]) c (e :: w ++ space :: name)).
  2: { rewrite <- app_assoc. exact El. } 2: { rewrite app_length. reflexivity. }
  cbn [obind]. rewrite !colon_digit by auto.
  set (W := a :: b :: c :: e :: w) in *.
  replace (if Nat.eqb (length W) 4 then Ret false else Ret false) with (Ret false)
    by (destruct (Nat.eqb (length W) 4); reflexivity).
  replace (if Nat.eqb (length W) 5 then Ret false else Ret false) with (Ret false)
    by (destruct (Nat.eqb (length W) 5); reflexivity).
  cbn [obind].
  replace (Nat.leb 4 (length W)) with true by (symmetry; apply Nat.leb_le; exact Hl).
  rewrite (getlong_gl l pre W (space :: name)) by auto.
  rewrite (gl_number W (10 ^ 10)) by (auto; lia). cbn [obind].
  rewrite base_0. cbn [obind]. rewrite Hm, Hd.
  assert (value W <= 10 ^ 10) by (destruct Hn as (_ & _ & ?); lia).
  rewrite totai_unixtime by auto. cbn [obind].
  pose proof (unixtime_range _ _ _ Hdate ltac:(assumption)).
  rewrite Z.add_0_l, lng_ok by lia. cbn [obind]. rewrite H4. reflexivity.
Qed.

Lemma moment_ok day h m : - 10 ^ 18 <= day <= 10 ^ 18 -> 0 <= h <= 10 ^ 6 -> 0 <= m <= 10 ^ 6 ->
  moment 0 day h m = Ret (day + (3600 * h + 60 * m)).
Proof.
  intros H1 H2 H3. unfold moment. rewrite Z.add_0_l. do 4 (rewrite lng_ok by lia; cbn [obind]).
  rewrite lng_ok by lia. f_equal. lia.
Qed.

Lemma value_small w n : Forall digit w -> (length w <= n)%nat -> value w < 10 ^ Z.of_nat n.
Proof.
  intros H Hl.
  assert (X : forall u, 0 <= u -> fold_left acc w u < (u + 1) * 10 ^ Z.of_nat (length w)).
  { clear Hl. induction w as [|c r IH]; intros u Hu; cbn [fold_left length]; [lia|].
    inversion H; subst. destruct (digit_sch c H2).
    assert (0 <= acc u c) by (unfold acc; lia).
    specialize (IH H3 _ H4).
    rewrite Nat2Z.inj_succ, Z.pow_succ_r by lia.
    assert (acc u c + 1 <= 10 * (u + 1)) by (unfold acc; lia).
    assert (0 < 10 ^ Z.of_nat (length r)) by (apply Z.pow_pos_nonneg; lia). nia. }
  specialize (X 0 ltac:(lia)). rewrite value_fold.
  assert (10 ^ Z.of_nat (length w) <= 10 ^ Z.of_nat n) by (apply Z.pow_le_mono_r; lia). lia.
Qed.

Lemma when_clock clock k k' l pre w name s m d sec t :
  l = pre ++ w ++ space :: name -> clock_time w sec ->
  here 7 pre (u_fp s) k s -> u_month s = m -> u_mday s = d ->
  guesstai clock k m d = Ret (t, k') -> - 10 ^ 18 <= t <= 10 ^ 18 ->
  uword clock l (length pre + length w) s =
     Ret (Some (to_state 8 (to_cache k' (to_fp
       (set_name (length pre + length w + 1)
          (length l - (length pre + length w) - 1) (set_time MMinute (t + sec) (u_fp s))) s)))).
Proof.
  intros El (h & mi & Ew & Hh & Hmi & Dh & Dm & ->) (H1 & H2 & _ & H4) Hm Hd Hg Ht.
  unfold uword. rewrite H1. unfold uwhen. rewrite H2. cbv zeta.
  replace (length pre + length w - length pre)%nat with (length w) by lia.
  assert (Lw : length w = (length h + 3)%nat).
  { rewrite Ew, !app_length, Hmi. cbn [length B list_ascii_of_string]. lia. }
  assert (Vh : 0 <= value h < 100).
  { split; [apply value_pos; auto|]. change 100 with (10 ^ Z.of_nat 2). apply value_small; auto; lia. }
  assert (Vm : 0 <= value mi < 100).
  { split; [apply value_pos; auto|]. change 100 with (10 ^ Z.of_nat 2). apply value_small; auto; lia. }
  assert (Gh : getlong l (length pre) (length h) = Ret (value h)).
  { rewrite (getlong_gl l pre h (B ":" ++ mi ++ space :: name)); auto.
    - rewrite value_fold in *. apply gl_digits; auto; lia.
    - rewrite El, Ew, <- !app_assoc. reflexivity. }
  assert (Gm : getlong l (length pre + length h + 1) 2 = Ret (value mi)).
  { rewrite (getlong_gl l (pre ++ h ++ B ":") mi (space :: name)); auto.
    - rewrite value_fold in *. apply gl_digits; auto; lia.
    - rewrite El, Ew, <- !app_assoc. reflexivity.
    - rewrite !app_length. cbn [length B list_ascii_of_string]. lia. }
  assert (Rc : rd l (length pre + length h) = Ret ":"%char).
  { apply (rd_at' l (pre ++ h) ":"%char (mi ++ space :: name)).
    - rewrite El, Ew, <- !app_assoc. reflexivity.
    - rewrite app_length. reflexivity. }
  destruct Hh as [Hh|Hh]; rewrite Lw, Hh in *; cbn [Nat.add Nat.eqb].
  - rewrite Rc. cbn [obind]. change (is ":" ":") with true. cbv iota.
    rewrite Gh. cbn [obind].
    replace (length pre + 2)%nat with (length pre + 1 + 1)%nat by lia. rewrite Gm. cbn [obind].
    rewrite base_0. cbn [obind]. rewrite H4, Hm, Hd, Hg. cbn [obind].
    rewrite moment_ok by lia. reflexivity.
  - cbn [obind]. rewrite Rc. cbn [obind]. change (is ":" ":") with true. cbv iota.
    rewrite Gh. cbn [obind].
    replace (length pre + 3)%nat with (length pre + 2 + 1)%nat by lia. rewrite Gm. cbn [obind].
    rewrite base_0. cbn [obind]. rewrite H4, Hm, Hd, Hg. cbn [obind].
    rewrite moment_ok by lia. reflexivity.
Qed.

Lemma clock_word w sec : clock_time w sec -> word w.
Proof.
  intros (h & mi & -> & Hh & _ & Dh & Dm & _). split.
  - destruct h; [cbn in Hh; lia|discriminate].
  - intros X. apply in_app_or in X. destruct X as [X|X].
    + rewrite Forall_forall in Dh. apply Dh in X. unfold digit in X. cbn in X. lia.
    + destruct X as [X|X]; [discriminate X|].
      rewrite Forall_forall in Dm. apply Dm in X. unfold digit in X. cbn in X. lia.
Qed.
