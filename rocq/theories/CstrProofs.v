From Coq Require Import ZifyBool ZifyNat ZifyN.
From Verif Require Import Base BaseFacts Ctype CstrModel CstrSpec.

Lemma escape_char_spec c : cstr_escape_char c = Some (c_esc c).
Proof.
  assert (H : forallb (fun c => match cstr_escape_char c with
      | Some e => if list_eq_dec ascii_dec e (c_esc c) then true else false | None => false end) all_bytes = true)
    by (vm_compute; reflexivity).
  pose proof (byte_sweep _ H c) as Hc. cbn beta in Hc.
  destruct (cstr_escape_char c) as [e|]; [|discriminate].
  destruct (list_eq_dec ascii_dec e (c_esc c)); [subst; reflexivity|discriminate].
Qed.

Lemma c_esc_len c : 1 <= length (c_esc c) <= 4.
Proof.
  assert (H : forallb (fun c => (1 <=? length (c_esc c)) && (length (c_esc c) <=? 4)) all_bytes = true)
    by (vm_compute; reflexivity).
  pose proof (byte_sweep _ H c) as Hc. cbn beta in Hc. lia.
Qed.

Lemma c_esc_printable c x : In x (c_esc c) -> 32 <= nat_of_ascii x <= 126.
Proof.
  assert (H : forallb (fun c => forallb (fun x => (32 <=? nat_of_ascii x) && (nat_of_ascii x <=? 126)) (c_esc c)) all_bytes = true)
    by (vm_compute; reflexivity).
  pose proof (byte_sweep _ H c) as Hc. cbn beta in Hc. rewrite forallb_forall in Hc.
  intros Hx. specialize (Hc x Hx). lia.
Qed.

Lemma c_esc_hd c : hd nul (c_esc c) <> quote.
Proof.
  assert (H : forallb (fun c => negb (Ascii.eqb (hd nul (c_esc c)) quote)) all_bytes = true)
    by (vm_compute; reflexivity).
  pose proof (byte_sweep _ H c) as Hc. cbn beta in Hc.
  apply negb_true_iff, Ascii.eqb_neq in Hc. exact Hc.
Qed.

Lemma extra_esc_spec ex c :
  (match extra_esc ex c with Some e => Some e | None => cstr_escape_char c end) = Some (esc_with ex c).
Proof.
  unfold esc_with. induction ex as [|[ch e] ex IH]; cbn [extra_esc find fst].
  - apply escape_char_spec.
  - rewrite (Ascii.eqb_sym ch c). destruct (Ascii.eqb c ch); [reflexivity|exact IH].
Qed.

Lemma esc_with_cases ex c :
  (exists e, In (c, e) ex /\ esc_with ex c = e) \/
  (find (fun p => Ascii.eqb (fst p) c) ex = None /\ esc_with ex c = c_esc c).
Proof.
  unfold esc_with. destruct (find _ ex) as [[c' e]|] eqn:E; [left|right; auto].
  apply find_some in E. destruct E as [Hin Heq]. cbn in Heq. apply Ascii.eqb_eq in Heq. subst c'.
  eauto.
Qed.

Section Usable.
Variable ex : extras.
Hypothesis U : usable ex.

Lemma esc_with_len c : 1 <= length (esc_with ex c) <= 4.
Proof.
  destruct (esc_with_cases ex c) as [(e & Hin & ->)|[_ ->]].
  - eapply us_len; eassumption.
  - apply c_esc_len.
Qed.
Lemma esc_with_nul c : ~ In nul (esc_with ex c).
Proof.
  destruct (esc_with_cases ex c) as [(e & Hin & ->)|[_ ->]].
  - eapply us_nul; eassumption.
  - intros H. apply c_esc_printable in H. cbn in H. lia.
Qed.
Lemma esc_with_hd c : hd nul (esc_with ex c) <> quote.
Proof.
  destruct (esc_with_cases ex c) as [(e & Hin & ->)|[_ ->]].
  - eapply us_quote; eassumption.
  - apply c_esc_hd.
Qed.

Lemma flat_len d : length d <= length (flat_map (esc_with ex) d) <= 4 * length d.
Proof.
  induction d as [|c d IH]; cbn [flat_map length]; [lia|].
  rewrite app_length. pose proof (esc_with_len c). lia.
Qed.

Lemma escape_loop_spec d : forall m i,
  i + length (flat_map (esc_with ex) d) <= length m ->
  escape_loop ex d m i =
  Some (firstn i m ++ flat_map (esc_with ex) d ++ skipn (i + length (flat_map (esc_with ex) d)) m,
        i + length (flat_map (esc_with ex) d)).
Proof.
  induction d as [|c d IH]; intros m i H; cbn [escape_loop flat_map app length] in *.
  - rewrite Nat.add_0_r, firstn_skipn. reflexivity.
  - rewrite extra_esc_spec. rewrite app_length in H.
    rewrite store_seq_some by lia.
    rewrite IH.
    2:{ rewrite !app_length, skipn_length, firstn_length. lia. }
    rewrite !app_length.
    f_equal. f_equal; [|lia].
    rewrite (app_assoc (firstn i m)). rewrite firstn_app_len.
    2:{ rewrite app_length, firstn_length. lia. }
    rewrite <- !app_assoc. do 3 f_equal.
    rewrite app_assoc.
    rewrite (skipn_app_len _ _ _ (length (flat_map (esc_with ex) d))).
    2:{ rewrite app_length, firstn_length. lia. }
    rewrite skipn_skipn_add. f_equal. lia.
Qed.

Lemma flat_nul d : nul_free (flat_map (esc_with ex) d).
Proof.
  unfold nul_free. rewrite in_flat_map. intros (c & _ & H). revert H. apply esc_with_nul.
Qed.

Theorem escape_spec d : cstr_escape (Some d) ex = Ok (Some (literal ex d)).
Proof.
  unfold cstr_escape, setsize, calloc.
  pose proof (flat_len d) as HL.
  set (F := flat_map (esc_with ex) d) in *.
  replace (S (4 * length d + 3)) with (1 + (length F + (2 + (4 * length d - length F + 1)))) by lia.
  cbn [repeat Nat.add store of_opt bind].
  rewrite escape_loop_spec.
  2:{ fold F. cbn [length]. rewrite repeat_length. lia. }
  fold F. cbn [of_opt bind firstn app].
  change (1 + length F) with (S (length F)). cbn [skipn store].
  replace (skipn (length F) (repeat nul (length F + S (S (4 * length d - length F + 1)))))
    with (repeat nul (S (S (4 * length d - length F + 1)))).
  2:{ rewrite repeat_app. rewrite (skipn_app_len _ _ _ 0) by (rewrite repeat_length; lia). reflexivity. }
  cbn [repeat].
  rewrite store_some by (rewrite app_length; cbn [length]; lia).
  cbn [of_opt bind].
  rewrite firstn_app_len by reflexivity.
  rewrite (skipn_app_len _ _ _ 1) by lia. cbn [skipn store].
  replace (F ++ """"%char :: nul :: repeat nul (4 * length d - length F + 1))
    with ((F ++ [quote]) ++ nul :: repeat nul (4 * length d - length F + 1)) by (rewrite <- app_assoc; reflexivity).
  rewrite store_some by (rewrite !app_length; cbn [length]; lia).
  cbn [of_opt bind].
  rewrite firstn_app_len by (rewrite app_length; cbn; lia).
  rewrite (skipn_app_len _ _ _ 1) by (rewrite app_length; cbn; lia).
  cbn [skipn]. do 2 f_equal. unfold literal. fold F.
  change (quote :: F ++ [quote]) with ((quote :: F ++ [quote])).
  change ("""" :: (F ++ [quote]) ++ nul :: repeat nul (4 * length d - length F + 1))%char
    with ((quote :: F ++ [quote]) ++ nul :: repeat nul (4 * length d - length F + 1)).
  apply cstr_app_nul. unfold nul_free. cbn [In]. rewrite in_app_iff. cbn [In].
  intros [H|[H|[H|[]]]]; try discriminate. revert H. apply flat_nul.
Qed.

(** ** Decoding one byte *)
Lemma starts_with_spec e : forall q q', starts_with e q = Some q' <-> q = e ++ q'.
Proof.
  induction e as [|x e IH]; intros q q'; cbn [starts_with app].
  - split; congruence.
  - destruct q as [|y q]; [split; discriminate|].
    destruct (Ascii.eqb_spec x y).
    + subst. rewrite IH. split; congruence.
    + split; [discriminate|]. intros H; inversion H; congruence.
Qed.

Lemma comparable_prefix (a b t u : bytes) : a ++ t = b ++ u -> prefix a b \/ prefix b a.
Proof.
  revert b. induction a as [|x a IH]; intros b H.
  - left. exists b. reflexivity.
  - destruct b as [|y b]; [right; exists (x :: a); reflexivity|].
    inversion H; subst. destruct (IH _ H2) as [[r ->]|[r ->]]; [left|right]; eexists; reflexivity.
Qed.

Lemma hit_same ch e c t q' : In (ch, e) ex ->
  starts_with e (esc_with ex c ++ t) = Some q' -> ch = c.
Proof.
  intros Hin E. apply starts_with_spec in E. apply (us_prefix ex U ch e c Hin).
  destruct (comparable_prefix _ _ _ _ E); auto.
Qed.

Lemma extra_unesc_hit c c' e t l : (forall p, In p l -> In p ex) ->
  find (fun p => Ascii.eqb (fst p) c) l = Some (c', e) -> esc_with ex c = e ->
  extra_unesc l (esc_with ex c ++ t) = Some (c, t).
Proof.
  intros Hsub Hf He. induction l as [|[ch e0] l IH]; [discriminate|].
  cbn [extra_unesc find fst] in *.
  destruct (Ascii.eqb_spec ch c) as [->|Hne].
  - inversion Hf; subst.
    replace (starts_with _ _) with (Some t) by (symmetry; apply starts_with_spec; reflexivity).
    reflexivity.
  - destruct (starts_with e0 (esc_with ex c ++ t)) as [q'|] eqn:E.
    + exfalso. apply Hne. eapply hit_same; [apply Hsub; left; reflexivity|exact E].
    + apply IH; [intros; apply Hsub; right; assumption|assumption].
Qed.

Lemma extra_unesc_miss c t l : (forall p, In p l -> In p ex) ->
  find (fun p => Ascii.eqb (fst p) c) l = None ->
  extra_unesc l (esc_with ex c ++ t) = None.
Proof.
  intros Hsub Hf. induction l as [|[ch e0] l IH]; [reflexivity|].
  cbn [extra_unesc find fst] in *.
  destruct (Ascii.eqb_spec ch c) as [->|Hne]; [discriminate|].
  destruct (starts_with e0 (esc_with ex c ++ t)) as [q'|] eqn:E.
  - exfalso. apply Hne. eapply hit_same; [apply Hsub; left; reflexivity|exact E].
  - apply IH; [intros; apply Hsub; right; assumption|assumption].
Qed.

Lemma unescape_char_spec c t : cstr_unescape_char (c_esc c ++ t) = Some (c, t).
Proof.
  pose proof (all_bytes_complete c) as H. vm_compute in H.
  repeat (destruct H as [<-|H]; [reflexivity|]). destruct H.
Qed.

Lemma decode_one c t :
  (match extra_unesc ex (esc_with ex c ++ t) with Some x => Some x | None => cstr_unescape_char (esc_with ex c ++ t) end)
  = Some (c, t).
Proof.
  destruct (find (fun p => Ascii.eqb (fst p) c) ex) as [[c' e]|] eqn:E.
  - rewrite (extra_unesc_hit c c' e t ex); auto.
    unfold esc_with. rewrite E. reflexivity.
  - rewrite (extra_unesc_miss c t ex) by auto.
    unfold esc_with. rewrite E. apply unescape_char_spec.
Qed.

(** ** Memory *)
Definition fill (max : nat) (prev block : bytes) : mem :=
  firstn max prev ++ skipn (min (length prev) max) block.

Lemma put_fill max prev block c :
  min (S (length prev)) max <= length block ->
  put_byte max (length prev) (Some (fill max prev block)) c = Ok (Some (fill max (prev ++ [c]) block)).
Proof.
  intros H. unfold put_byte, fill. destruct (Nat.ltb_spec (length prev) max) as [Hlt|Hge].
  - rewrite firstn_all2 by lia. rewrite Nat.min_l by lia.
    rewrite store_some by (rewrite app_length, skipn_length; lia).
    cbn [of_opt bind]. rewrite firstn_app_len by reflexivity.
    rewrite (skipn_app_len _ _ _ 1) by lia.
    rewrite (firstn_all2 (prev ++ [c])) by (rewrite app_length; cbn; lia).
    rewrite app_length. cbn [length]. rewrite Nat.min_l by lia.
    rewrite skipn_skipn_add. rewrite <- app_assoc. cbn [app].
    replace (1 + length prev) with (length prev + 1) by lia. reflexivity.
  - rewrite firstn_app, app_length. cbn [length].
    replace (max - length prev) with 0 by lia. cbn [firstn]. rewrite app_nil_r.
    rewrite !Nat.min_r by lia. reflexivity.
Qed.

Definition fillo (max : nat) (prev : bytes) (block : option mem) : option mem :=
  match block with Some b => Some (fill max prev b) | None => None end.
Definition room (max n : nat) (block : option mem) : Prop :=
  match block with Some b => min n max <= length b | None => True end.

Lemma put_fillo max prev block c : room max (S (length prev)) block ->
  put_byte max (length prev) (fillo max prev block) c = Ok (fillo max (prev ++ [c]) block).
Proof. destruct block; cbn [room fillo]; intros H; [apply put_fill; exact H|reflexivity]. Qed.

Lemma room_mono max n k block : k <= n -> room max n block -> room max k block.
Proof. destruct block; cbn; [lia|auto]. Qed.

Lemma at_q_esc c t : Ascii.eqb (at_q (esc_with ex c ++ t)) nul = false /\
  Ascii.eqb (at_q (esc_with ex c ++ t)) quote = false.
Proof.
  pose proof (esc_with_len c). pose proof (esc_with_hd c). pose proof (esc_with_nul c).
  destruct (esc_with ex c) as [|x r]; cbn in *; [lia|].
  split; apply Ascii.eqb_neq; [|assumption]. intros ->; tauto.
Qed.

Lemma inner_spec max t block d : forall fuel prev,
  length d < fuel -> room max (length prev + length d) block ->
  inner fuel ex max (flat_map (esc_with ex) d ++ quote :: t) (length prev) (fillo max prev block)
  = Ok (Good (quote :: t, length prev + length d, fillo max (prev ++ d) block)).
Proof.
  induction d as [|c d IH]; intros fuel prev Hf Hr; (destruct fuel as [|fuel]; [lia|]).
  - cbn. rewrite Nat.add_0_r, app_nil_r. reflexivity.
  - cbn [flat_map]. rewrite <- app_assoc. cbn [inner].
    destruct (at_q_esc c (flat_map (esc_with ex) d ++ quote :: t)) as [H1 H2].
    unfold quote in H2 at 1. rewrite H1. change """"%char with quote.
    destruct (at_q_esc c (flat_map (esc_with ex) d ++ quote :: t)) as [_ ->]. cbn [orb].
    rewrite decode_one. cbn [length] in *.
    rewrite put_fillo by (eapply room_mono; [|exact Hr]; lia). cbn [bind].
    specialize (IH fuel (prev ++ [c])). rewrite app_length in IH. cbn [length] in IH.
    replace (S (length prev)) with (length prev + 1) by lia.
    rewrite IH; [|lia|eapply room_mono; [|exact Hr]; lia].
    rewrite <- app_assoc. cbn [app]. do 4 f_equal. lia.
Qed.

Lemma white_space c : In c c_white -> isspace c = true.
Proof.
  unfold c_white. cbn [In]. intros H.
  repeat (destruct H as [<-|H]; [vm_compute; reflexivity|]). contradiction.
Qed.

Lemma outer_ws fuel max c q size m : isspace c = true ->
  outer (S fuel) ex max (c :: q) size m = outer (S fuel) ex max q size m.
Proof. intros H. cbn [outer skip_space]. rewrite H. reflexivity. Qed.

Lemma outer_spec max block d t : c_text ex d t -> forall fuel prev,
  length t < fuel -> room max (length prev + length d) block ->
  outer fuel ex max t (length prev) (fillo max prev block)
  = Ok (Good (length prev + length d, fillo max (prev ++ d) block)).
Proof.
  induction 1 as [|c d t Hc Ht IH|d d' t Ht IH]; intros fuel prev Hf Hr.
  - destruct fuel; [cbn in Hf; lia|]. cbn. rewrite Nat.add_0_r, app_nil_r. reflexivity.
  - destruct fuel; [cbn in Hf; lia|]. rewrite outer_ws by (apply white_space; assumption).
    cbn [length] in Hf. apply IH; [lia|assumption].
  - destruct fuel; [cbn in Hf; lia|].
    unfold literal in *. cbn [app]. rewrite <- app_assoc. cbn [app outer].
    change (skip_space (quote :: flat_map (esc_with ex) d ++ quote :: t))
      with (quote :: flat_map (esc_with ex) d ++ quote :: t). cbv iota.
    change (Ascii.eqb quote """") with true. cbn [negb].
    repeat (rewrite app_length in Hf || cbn [length] in Hf). rewrite app_length in Hr.
    pose proof (flat_len d).
    rewrite inner_spec; [|rewrite app_length; cbn [length]; lia|eapply room_mono; [|exact Hr]; lia].
    cbn [bind]. change (Ascii.eqb quote """") with true. cbv iota.
    specialize (IH fuel (prev ++ d)). rewrite app_length in IH. rewrite IH.
    + rewrite app_length, app_assoc, Nat.add_assoc. reflexivity.
    + lia.
    + eapply room_mono; [|exact Hr]; lia.
Qed.

Theorem unescape_spec max block d t : c_text ex d t -> room max (length d) block ->
  cstr_unescape (Some t) block max ex =
  Ok (length d <=? max, length d, fillo max d block).
Proof.
  intros H Hr. unfold cstr_unescape.
  assert (E : block = fillo max [] block) by (destruct block as [b|]; [|reflexivity];
    unfold fillo, fill; rewrite firstn_nil; reflexivity).
  pose proof (outer_spec max block d t H (S (length t)) [] (Nat.lt_succ_diag_r _) Hr) as Ho.
  rewrite <- E in Ho. cbn [length app Nat.add] in Ho. rewrite Ho.
  reflexivity.
Qed.
End Usable.

(** ** Any text: no memory error, termination *)
Definition nonempty_escapes (ex : extras) : Prop := forall c e, In (c, e) ex -> e <> [].

Lemma extra_unesc_shrinks ex q c q' : nonempty_escapes ex ->
  extra_unesc ex q = Some (c, q') -> length q' < length q.
Proof.
  induction ex as [|[ch e] ex IH]; intros H E; [discriminate|].
  cbn [extra_unesc] in E. destruct (starts_with e q) as [r|] eqn:E1.
  - inversion E; subst. apply starts_with_spec in E1. subst q. rewrite app_length.
    assert (e <> []) by (eapply H; left; reflexivity). destruct e; [congruence|cbn; lia].
  - apply IH; [|assumption]. intros c0 e0 Hin. eapply H. right. eassumption.
Qed.

Lemma hex2_shrinks r c q' : hex2 r = Some (c, q') -> length q' <= length r.
Proof.
  unfold hex2. destruct (hex_digit_val (at_q r)); [|discriminate].
  destruct (_ =? _)%Z; [discriminate|]. destruct (hex_digit_val _); [|discriminate].
  destruct (_ =? _)%Z; [discriminate|]. intros H; inversion H; subst.
  destruct r as [|x [|y r]]; cbn; lia.
Qed.

Lemma unescape_char_shrinks q c q' : cstr_unescape_char q = Some (c, q') -> length q' < length q.
Proof.
  unfold cstr_unescape_char. destruct q as [|c0 q1]; [discriminate|].
  destruct (Ascii.eqb c0 "\").
  - destruct q1 as [|c1 r]; [discriminate|]. destruct (simple_unesc c1).
    + intros H; inversion H; subst. cbn. lia.
    + destruct (Ascii.eqb c1 "x"); [|discriminate]. intros H. apply hex2_shrinks in H. cbn. lia.
  - intros H; inversion H; subst. cbn. lia.
Qed.

Definition fits (max : nat) (m : option mem) : Prop :=
  match m with Some b => max <= length b | None => True end.
Definition same_size (m m' : option mem) : Prop :=
  match m, m' with Some b, Some b' => length b' = length b | None, None => True | _, _ => False end.

Lemma same_size_refl m : same_size m m.
Proof. destruct m; cbn; auto. Qed.
Lemma same_size_trans a b c : same_size a b -> same_size b c -> same_size a c.
Proof. destruct a, b, c; cbn; try tauto; congruence. Qed.
Lemma fits_same max m m' : fits max m -> same_size m m' -> fits max m'.
Proof. destruct m, m'; cbn; try tauto; lia. Qed.

Lemma put_byte_safe max size m c : fits max m ->
  exists m', put_byte max size m c = Ok m' /\ same_size m m'.
Proof.
  intros H. unfold put_byte. destruct m as [b|]; [|exists None; cbn; auto].
  destruct (Nat.ltb_spec size max); [|exists (Some b); cbn; auto].
  cbn in H. destruct (store b size c) as [b'|] eqn:E.
  - cbn. exists (Some b'). split; [reflexivity|]. eapply store_length; eassumption.
  - rewrite store_some in E by lia. discriminate.
Qed.

Lemma inner_safe ex max : nonempty_escapes ex -> forall fuel q size m,
  length q < fuel -> fits max m ->
  exists o, inner fuel ex max q size m = Ok o /\
    match o with
    | Good (q', _, m') => length q' <= length q /\ same_size m m'
    | Misformatted m' => same_size m m'
    end.
Proof.
  intros Hne. induction fuel as [|fuel IH]; intros q size m Hf Hm; [lia|].
  cbn [inner]. destruct (_ || _).
  - eexists. split; [reflexivity|]. split; [lia|apply same_size_refl].
  - assert (Hs : forall c q', match extra_unesc ex q with Some x => Some x | None => cstr_unescape_char q end = Some (c, q') -> length q' < length q).
    { intros c q' E. destruct (extra_unesc ex q) as [[c0 q0]|] eqn:E1.
      - inversion E; subst. eapply extra_unesc_shrinks; eassumption.
      - eapply unescape_char_shrinks; eassumption. }
    destruct (match extra_unesc ex q with Some x => Some x | None => cstr_unescape_char q end) as [[c q']|].
    + specialize (Hs c q' eq_refl).
      destruct (put_byte_safe max size m c Hm) as (m' & -> & Hss). cbn [bind].
      destruct (IH q' (S size) m' ltac:(lia) (fits_same _ _ _ Hm Hss)) as (o & -> & Ho).
      eexists. split; [reflexivity|]. destruct o as [[[q2 s2] m2]|m2].
      * destruct Ho. split; [lia|eapply same_size_trans; eassumption].
      * eapply same_size_trans; eassumption.
    + eexists. split; [reflexivity|]. apply same_size_refl.
Qed.

Lemma skip_space_len q : length (skip_space q) <= length q.
Proof. induction q as [|c q IH]; cbn; [lia|]. destruct (isspace c); cbn; lia. Qed.

Lemma outer_safe ex max : nonempty_escapes ex -> forall fuel q size m,
  length q < fuel -> fits max m ->
  exists o, outer fuel ex max q size m = Ok o /\
    match o with Good (_, m') => same_size m m' | Misformatted m' => same_size m m' end.
Proof.
  intros Hne. induction fuel as [|fuel IH]; intros q size m Hf Hm; [lia|].
  cbn [outer]. pose proof (skip_space_len q). destruct (skip_space q) as [|c q1].
  - eexists. split; [reflexivity|]. apply same_size_refl.
  - destruct (Ascii.eqb c """"); cbn [negb].
    2:{ eexists. split; [reflexivity|]. apply same_size_refl. }
    destruct (inner_safe ex max Hne (S (length q1)) q1 size m ltac:(lia) Hm) as (o & -> & Ho).
    cbn [bind]. destruct o as [[[q2 s2] m2]|m2].
    + destruct Ho as [Hl Hss]. destruct q2 as [|c2 q3].
      * eexists. split; [reflexivity|]. assumption.
      * destruct (Ascii.eqb c2 """").
        -- cbn [length] in *. destruct (IH q3 s2 m2 ltac:(lia) (fits_same _ _ _ Hm Hss)) as (o & -> & Ho).
           eexists. split; [reflexivity|]. destruct o as [[s3 m3]|m3]; eapply same_size_trans; eassumption.
        -- eexists. split; [reflexivity|]. assumption.
    + eexists. split; [reflexivity|]. assumption.
Qed.

Theorem unescape_safe ex max str m : nonempty_escapes ex -> fits max m ->
  exists ret size m', cstr_unescape str m max ex = Ok (ret, size, m') /\ same_size m m'.
Proof.
  intros Hne Hm. unfold cstr_unescape. destruct str as [q|].
  - destruct (outer_safe ex max Hne (S (length q)) q 0 m ltac:(lia) Hm) as (o & -> & Ho).
    cbn [bind]. destruct o as [[s m']|m']; eexists _, _, _; split; try reflexivity; assumption.
  - eexists _, _, _; split; [reflexivity|apply same_size_refl].
Qed.

Lemma usable_none : usable [].
Proof. constructor; intros; contradiction. Qed.

Lemma usable_tcl : usable CSTR_TCLSTR_ESCAPES.
Proof.
  assert (H : forall b, forallb (fun p =>
     (match starts_with (snd p) (esc_with CSTR_TCLSTR_ESCAPES b) with Some _ => Ascii.eqb (fst p) b | None => true end)
     && (match starts_with (esc_with CSTR_TCLSTR_ESCAPES b) (snd p) with Some _ => Ascii.eqb (fst p) b | None => true end))
     CSTR_TCLSTR_ESCAPES = true).
  { apply byte_sweep. vm_compute. reflexivity. }
  constructor; intros c e.
  - intros Hin. cbn in Hin. destruct Hin as [E|[E|[]]]; inversion E; subst; cbn; lia.
  - intros Hin. cbn in Hin. destruct Hin as [E|[E|[]]]; inversion E; subst; cbn; intuition discriminate.
  - intros Hin. cbn in Hin. destruct Hin as [E|[E|[]]]; inversion E; subst; cbn; discriminate.
  - intros b Hin Hp. specialize (H b). rewrite forallb_forall in H. specialize (H _ Hin).
    cbn [fst snd] in H. apply andb_true_iff in H. destruct H as [H1 H2].
    destruct Hp as [[r Hr]|[r Hr]].
    + apply starts_with_spec in Hr. rewrite Hr in H1. apply Ascii.eqb_eq in H1. exact H1.
    + apply starts_with_spec in Hr. rewrite Hr in H2. apply Ascii.eqb_eq in H2. exact H2.
Qed.

Theorem roundtrip ex d t block max : usable ex ->
  cstr_escape (Some d) ex = Ok (Some t) -> length d <= max -> length block = max ->
  cstr_unescape (Some t) (Some block) max ex =
    Ok (true, length d, Some (d ++ skipn (length d) block)).
Proof.
  intros U E Hd Hb. rewrite (escape_spec ex U) in E. inversion E; subst t.
  rewrite (unescape_spec ex U max (Some block) d).
  - cbn [fillo]. unfold fill. rewrite firstn_all2 by lia. rewrite Nat.min_l by lia.
    replace (length d <=? max) with true by (symmetry; apply Nat.leb_le; lia). reflexivity.
  - pose proof (ct_lit ex d [] [] (ct_nil ex)) as HH. rewrite !app_nil_r in HH. exact HH.
  - cbn. lia.
Qed.

Theorem literal_printable d x : In x (literal [] d) -> 32 <= nat_of_ascii x <= 126.
Proof.
  unfold literal. cbn [In]. rewrite in_app_iff, in_flat_map. cbn [In].
  intros [<-|[(c & _ & H)|[<-|[]]]]; [cbn; lia| |cbn; lia].
  eapply c_esc_printable. exact H.
Qed.
