From Verif Require Import Base BaseFacts Ctype IntFmtModel DecSpec IntFmtProofs CowModel CowProofs FormatModel FormatSpec.
From Coq Require Import ZifyBool ZifyNat.
Local Open Scope Z_scope.

(** ** Characters *)
Definition neutral (c : byte) : Prop := isdigit c = false /\ isspace c = false /\ (cc c =? 45)%nat = false /\ (cc c =? 43)%nat = false.
Definition starts_neutral (t : bytes) : Prop := exists c r, t = c :: r /\ neutral c.

Lemma atoi_number s t : number s -> starts_neutral t -> atoi (s ++ t) = Ok (value s).
Proof.
  intros (Hd & Hv) (c & r & -> & N1 & N2 & N3 & N4). pose proof (value_nonneg s Hd) as Hp. unfold atoi.
  assert (Hin : in_int (value s) = true) by (unfold in_int, int_min, int_max; apply andb_true_intro; split; apply Z.leb_le; lia).
  destruct s as [|d s].
  - cbn [app skip_space]. rewrite N2, N3, N4. cbn [atoi_digits]. rewrite N1. reflexivity.
  - pose proof (digit_not_space d (Forall_inv Hd)) as (H1 & H2 & H3). cbn [app skip_space]. rewrite H1, H2, H3.
    change (d :: s ++ c :: r) with ((d :: s) ++ c :: r). rewrite atoi_digits_app by assumption. fold (value (d :: s)). rewrite Hin. reflexivity.
Qed.
Lemma atoi_minus s t : number s -> starts_neutral t -> atoi (ch 45 :: s ++ t) = Ok (- value s).
Proof.
  intros (Hd & Hv) (c & r & -> & N1 & N2 & N3 & N4). pose proof (value_nonneg s Hd) as Hp. unfold atoi.
  assert (Hin : in_int (- value s) = true) by (unfold in_int, int_min, int_max; apply andb_true_intro; split; apply Z.leb_le; lia).
  cbn [skip_space]. change (isspace (ch 45)) with false. cbn iota. change (cc (ch 45) =? 45)%nat with true. cbn iota.
  rewrite atoi_digits_app by assumption. fold (value s). rewrite Hin. reflexivity.
Qed.

Lemma scan_digits stop s t : Forall digit s -> (forall c, digit c -> stop c = false) -> scan stop (s ++ t) = scan stop t.
Proof. intros H Hs. induction H as [|c s Hc _ IH]; [reflexivity|]. cbn [app scan]. rewrite (Hs c Hc). exact IH. Qed.

Definition stop1 (c : byte) : bool := is_ch dot c || is_ch percent c || is_ch dollar c || isalpha c.
Definition stop2 (c : byte) : bool := is_ch percent c || is_ch dollar c || isalpha c.
Definition stop3 (c : byte) : bool := is_ch percent c || isalpha c.
Lemma digit_stop1 c : digit c -> stop1 c = false.
Proof. unfold digit, stop1, is_ch, isalpha, isupper, islower, dot, percent, dollar, cc. lia. Qed.
Lemma digit_stop2 c : digit c -> stop2 c = false.
Proof. unfold digit, stop2, is_ch, isalpha, isupper, islower, percent, dollar, cc. lia. Qed.
Lemma digit_stop3 c : digit c -> stop3 c = false.
Proof. unfold digit, stop3, is_ch, isalpha, isupper, islower, percent, cc. lia. Qed.

Definition conv_char (cv : conv) : byte := match cv with Text => ch 115 | Char => ch 99 | Literal => ch 37 end.
Lemma conv_neutral cv : neutral (conv_char cv).
Proof. destruct cv; vm_compute; repeat split. Qed.

Definition tail3 (a : option bytes) (cv : conv) (rest : bytes) : bytes :=
  match a with None => [] | Some a => ch 36 :: a end ++ [conv_char cv] ++ rest.
Definition tail2 (p a : option bytes) (cv : conv) (rest : bytes) : bytes :=
  match p with None => [] | Some p => ch 46 :: p end ++ tail3 a cv rest.
Lemma tail3_neutral a cv rest : starts_neutral (tail3 a cv rest).
Proof.
  unfold tail3. destruct a as [a|]; cbn [app]; eexists _, _; (split; [reflexivity|]); [vm_compute; repeat split|apply conv_neutral].
Qed.
Lemma tail2_neutral p a cv rest : starts_neutral (tail2 p a cv rest).
Proof.
  unfold tail2. destruct p as [p|]; cbn [app]; [|apply tail3_neutral]. eexists _, _. split; [reflexivity|vm_compute; repeat split].
Qed.

Lemma written_dir minus w p a cv rest : written (Dir minus w p a cv) ++ rest =
  ch 37 :: (if minus then [ch 45] else []) ++ w ++ tail2 p a cv rest.
Proof.
  unfold written, tail2, tail3, conv_char. cbn [app]. f_equal. rewrite <- !app_assoc. repeat f_equal.
Qed.

Definition spec_of (minus : bool) (w : bytes) (p a : option bytes) : spec :=
  {| zeropad := negb minus && Ascii.eqb (hd nul w) (ch 48); justify := if minus then - value w else value w;
     maxlen := opt_value p; argnum := opt_value a |}.

Lemma pparse_ok minus w p a cv rest : number w -> (forall x, p = Some x -> number x) -> (forall x, a = Some x -> number x) ->
  pparse (written (Dir minus w p a cv) ++ rest) = Ok (conv_char cv :: rest, spec_of minus w p a).
Proof.
  intros Hw Hp Ha. rewrite written_dir. unfold pparse. change (is_ch percent (ch 37)) with true. cbn [negb].
  fold stop1 stop2 stop3.
  pose proof (tail2_neutral p a cv rest) as N2. pose proof (tail3_neutral a cv rest) as N3.
  assert (Ez : match (if minus then [ch 45] else []) ++ w ++ tail2 p a cv rest with c :: _ => is_ch 48 c | [] => false end =
     negb minus && Ascii.eqb (hd nul w) (ch 48)).
  { destruct minus; [reflexivity|]. cbn [app negb andb]. destruct w as [|d w].
    - cbn [app]. destruct p; [reflexivity|]. unfold tail2, tail3. destruct a; [reflexivity|]. destruct cv; reflexivity.
    - cbn [app hd]. unfold is_ch, cc. destruct (Ascii.eqb_spec d (ch 48)) as [->|Hne]; [reflexivity|].
      apply Nat.eqb_neq. intros E. apply Hne. rewrite <- (ascii_nat_embedding d), E. reflexivity. }
  rewrite Ez. clear Ez.
  assert (Ej : atoi ((if minus then [ch 45] else []) ++ w ++ tail2 p a cv rest) = Ok (if minus then - value w else value w)).
  { destruct minus; cbn [app]; [apply atoi_minus|apply atoi_number]; assumption. }
  rewrite Ej. cbn [bind].
  assert (E1 : scan stop1 ((if minus then [ch 45] else []) ++ w ++ tail2 p a cv rest) = tail2 p a cv rest).
  { assert (X : scan stop1 (w ++ tail2 p a cv rest) = tail2 p a cv rest).
    { rewrite scan_digits; [|apply Hw|apply digit_stop1]. unfold tail2, tail3. destruct p; [reflexivity|]. destruct a; [reflexivity|]. destruct cv; reflexivity. }
    destruct minus; [|exact X]. cbn [app scan]. change (stop1 (ch 45)) with false. cbn iota. exact X. }
  change (fun c : byte => is_ch dot c || is_ch percent c || is_ch dollar c || isalpha c) with stop1. rewrite E1.
  change (fun c : byte => is_ch percent c || is_ch dollar c || isalpha c) with stop2.
  change (fun c : byte => is_ch percent c || isalpha c) with stop3.
  assert (E2 : scan stop2 (tail2 p a cv rest) = tail3 a cv rest).
  { assert (X : scan stop2 (tail3 a cv rest) = tail3 a cv rest) by (unfold tail3; destruct a; [reflexivity|]; destruct cv; reflexivity).
    unfold tail2. destruct p as [p|]; [|exact X]. cbn [app scan]. change (stop2 (ch 46)) with false. cbn iota.
    rewrite scan_digits; [exact X|apply (Hp p eq_refl)|apply digit_stop2]. }
  assert (E3 : scan stop3 (tail3 a cv rest) = conv_char cv :: rest).
  { unfold tail3. destruct a as [a|].
    - cbn [app scan]. change (stop3 (ch 36)) with false. cbn iota. rewrite scan_digits; [|apply (Ha a eq_refl)|apply digit_stop3].
      destruct cv; reflexivity.
    - destruct cv; reflexivity. }
  destruct (tail2 p a cv rest) as [|c2 r2] eqn:Et2; [destruct N2 as (? & ? & ? & _); discriminate|].
  assert (Em : (if is_ch dot c2 then atoi r2 else Ok 0) = Ok (opt_value p)).
  { unfold tail2 in Et2. destruct p as [p|]; cbn [app opt_value] in *.
    - injection Et2 as <- <-. change (is_ch dot (ch 46)) with true. cbn iota. apply atoi_number; [apply Hp; reflexivity|assumption].
    - unfold tail3 in Et2. destruct a as [a|]; cbn [app] in Et2.
      + injection Et2 as <- _. reflexivity.
      + injection Et2 as <- _. destruct cv; reflexivity. }
  rewrite Em. cbn [bind]. rewrite E2.
  destruct (tail3 a cv rest) as [|c3 r3] eqn:Et3; [destruct N3 as (? & ? & ? & _); discriminate|].
  assert (Ea : (if is_ch dollar c3 then atoi r3 else Ok 0) = Ok (opt_value a)).
  { unfold tail3 in Et3. destruct a as [a|]; cbn [app opt_value] in *.
    - injection Et3 as <- <-. change (is_ch dollar (ch 36)) with true. cbn iota. apply atoi_number; [apply Ha; reflexivity|].
      eexists _, _. split; [reflexivity|apply conv_neutral].
    - injection Et3 as <- _. destruct cv; reflexivity. }
  rewrite Ea. cbn [bind]. rewrite E3. reflexivity.
Qed.

(** ** One directive *)
Lemma index_ok minus w p a k : arg_index k (spec_of minus w p a) = which a k.
Proof. reflexivity. Qed.
Lemma next_ok minus w p a k : next_arg k (spec_of minus w p a) = advance a k.
Proof. unfold next_arg, advance, spec_of. cbn [argnum]. destruct (Z.leb_spec (opt_value a) 0), (Z.ltb_spec 0 (opt_value a)); try lia; reflexivity. Qed.

Lemma opt_nonneg a : (forall x, a = Some x -> number x) -> 0 <= opt_value a < 2 ^ 31.
Proof. intros H. destruct a as [a|]; cbn [opt_value]; [|lia]. destruct (H a eq_refl) as (H1 & H2). pose proof (value_nonneg a H1). lia. Qed.

Lemma padded_length minus w s : length (padded minus w s) = Nat.max (Z.to_nat (value w)) (length s).
Proof. unfold padded. destruct minus; rewrite app_length, repeat_length; lia. Qed.
Lemma cut_length prec s : 0 <= prec -> length (cut prec s) = if 0 <? prec then Nat.min (Z.to_nat prec) (length s) else length s.
Proof. intros H. unfold cut. destruct (Z.ltb_spec 0 prec); [apply firstn_length|reflexivity]. Qed.

(** the bytes counted for a %s are exactly those it will produce *)
Lemma ladd_ok (minus : bool) w p s : number w -> (forall x, p = Some x -> number x) ->
  (opt_value p = 0 \/ value w <= opt_value p) ->
  let j := if minus then - value w else value w in
  let ladd := Z.max (Z.abs j) (Z.of_nat (length s)) in
  (if negb (opt_value p =? 0) && (opt_value p <? ladd) then opt_value p else ladd) =
  Z.of_nat (length (padded minus w (cut (opt_value p) s))).
Proof.
  intros (Hw & _) Hp Hc. pose proof (value_nonneg w Hw) as Hv. pose proof (opt_nonneg p Hp) as Hpp.
  rewrite padded_length, cut_length by lia. destruct (Z.eqb_spec (opt_value p) 0) as [E|E]; cbn [negb andb].
  - destruct (Z.ltb_spec 0 (opt_value p)); [lia|]. destruct minus; lia.
  - destruct (Z.ltb_spec 0 (opt_value p)); [|lia].
    destruct (Z.ltb_spec (opt_value p) (Z.max (Z.abs (if minus then - value w else value w)) (Z.of_nat (length s)))); destruct minus; lia.
Qed.

Lemma char_ok args k sp a n : nth_error args (arg_index k sp) = Some a -> char_code a = Some n ->
  char_arg args k sp = Ok (ch (Z.to_nat n)) .
Proof.
  intros E C. unfold char_arg. rewrite E. cbn [of_opt bind]. destruct a as [a|]; [|injection C as <-; reflexivity].
  destruct a as [|c a]; [injection C as <-; reflexivity|]. unfold char_code in C.
  destruct (forallb _ (c :: a) && (value (c :: a) <? 256)) eqn:F; [|discriminate]. injection C as <-.
  apply andb_true_iff in F. destruct F as [F1 F2]. apply Z.ltb_lt in F2.
  assert (Hd : Forall digit (c :: a)).
  { rewrite Forall_forall. rewrite forallb_forall in F1. intros x Hx. specialize (F1 x Hx). apply andb_true_iff in F1. unfold digit.
    destruct F1 as [X Y]. apply Nat.leb_le in X, Y. lia. }
  pose proof (value_nonneg _ Hd) as Hp.
  assert (Ea : atoi (c :: a) = Ok (value (c :: a))).
  { unfold atoi. pose proof (digit_not_space c (Forall_inv Hd)) as (H1 & H2 & H3). cbn [skip_space]. rewrite H1, H2, H3.
    pose proof (atoi_digits_app (c :: a) [] Hd I 0) as Hx. rewrite app_nil_r in Hx. rewrite Hx. fold (value (c :: a)).
    unfold in_int, int_min, int_max. destruct (Z.leb_spec (- 2 ^ 31) (value (c :: a))), (Z.leb_spec (value (c :: a)) (2 ^ 31 - 1)); try lia. reflexivity. }
  rewrite Ea. cbn [bind]. rewrite Z.mod_small by lia. reflexivity.
Qed.

(** ** Counting *)
Lemma length_pos i : (1 <= length (written i))%nat.
Proof. destruct i; cbn [written app length]; lia. Qed.

Lemma count_ok args : forall items fuel k total t, Forall well_formed items -> expansion args k items = Some t ->
  (length (format_of items) < fuel)%nat -> 0 <= total -> total + Z.of_nat (length t) <= int_max ->
  count fuel args (format_of items) k total = Ok (total + Z.of_nat (length t)).
Proof.
  induction items as [|i items IH]; intros fuel k total t Hwf E Hf H0 Hmax.
  - destruct fuel as [|fuel]; [cbn in Hf; lia|]. injection E as <-. cbn [format_of map concat count length] in *.
    replace (in_int total) with true; [cbn; rewrite Z.add_0_r; reflexivity|]. symmetry. unfold in_int, int_min. lia.
  - destruct fuel as [|fuel]; [lia|]. pose proof (Forall_inv Hwf) as Hi. apply Forall_inv_tail in Hwf.
    assert (Hfmt : format_of (i :: items) = written i ++ format_of items) by reflexivity. rewrite Hfmt in *. rewrite app_length in Hf.
    pose proof (length_pos i) as Hlp.
    assert (Hint : in_int total = true) by (unfold in_int, int_min; lia).
    assert (Hfuel : (length (format_of items) < fuel)%nat) by lia.
    destruct i as [c|minus w p a cv].
    + cbn [expansion] in E. destruct (expansion args k items) as [t'|] eqn:E'; [|discriminate]. injection E as <-.
      cbn [written app count]. rewrite Hint. cbn [negb]. destruct Hi as (Hc1 & Hc2).
      replace (is_ch percent c) with false.
      2:{ symmetry. unfold is_ch, percent, cc. apply Nat.eqb_neq. intros X. apply Hc1. rewrite <- (ascii_nat_embedding c), X. reflexivity. }
      cbn [negb]. cbn [length] in Hmax |- *. rewrite (IH fuel k (total + 1) t' Hwf E' Hfuel); [f_equal; lia|lia|lia].
    + destruct Hi as (Hw & Hp & Ha & Hcond). cbn [count]. rewrite Hint. cbn [negb].
      assert (Hhd : exists r, written (Dir minus w p a cv) ++ format_of items = ch 37 :: r) by (rewrite written_dir; eexists; reflexivity).
      pose proof (pparse_ok minus w p a cv (format_of items) Hw Hp Ha) as Hpp.
      destruct Hhd as (r & Hr). rewrite Hr in Hpp |- *. change (is_ch percent (ch 37)) with true. cbn [negb]. rewrite Hpp. cbn [bind].
      destruct cv; cbn [conv_char].
      * change (is_ch percent (ch 115)) with false. change (is_ch 115 (ch 115)) with true. cbn iota.
        cbn [expansion] in E. unfold arg_of. rewrite index_ok. destruct (nth_error args (which a k)) as [arg|]; [|discriminate].
        cbn [of_opt bind]. destruct (expansion args (advance a k) items) as [t'|] eqn:E'; [|discriminate]. injection E as <-.
        change (match arg with Some a0 => a0 | None => blank end) with (shown arg).
        rewrite next_ok. cbn [spec_of justify maxlen].
        pose proof (value_nonneg w (proj1 Hw)) as Hv.
        destruct (Z.eqb_spec (if minus then - value w else value w) int_min) as [X|_].
        { exfalso. destruct Hw as (_ & Hw2). unfold int_min in X. destruct minus; lia. }
        rewrite (ladd_ok minus w p (shown arg) Hw Hp (Hcond eq_refl)). rewrite app_length in Hmax |- *.
        rewrite (IH fuel (advance a k) _ t' Hwf E' Hfuel); [f_equal; lia|lia|lia].
      * change (is_ch percent (ch 99)) with false. change (is_ch 115 (ch 99)) with false. change (is_ch 99 (ch 99)) with true. cbn iota.
        cbn [expansion] in E. destruct (nth_error args (which a k)) as [arg|]; [|discriminate].
        destruct (expansion args (advance a k) items) as [t'|] eqn:E'; [|discriminate].
        destruct (char_code arg); [|discriminate]. injection E as <-. rewrite next_ok. cbn [length] in Hmax |- *.
        rewrite (IH fuel (advance a k) (total + 1) t' Hwf E' Hfuel); [f_equal; lia|lia|lia].
      * change (is_ch percent (ch 37)) with true. cbn iota. cbn [expansion] in E.
        destruct (expansion args k items) as [t'|] eqn:E'; [|discriminate]. injection E as <-. cbn [length] in Hmax |- *.
        rewrite (IH fuel k (total + 1) t' Hwf E' Hfuel); [f_equal; lia|lia|lia].
Qed.

(** ** Rendering into a buffer that already holds [done] *)
Definition holds (done : bytes) (room : nat) (m : mem) : Prop := exists r, m = done ++ r /\ length r = room.
Lemma put_ok done room m s : holds done room m -> (length s <= room)%nat ->
  exists m', put_bytes m (length done) s = Ok (m', length (done ++ s)) /\ holds (done ++ s) (room - length s) m'.
Proof.
  intros (r & -> & Hr) Hs. unfold put_bytes. rewrite store_seq_some by (rewrite app_length; lia). cbn [of_opt bind].
  rewrite firstn_app_len by reflexivity. rewrite (skipn_app_len done _ _ (length s)) by reflexivity.
  eexists. split; [rewrite <- app_length; reflexivity|]. exists (skipn (length s) r). split; [rewrite <- app_assoc; reflexivity|].
  rewrite skipn_length. lia.
Qed.

Lemma text_ok (minus : bool) w p s done room m : number w -> (forall x, p = Some x -> number x) ->
  holds done room m -> (length (padded minus w (cut (opt_value p) s)) <= room)%nat ->
  let sp := spec_of minus w p None in
  let aplen := if negb (opt_value p =? 0) && (opt_value p <? Z.of_nat (length s)) then opt_value p else Z.of_nat (length s) in
  let j := if minus then - value w else value w in
  let padc := ascii_of_nat (if negb minus && Ascii.eqb (hd nul w) (ch 48) then 48 else 32) in
  exists m', (let! (m, o) := (if aplen <? j then fill m (length done) padc (j - aplen) else Ok (m, length done)) in
     if aplen <? 0 then Fault else
     let! (m, o) := put_bytes m o (firstn (Z.to_nat aplen) s) in
     if (j <? 0) && (aplen <? - j) then fill m o padc (- j - aplen) else Ok (m, o)) =
    Ok (m', length (done ++ padded minus w (cut (opt_value p) s))) /\
    holds (done ++ padded minus w (cut (opt_value p) s)) (room - length (padded minus w (cut (opt_value p) s))) m'.
Proof.
  intros Hw Hp Hh Hl sp aplen j padc. pose proof (value_nonneg w (proj1 Hw)) as Hv. pose proof (opt_nonneg p Hp) as Hpp.
  assert (Hap : 0 <= aplen /\ firstn (Z.to_nat aplen) s = cut (opt_value p) s /\ aplen = Z.of_nat (length (cut (opt_value p) s))).
  { unfold aplen. destruct (Z.eqb_spec (opt_value p) 0) as [E|E]; cbn [negb andb].
    - rewrite E. unfold cut. cbn iota. rewrite firstn_all2 by lia. split; [lia|]. split; reflexivity.
    - unfold cut. destruct (Z.ltb_spec 0 (opt_value p)); [|lia]. rewrite firstn_length.
      destruct (Z.ltb_spec (opt_value p) (Z.of_nat (length s))).
      + split; [lia|]. split; [reflexivity|lia].
      + split; [lia|]. split; [|lia]. rewrite !firstn_all2 by lia. reflexivity. }
  destruct Hap as (Ha0 & Hcut & Halen). rewrite Hcut. clearbody aplen. subst aplen. set (u := cut (opt_value p) s) in *. clearbody u. clear Hcut.
  destruct (Z.ltb_spec (Z.of_nat (length u)) 0); [lia|].
  rewrite padded_length in Hl. unfold padded, j in *. destruct minus; cbn [negb andb] in *.
  - destruct (Z.ltb_spec (Z.of_nat (length u)) (- value w)); [lia|]. cbn [bind].
    destruct (put_ok done room m u Hh ltac:(lia)) as (m1 & -> & HH1). cbn [bind].
    destruct (Z.ltb_spec (- value w) 0); cbn [andb].
    + destruct (Z.ltb_spec (Z.of_nat (length u)) (- - value w)).
      * unfold fill. destruct (Z.ltb_spec (- - value w - Z.of_nat (length u)) 0); [lia|].
        replace (Z.to_nat (- - value w - Z.of_nat (length u))) with (Z.to_nat (value w) - length u)%nat by lia.
        destruct (put_ok _ _ m1 (repeat padc (Z.to_nat (value w) - length u)) HH1) as (m2 & -> & HH2); [rewrite repeat_length; lia|].
        exists m2. rewrite <- !app_assoc in *. split; [reflexivity|]. rewrite repeat_length in HH2. rewrite app_length, repeat_length.
        replace (room - (length u + (Z.to_nat (value w) - length u)))%nat with (room - length u - (Z.to_nat (value w) - length u))%nat by lia. exact HH2.
      * replace (Z.to_nat (value w) - length u)%nat with 0%nat by lia. cbn [repeat]. rewrite app_nil_r. exists m1. split; [reflexivity|assumption].
    + replace (Z.to_nat (value w) - length u)%nat with 0%nat by lia. cbn [repeat]. rewrite app_nil_r. exists m1. split; [reflexivity|assumption].
  - assert (Epad : padc = (if Ascii.eqb (hd nul w) (ch 48) then ch 48 else ch 32)).
    { unfold padc. destruct (Ascii.eqb (hd nul w) (ch 48)); reflexivity. }
    rewrite <- Epad. clearbody padc. clear Epad.
    destruct (Z.ltb_spec (value w) 0); [lia|]. cbn [andb].
    destruct (Z.ltb_spec (Z.of_nat (length u)) (value w)).
    + unfold fill. destruct (Z.ltb_spec (value w - Z.of_nat (length u)) 0); [lia|].
      replace (Z.to_nat (value w - Z.of_nat (length u))) with (Z.to_nat (value w) - length u)%nat by lia.
      destruct (put_ok _ _ m (repeat padc (Z.to_nat (value w) - length u)) Hh) as (m2 & -> & HH2); [rewrite repeat_length; lia|]. cbn [bind].
      rewrite repeat_length in HH2.
      destruct (put_ok _ _ m2 u HH2 ltac:(lia)) as (m3 & -> & HH3). cbn [bind]. exists m3. rewrite <- !app_assoc in *. split; [reflexivity|].
      rewrite app_length, repeat_length.
      replace (room - (Z.to_nat (value w) - length u + length u))%nat with (room - (Z.to_nat (value w) - length u) - length u)%nat by lia. exact HH3.
    + cbn [bind]. destruct (put_ok done room m u Hh ltac:(lia)) as (m1 & -> & HH1). cbn [bind].
      replace (Z.to_nat (value w) - length u)%nat with 0%nat by lia. cbn [repeat app]. exists m1. split; [reflexivity|assumption].
Qed.

Lemma render_ok args : forall items fuel k m done t space, Forall well_formed items -> expansion args k items = Some t ->
  (length (format_of items) < fuel)%nat -> holds done space m -> (length t < space)%nat ->
  exists m' r, render fuel args (format_of items) k m (length done) = Ok (m', length (done ++ t)) /\ m' = (done ++ t) ++ nul :: r.
Proof.
  induction items as [|i items IH]; intros fuel k m done t space Hwf E Hf Hh Hs.
  - destruct fuel as [|fuel]; [cbn in Hf; lia|]. injection E as <-. cbn [format_of map concat render]. rewrite app_nil_r.
    destruct Hh as (r & -> & Hr). destruct r as [|x r]; [cbn in *; lia|]. rewrite store_mid. cbn [of_opt bind]. exists (done ++ nul :: r), r. split; reflexivity.
  - destruct fuel as [|fuel]; [lia|]. pose proof (Forall_inv Hwf) as Hi. apply Forall_inv_tail in Hwf.
    assert (Hfmt : format_of (i :: items) = written i ++ format_of items) by reflexivity. rewrite Hfmt in *. rewrite app_length in Hf.
    pose proof (length_pos i) as Hlp.
    assert (Hfuel : (length (format_of items) < fuel)%nat) by lia.
    destruct i as [c|minus w p a cv].
    + cbn [expansion] in E. destruct (expansion args k items) as [t'|] eqn:E'; [|discriminate]. injection E as <-.
      cbn [written app render]. destruct Hi as (Hc1 & Hc2).
      replace (is_ch percent c) with false.
      2:{ symmetry. unfold is_ch, percent, cc. apply Nat.eqb_neq. intros X. apply Hc1. rewrite <- (ascii_nat_embedding c), X. reflexivity. }
      cbn [negb]. cbn [length] in Hs. destruct (put_ok done space m [c] Hh) as (m1 & -> & H1); [cbn; lia|]. cbn [bind].
      destruct (IH fuel k m1 (done ++ [c]) t' _ Hwf E' Hfuel H1) as (m' & r & -> & Hm); [cbn; lia|].
      exists m', r. split; [rewrite <- app_assoc; reflexivity|rewrite Hm, <- !app_assoc; reflexivity].
    + destruct Hi as (Hw & Hp & Ha & Hcond). cbn [render].
      assert (Hhd : exists r, written (Dir minus w p a cv) ++ format_of items = ch 37 :: r) by (rewrite written_dir; eexists; reflexivity).
      pose proof (pparse_ok minus w p a cv (format_of items) Hw Hp Ha) as Hpp.
      destruct Hhd as (r & Hr). rewrite Hr in Hpp |- *. change (is_ch percent (ch 37)) with true. cbn [negb]. rewrite Hpp. cbn [bind].
      destruct cv; cbn [conv_char].
      * change (is_ch percent (ch 115)) with false. change (is_ch 115 (ch 115)) with true. cbn iota.
        cbn [expansion] in E. unfold arg_of. rewrite index_ok. destruct (nth_error args (which a k)) as [arg|]; [|discriminate].
        cbn [of_opt bind]. destruct (expansion args (advance a k) items) as [t'|] eqn:E'; [|discriminate]. injection E as <-.
        change (match arg with Some a0 => a0 | None => blank end) with (shown arg).
        rewrite next_ok. cbn [spec_of justify maxlen zeropad]. rewrite app_length in Hs.
        destruct (text_ok minus w p (shown arg) done space m Hw Hp Hh ltac:(lia)) as (m1 & Hrun & H1).
        set (aplen := if negb (opt_value p =? 0) && (opt_value p <? Z.of_nat (length (shown arg))) then opt_value p else Z.of_nat (length (shown arg))) in *.
        set (j := if minus then - value w else value w) in *.
        set (padc := ascii_of_nat (if negb minus && Ascii.eqb (hd nul w) (ch 48) then 48 else 32)) in *.
        destruct (if aplen <? j then fill m (length done) padc (j - aplen) else Ok (m, length done)) as [[m2 o2]| |]; try discriminate.
        cbn [bind] in Hrun |- *. destruct (aplen <? 0); [discriminate|].
        destruct (put_bytes m2 o2 (firstn (Z.to_nat aplen) (shown arg))) as [[m3 o3]| |]; try discriminate. cbn [bind] in Hrun |- *.
        rewrite Hrun. cbn [bind].
        destruct (IH fuel (advance a k) m1 _ t' _ Hwf E' Hfuel H1) as (m' & r' & -> & Hm); [lia|].
        exists m', r'. split; [rewrite <- app_assoc; reflexivity|rewrite Hm, <- !app_assoc; reflexivity].
      * change (is_ch percent (ch 99)) with false. change (is_ch 115 (ch 99)) with false. change (is_ch 99 (ch 99)) with true. cbn iota.
        cbn [expansion] in E. destruct (nth_error args (which a k)) as [arg|] eqn:En; [|discriminate].
        destruct (expansion args (advance a k) items) as [t'|] eqn:E'; [|discriminate].
        destruct (char_code arg) as [n|] eqn:Ec; [|discriminate]. injection E as <-. rewrite next_ok. cbn [length] in Hs.
        rewrite (char_ok args k (spec_of minus w p a) arg n En Ec). cbn [bind].
        destruct (put_ok done space m [ch (Z.to_nat n)] Hh) as (m1 & -> & H1); [cbn; lia|]. cbn [bind].
        destruct (IH fuel (advance a k) m1 _ t' _ Hwf E' Hfuel H1) as (m' & r' & -> & Hm); [cbn; lia|].
        exists m', r'. split; [rewrite <- app_assoc; reflexivity|rewrite Hm, <- !app_assoc; reflexivity].
      * change (is_ch percent (ch 37)) with true. cbn iota. cbn [expansion] in E.
        destruct (expansion args k items) as [t'|] eqn:E'; [|discriminate]. injection E as <-. cbn [length] in Hs.
        destruct (put_ok done space m [ch 37] Hh) as (m1 & -> & H1); [cbn; lia|]. cbn [bind].
        destruct (IH fuel k m1 _ t' _ Hwf E' Hfuel H1) as (m' & r' & -> & Hm); [cbn; lia|].
        exists m', r'. split; [rewrite <- app_assoc; reflexivity|rewrite Hm, <- !app_assoc; reflexivity].
Qed.

Lemma cstr_app_stop u r : cstr (u ++ nul :: r) = cstr u.
Proof. induction u as [|x u IH]; [reflexivity|]. cbn [app cstr]. destruct (Ascii.eqb x nul); [reflexivity|]. f_equal. exact IH. Qed.

Lemma do_format_ok items args t : Forall well_formed items -> expansion args 0 items = Some t -> Z.of_nat (length t) < 2 ^ 31 ->
  do_format (format_of items) args = Ok (cstr t).
Proof.
  intros Hwf E Hl. unfold do_format. rewrite (count_ok args items _ 0%nat 0 t Hwf E); [|lia|lia|unfold int_max; lia]. cbn [bind].
  destruct (Z.ltb_spec (0 + Z.of_nat (length t)) 0); [lia|].
  replace (Z.to_nat (0 + Z.of_nat (length t))) with (length t) by lia.
  assert (Hh : holds [] (room (length t)) (calloc (room (length t)))).
  { exists (calloc (room (length t))). split; [reflexivity|]. unfold calloc. apply repeat_length. }
  pose proof (room_ge (length t)) as Hr.
  destruct (render_ok args items (S (length (format_of items))) 0%nat _ [] t _ Hwf E (Nat.lt_succ_diag_r _) Hh) as (m' & r & E2 & ->); [lia|].
  cbn [length app] in E2. rewrite E2. cbn [bind]. rewrite cstr_app_stop. reflexivity.
Qed.
