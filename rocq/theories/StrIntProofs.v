(** Proofs about reading numbers from texts. *)
From Verif Require Import Base Ctype KeyModel KeySpec KeyProofs DecSpec IntFmtModel IntFmtProofs StrIntModel StrIntSpec.
Local Open Scope nat_scope.

Lemma blank_space c : blank c <-> isspace c = true.
Proof. unfold blank, isspace, cc. rewrite orb_true_iff, andb_true_iff, Nat.eqb_eq, !Nat.leb_le. tauto. Qed.
Lemma skip_blanks b r : Forall blank b -> skip_space (b ++ r) = skip_space r.
Proof. induction 1 as [|c b H _ IH]; [reflexivity|]. cbn [app skip_space]. apply blank_space in H. rewrite H. exact IH. Qed.
Lemma skip_split s : exists b, s = b ++ skip_space s /\ Forall blank b.
Proof.
  induction s as [|c s (b & E & F)]; [exists []; auto|]. cbn [skip_space]. destruct (isspace c) eqn:Q; [|exists []; auto].
  exists (c :: b). split; [cbn; congruence|]. constructor; [apply blank_space, Q|exact F].
Qed.
Lemma skip_digit c r : digit c -> skip_space (c :: r) = c :: r.
Proof. intros H. cbn [skip_space]. destruct (digit_not_space c H) as (-> & _). reflexivity. Qed.
Lemma magnitude_some c r : digit c -> magnitude (c :: r) <> None.
Proof.
  intros H. cbn [magnitude]. destruct (cc c =? 48) eqn:E; [destruct r as [|x [|h r]]; try discriminate; destruct (_ && _); discriminate|].
  apply digit_isdigit in H. rewrite H. discriminate.
Qed.
Lemma magnitude_digit s : magnitude s <> None -> exists c r, s = c :: r /\ digit c.
Proof.
  destruct s as [|c r]; [intros H; elim H; reflexivity|]. cbn [magnitude]. intros H. exists c, r. split; [reflexivity|]. destruct (cc c =? 48) eqn:E.
  - apply Nat.eqb_eq in E. unfold digit, cc in *. lia.
  - apply digit_isdigit. destruct (isdigit c); congruence.
Qed.
Lemma strtol_numeric v : strtol0 v <> None <-> numeric v.
Proof.
  split.
  - intros H. destruct (skip_split v) as (b & E & F). unfold strtol0 in H. destruct (skip_space v) as [|c r]; [congruence|].
    destruct (Nat.eqb_spec (cc c) 45) as [Q|Q]; [|destruct (Nat.eqb_spec (cc c) 43) as [Q'|Q']].
    + destruct (magnitude_digit r) as (d & r' & -> & D); [destruct (magnitude r); congruence|]. exists b, [ascii_of_nat 45], d, r'.
      split; [|split; [exact F|split; [right; left; reflexivity|exact D]]]. rewrite E. cbn [app]. unfold cc in Q. rewrite <- Q, ascii_nat_embedding. reflexivity.
    + destruct (magnitude_digit r) as (d & r' & -> & D); [destruct (magnitude r); congruence|]. exists b, [ascii_of_nat 43], d, r'.
      split; [|split; [exact F|split; [right; right; reflexivity|exact D]]]. rewrite E. cbn [app]. unfold cc in Q'. rewrite <- Q', ascii_nat_embedding. reflexivity.
    + destruct (magnitude_digit (c :: r)) as (d & r' & X & D); [destruct (magnitude (c :: r)); congruence|]. exists b, [], d, r'.
      split; [|split; [exact F|split; [left; reflexivity|exact D]]]. cbn [app]. congruence.
  - intros (b & s & c & r & -> & F & Sg & D). unfold strtol0. rewrite skip_blanks by exact F. pose proof (magnitude_some c r D) as M. destruct Sg as [->|[->| ->]].
    + cbn [app]. rewrite skip_digit by exact D. destruct (digit_not_space c D) as (_ & -> & ->). destruct (magnitude (c :: r)); [discriminate|elim M; reflexivity].
    + change (match magnitude (c :: r) with Some m => Some (clamp_long (- m)) | None => None end <> None). destruct (magnitude (c :: r)); [discriminate|elim M; reflexivity].
    + change (match magnitude (c :: r) with Some m => Some (clamp_long m) | None => None end <> None). destruct (magnitude (c :: r)); [discriminate|elim M; reflexivity].
Qed.

Lemma find_str_some v : nul_free v -> forall l i, Forall nul_free l ->
  match find_str l i v with
  | Some j => exists a w b, l = a ++ w :: b /\ j = i + length a /\ map tolower v = map tolower w /\ Forall (fun w => map tolower v <> map tolower w) a
  | None => Forall (fun w => map tolower v <> map tolower w) l
  end.
Proof.
  intros N. induction l as [|s l IH]; intros i F; cbn [find_str]; [constructor|]. pose proof (Forall_inv F) as Fs. pose proof (casecmp_eq v s N Fs) as C. unfold same_text in C.
  destruct (Z.eqb_spec (strcasecmp v s) 0) as [E|E].
  - exists [], s, l. cbn. split; [reflexivity|]. split; [lia|]. split; [apply C, E|constructor].
  - specialize (IH (S i) (Forall_inv_tail F)). destruct (find_str l (S i) v) as [j|].
    + destruct IH as (a & w & b & -> & -> & M & Fa). exists (s :: a), w, b. cbn. split; [reflexivity|]. split; [lia|]. split; [exact M|]. constructor; [|exact Fa]. intros Q. apply E, C, Q.
    + constructor; [|exact IH]. intros Q. apply E, C, Q.
Qed.
Lemma strs_nul : Forall nul_free strs.
Proof. unfold strs. repeat (apply Forall_cons; [vm_compute; intuition discriminate|]). apply Forall_nil. Qed.
Lemma strs_words : strs = yes_words ++ no_words.
Proof. reflexivity. Qed.
Lemma words_ok v d : nul_free v -> ~ numeric v ->
  (one_of v yes_words -> str2int (Some v) d = 1%Z) /\ (one_of v no_words -> str2int (Some v) d = 0%Z) /\
  (~ one_of v yes_words -> ~ one_of v no_words -> str2int (Some v) d = d).
Proof.
  intros N H. unfold str2int. destruct (strtol0 v) eqn:E; [elim H; apply strtol_numeric; congruence|].
  pose proof (find_str_some v N strs 0 strs_nul) as F. destruct (find_str strs 0 v) as [j|].
  - destruct F as (a & w & b & El & -> & M & Fa). cbn [Nat.add]. destruct (Nat.ltb_spec (length a) 4) as [L|L].
    + assert (Hw : In w yes_words).
      { rewrite strs_words in El. assert (X : nth_error (yes_words ++ no_words) (length a) = Some w) by (rewrite El, nth_error_app2, Nat.sub_diag by lia; reflexivity).
        rewrite nth_error_app1 in X by exact L. eapply nth_error_In, X. }
      split; [reflexivity|]. split; [|intros Q; elim Q; exists w; auto]. intros (w' & Hw' & M'). exfalso. assert (Q : map tolower w = map tolower w') by congruence. clear - Q Hw Hw'.
      cbn in Hw, Hw'. destruct Hw as [<-|[<-|[<-|[<-|[]]]]], Hw' as [<-|[<-|[<-|[<-|[]]]]]; discriminate Q.
    + assert (Hw : In w no_words).
      { rewrite strs_words in El. assert (X : nth_error (yes_words ++ no_words) (length a) = Some w) by (rewrite El, nth_error_app2, Nat.sub_diag by lia; reflexivity).
        rewrite nth_error_app2 in X by exact L. eapply nth_error_In, X. }
      split; [|split; [reflexivity|intros _ Q; elim Q; exists w; auto]]. intros (w' & Hw' & M'). exfalso. assert (Q : map tolower w = map tolower w') by congruence. clear - Q Hw Hw'.
      cbn in Hw, Hw'. destruct Hw as [<-|[<-|[<-|[<-|[]]]]], Hw' as [<-|[<-|[<-|[<-|[]]]]]; discriminate Q.
  - rewrite strs_words in F. apply Forall_app in F. destruct F as [F1 F2]. rewrite Forall_forall in F1, F2.
    split; [intros (w & Hw & M); elim (F1 w Hw M)|]. split; [intros (w & Hw & M); elim (F2 w Hw M)|]. reflexivity.
Qed.

(** Decimal numbers *)
Lemma digit_val_digit c : digit c -> digit_val c = digit_value c /\ (digit_val c <? 10)%Z = true.
Proof. intros H. pose proof (proj1 (digit_isdigit c) H) as E. unfold digit_val. rewrite E. split; [reflexivity|]. unfold digit, cc in *. apply Z.ltb_lt. lia. Qed.
Lemma not_digit_val c : isdigit c = false -> (digit_val c <? 10)%Z = false.
Proof.
  intros H. unfold digit_val. rewrite H. apply Z.ltb_ge. destruct (isalpha c) eqn:E; [|lia].
  unfold isalpha, tolower in *. unfold isupper, islower, cc in *. destruct ((65 <=? nat_of_ascii c) && (nat_of_ascii c <=? 90)) eqn:U.
  - apply andb_true_iff in U. destruct U as [U1 U2]. apply Nat.leb_le in U1, U2. rewrite nat_ascii_embedding by lia. lia.
  - cbn [orb] in E. apply andb_true_iff in E. destruct E as [U1 U2]. apply Nat.leb_le in U1, U2. lia.
Qed.
Lemma digits_of_app s t : Forall digit s -> (match t with [] => True | c :: _ => isdigit c = false end) ->
  forall a, digits_of 10 (s ++ t) a = fold_left (fun a c => (10 * a + digit_value c)%Z) s a.
Proof.
  induction 1 as [|c s H _ IH]; intros Ht a; cbn [app fold_left].
  - destruct t as [|c t]; [reflexivity|]. cbn [digits_of]. rewrite not_digit_val by exact Ht. reflexivity.
  - cbn [digits_of]. destruct (digit_val_digit c H) as [E Q]. rewrite Q, E. apply IH, Ht.
Qed.
Definition no_radix (s t : bytes) : Prop := s = [ascii_of_nat 48] -> match t with c :: _ => cc (tolower c) <> 120 | [] => True end.
Lemma magnitude_decimal n s t : is_decimal n s -> (match t with [] => True | c :: _ => isdigit c = false end) -> no_radix s t -> magnitude (s ++ t) = Some n.
Proof.
  intros (Ne & F & V & Z0) Ht R. destruct s as [|c s]; [congruence|]. cbn [app magnitude]. destruct (Nat.eqb_spec (cc c) 48) as [E|E].
  - assert (c = ascii_of_nat 48) by (rewrite <- E; symmetry; apply ascii_nat_embedding). subst c. specialize (Z0 eq_refl). injection Z0 as ->. cbn in V. subst n. cbn [app].
    specialize (R eq_refl). assert (X : digits_of 8 (ascii_of_nat 48 :: t) 0 = 0%Z).
    { cbn [digits_of]. change (digit_val (ascii_of_nat 48)) with 0%Z. cbn [Z.ltb Z.compare Z.mul Z.add]. destruct t as [|x t]; [reflexivity|]. cbn [digits_of]. pose proof (not_digit_val x Ht) as Q. apply Z.ltb_ge in Q. destruct (Z.ltb_spec (digit_val x) 8); [lia|reflexivity]. }
    destruct t as [|x [|h t]]; try (rewrite X; reflexivity). destruct (Nat.eqb_spec (cc (tolower x)) 120); [contradiction|]. cbn [andb]. rewrite X. reflexivity.
  - pose proof (Forall_inv F) as D. apply digit_isdigit in D. rewrite D. change (c :: s ++ t) with ((c :: s) ++ t). rewrite digits_of_app by assumption. f_equal. exact V.
Qed.
Lemma to_int_id z : (- 2 ^ 31 <= z < 2 ^ 31)%Z -> to_int (clamp_long z) = z.
Proof.
  intros H. assert (clamp_long z = z) as -> by (unfold clamp_long, long_max; lia). unfold to_int. cbn zeta. destruct (Z.ltb_spec (z mod 2 ^ 32) (2 ^ 31)) as [L|L].
  - destruct (Z.neg_nonneg_cases z) as [N|N]; [|apply Z.mod_small; lia]. exfalso. assert (z mod 2 ^ 32 = z + 2 ^ 32)%Z; [|lia]. rewrite <- (Z.mod_small (z + 2 ^ 32) (2 ^ 32)) by lia. rewrite <- Z.add_mod_idemp_r, Z.mod_same, Z.add_0_r by lia. reflexivity.
  - destruct (Z.neg_nonneg_cases z) as [N|N]; [|rewrite Z.mod_small in L; lia]. assert (z mod 2 ^ 32 = z + 2 ^ 32)%Z; [|lia]. rewrite <- (Z.mod_small (z + 2 ^ 32) (2 ^ 32)) by lia. rewrite <- (Z.add_mod_idemp_r z (2 ^ 32)), Z.mod_same, Z.add_0_r by lia. reflexivity.
Qed.
Lemma decimal_ok b sg n s t d : Forall blank b -> sign sg -> is_decimal n s -> (match t with [] => True | c :: _ => ~ digit c end) -> no_radix s t ->
  (- 2 ^ 31 <= signed sg n < 2 ^ 31)%Z -> str2int (Some (b ++ sg ++ s ++ t)) d = signed sg n.
Proof.
  intros F Sg D Ht R In. assert (Ht' : match t with [] => True | c :: _ => isdigit c = false end).
  { destruct t as [|c t]; [exact I|]. destruct (isdigit c) eqn:E; [|reflexivity]. apply digit_isdigit in E. contradiction. }
  pose proof (magnitude_decimal n s t D Ht' R) as M. unfold str2int, strtol0. rewrite skip_blanks by exact F. unfold signed in *. destruct Sg as [->|[->| ->]].
  - cbn [app]. destruct D as (Ne & Fd & _). destruct s as [|c s]; [congruence|]. pose proof (Forall_inv Fd) as Dc. cbn [app] in *. rewrite skip_digit by exact Dc. destruct (digit_not_space c Dc) as (_ & -> & ->). rewrite M. cbn in In |- *. apply to_int_id, In.
  - change (match (match magnitude (s ++ t) with Some m => Some (clamp_long (- m)) | None => None end) with Some num => to_int num | None => match find_str strs 0 (b ++ [ascii_of_nat 45] ++ s ++ t) with Some i => if i <? 4 then 1%Z else 0%Z | None => d end end = (- n)%Z). rewrite M. apply to_int_id. exact In.
  - change (match (match magnitude (s ++ t) with Some m => Some (clamp_long m) | None => None end) with Some num => to_int num | None => match find_str strs 0 (b ++ [ascii_of_nat 43] ++ s ++ t) with Some i => if i <? 4 then 1%Z else 0%Z | None => d end end = n). rewrite M. apply to_int_id. exact In.
Qed.
Lemma round_trip i d : (- 2 ^ 31 < i < 2 ^ 31)%Z -> exists s, setint i = Ok s /\ str2int (Some s) d = i.
Proof.
  intros H. exists (sdec i). split; [apply (signed_ok 32); [lia|cbn -[Z.pow]; lia]|]. pose proof (sdec_is i) as D. assert (Bg : (2 ^ 31 < big)%Z) by (unfold big; lia). specialize (D ltac:(lia)). unfold is_signed_decimal in D. destruct (Z.ltb_spec i 0).
  - destruct D as (t & -> & D). assert (X := decimal_ok [] [ascii_of_nat 45] (- i) t [] d (Forall_nil _) (or_intror (or_introl eq_refl)) D I (fun _ => I)). cbn [app] in X. rewrite app_nil_r in X. rewrite X; unfold signed; cbn; lia.
  - assert (X := decimal_ok [] [] i (sdec i) [] d (Forall_nil _) (or_introl eq_refl) D I (fun _ => I)). cbn [app] in X. rewrite app_nil_r in X. rewrite X; unfold signed; cbn; lia.
Qed.
