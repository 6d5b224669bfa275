From Verif Require Import Base BaseFacts Ctype IntFmtModel KeyModel KeySpec KeyProofs TempModel TempSpec TreeProofs TempProofs RecProofs DefModel DefSpec.
Local Open Scope nat_scope.

(** ** Looking for a default *)
Definition joined (pre : list bytes) : bytes := flat_map (fun s => slash :: s) pre.
Lemma joined_tl pre : pre <> [] -> tl (joined pre) = print_loop pre.
Proof.
  destruct pre as [|s pre]; [congruence|]. intros _. unfold joined. cbn [flat_map tl]. revert s. induction pre as [|t pre IH]; intros s; [cbn; apply app_nil_r|].
  change (print_loop (s :: t :: pre)) with (s ++ [slash] ++ print_loop (t :: pre)). rewrite <- (IH t). reflexivity.
Qed.
Lemma pop_seg_ok s r : ~ In slash s -> pop_seg (s ++ r) = match r with [] => (s, None) | c :: r' => if Ascii.eqb c slash then (s, Some r') else (s ++ fst (pop_seg r), snd (pop_seg r)) end.
Proof.
  induction s as [|c s IH]; intros N; cbn [app pop_seg].
  - destruct r as [|c r]; [reflexivity|]. cbn [pop_seg]. destruct (Ascii.eqb c slash); [reflexivity|]. destruct (pop_seg r). reflexivity.
  - destruct (Ascii.eqb_spec c slash) as [->|Ne]; [elim N; left; reflexivity|]. rewrite IH by (intros X; apply N; right; exact X). destruct r as [|d r]; [reflexivity|]. destruct (Ascii.eqb d slash); reflexivity.
Qed.
Definition rest_text (segs : list bytes) : option bytes := match segs with [] => None | _ => Some (print_loop segs) end.
Lemma pop_print s segs : ~ In slash s -> pop_seg (print_loop (s :: segs)) = (s, rest_text segs).
Proof.
  intros N. destruct segs as [|t segs]; cbn [print_loop rest_text].
  - rewrite <- (app_nil_r s) at 1. rewrite pop_seg_ok by exact N. reflexivity.
  - cbn [app]. rewrite pop_seg_ok by exact N. reflexivity.
Qed.
(** The first of the candidates that exists *)
Fixpoint pick (g : gen) (pre segs : list bytes) : key :=
  match segs with
  | [] => if texists g pre then pre else []
  | s :: r => match pick g (pre ++ [s]) r with [] => pick g (pre ++ [star]) r | k => k end
  end.
Fixpoint need (segs : list bytes) : nat := match segs with [] => 1 | s :: r => 1 + Nat.max 1 (length s) + need r end.
Lemma need_pos segs : 1 <= need segs.
Proof. destruct segs; cbn; lia. Qed.
Lemma joined_snoc pre s : joined (pre ++ [s]) = joined pre ++ slash :: s.
Proof. unfold joined. rewrite flat_map_app. cbn. rewrite app_nil_r. reflexivity. Qed.
Lemma default_cons c s k : default_for c (s :: k) -> exists p c', c = p :: c' /\ (p = s \/ p = star) /\ default_for c' k.
Proof. intros H. inversion H as [|p s' c' k' Hp Hc]; subst. eauto. Qed.
Lemma finddefault_ok g cap : forall segs pre fuel, length segs < fuel -> Forall (fun s => ~ In slash s) segs -> length (joined pre) + need segs <= cap -> pre ++ segs <> [] ->
  (forall c, default_for c segs -> canonical (pre ++ c)) -> finddefault fuel g cap (rest_text segs) (joined pre) = Ok (pick g pre segs).
Proof.
  induction segs as [|s segs IH]; intros pre fuel Lf N C Ne H; destruct fuel as [|fuel]; try (cbn in Lf; lia); cbn [finddefault rest_text pick].
  - rewrite app_nil_r in Ne. rewrite joined_tl by exact Ne. specialize (H [] (Forall2_nil _)). rewrite app_nil_r in H. rewrite <- printable_loop. rewrite parse_print by exact H. cbn [bind]. destruct (texists g pre); reflexivity.
  - rewrite pop_print by exact (Forall_inv N). cbn [need] in C. pose proof (need_pos segs) as Np. destruct (Nat.ltb_spec cap (length (joined pre) + 1 + length s + 1)) as [X|_]; [lia|].
    assert (A : forall t, t = s \/ t = star -> finddefault fuel g cap (rest_text segs) (joined pre ++ slash :: t) = Ok (pick g (pre ++ [t]) segs)).
    { intros t Ht. rewrite <- joined_snoc. apply IH; [cbn in Lf; lia|exact (Forall_inv_tail N)| |destruct pre; discriminate|].
      - rewrite joined_snoc, app_length. cbn [length]. destruct Ht as [->| ->]; cbn [length star B]; [lia|]. change (length star) with 1. lia.
      - intros c Hc. rewrite <- app_assoc. apply H. constructor; assumption. }
    rewrite (A s) by auto. cbn [bind]. destruct (pick g (pre ++ [s]) segs) as [|x k] eqn:E; cbn [isempty negb]; [|reflexivity].
    destruct (Nat.ltb_spec cap (length (joined pre) + 1 + 1 + 1)) as [X|_]; [lia|]. change (B "*") with star. apply A. auto.
Qed.
Lemma pick_spec g : forall segs pre, (pick g pre segs = [] \/ exists m, pick g pre segs = pre ++ m /\ default_for m segs /\ texists g (pre ++ m) = true /\
    forall c, default_for c segs -> texists g (pre ++ c) = true -> c = m \/ before m c) /\
  (pick g pre segs = [] -> pre ++ segs <> [] -> forall c, default_for c segs -> texists g (pre ++ c) = false).
Proof.
  induction segs as [|s segs IH]; intros pre; cbn [pick].
  - destruct (texists g pre) eqn:E.
    + split; [right; exists []; rewrite app_nil_r; split; [reflexivity|]; split; [constructor|]; split; [exact E|]; intros c Hc _; inversion Hc; auto|]. intros -> X. elim X. reflexivity.
    + split; [auto|]. intros _ _ c Hc. inversion Hc; subst. rewrite app_nil_r. exact E.
  - destruct (IH (pre ++ [s])) as [A1 A2]. destruct (IH (pre ++ [star])) as [B1 B2]. assert (Ne : forall t, (pre ++ [t]) ++ segs <> []) by (intros t; destruct pre; discriminate).
    assert (Sh : forall t c, pre ++ t :: c = (pre ++ [t]) ++ c) by (intros t c; rewrite <- app_assoc; reflexivity).
    destruct (pick g (pre ++ [s]) segs) as [|x k] eqn:E.
    + specialize (A2 eq_refl (Ne s)). split.
      * destruct B1 as [B1|(m & -> & D & T & L)]; [auto|]. right. exists (star :: m). split; [symmetry; apply Sh|]. split; [constructor; auto|]. split; [rewrite (Sh star m); exact T|].
        intros c Hc Tc. destruct (default_cons _ _ _ Hc) as (p & c' & -> & [->| ->] & Hc'); rewrite (Sh _ c') in Tc; [rewrite A2 in Tc by exact Hc'; discriminate|]. destruct (L c' Hc' Tc) as [->|X]; [auto|]. right. apply before_next. exact X.
      * intros Es _ c Hc. destruct (default_cons _ _ _ Hc) as (p & c' & -> & [->| ->] & Hc'); rewrite (Sh _ c'); [apply A2, Hc'|]. apply B2; auto.
    + split; [|discriminate]. right. destruct A1 as [A1|(m & -> & D & T & L)]; [discriminate|]. exists (s :: m). split; [symmetry; apply Sh|]. split; [constructor; auto|]. split; [rewrite (Sh s m); exact T|].
      intros c Hc Tc. destruct (default_cons _ _ _ Hc) as (p & c' & -> & Hp & Hc'). rewrite (Sh _ c') in Tc. destruct (list_eq_dec ascii_dec p s) as [->|Nps].
      * destruct (L c' Hc' Tc) as [->|X]; [auto|]. right. apply before_next. exact X.
      * destruct Hp as [->| ->]; [congruence|]. right. apply before_here. congruence.
Qed.
Lemma print_len k : length (print_loop k) + 1 = length (joined k) \/ k = [].
Proof. destruct k as [|s k]; [auto|]. left. rewrite <- joined_tl by discriminate. unfold joined. cbn. lia. Qed.
Lemma need_plain k : Forall plain k -> need k = length (joined k) + 1.
Proof.
  induction 1 as [|s k (Ne & _) H IH]; [reflexivity|]. cbn [need]. rewrite IH. unfold joined. cbn [flat_map app length]. rewrite app_length. destruct s; [congruence|]. cbn [length]. lia.
Qed.
Lemma need_snoc k s : need (k ++ [s]) = need k + 1 + Nat.max 1 (length s).
Proof. induction k as [|t k IH]; cbn [app need]; [lia|]. rewrite IH. lia. Qed.
Lemma room_ge n : n + 1 <= room n /\ 3 <= room n.
Proof. unfold room. pose proof (Nat.div_mod (12 + n + 1) 4). pose proof (Nat.mod_upper_bound (12 + n + 1) 4). lia. Qed.
Lemma rest_some k : k <> [] -> rest_text k = Some (print_loop k).
Proof. destruct k; [congruence|reflexivity]. Qed.
Lemma star_plain : plain star.
Proof. split; [discriminate|]. split; intros [X|[]]; discriminate. Qed.
Lemma default_canonical c k : default_for c k -> Forall plain k -> Forall plain c.
Proof. induction 1 as [|p s c k [->| ->] H IH]; intros P; [constructor|..]; constructor; try exact (IH (Forall_inv_tail P)); [exact (Forall_inv P)|apply star_plain]. Qed.
Lemma default_len c k : default_for c k -> length c = length k.
Proof. induction 1; cbn; congruence. Qed.
Lemma keymap_plain g k : Forall plain k -> k <> [] -> exists m, keymap g k = Ok m /\ default_for m k /\
  ((m = k /\ forall c, default_for c k -> texists g c = false) \/ (texists g m = true /\ forall c, default_for c k -> texists g c = true -> c = m \/ before m c)).
Proof.
  intros P N. unfold keymap. rewrite printable_loop. rewrite <- (rest_some k N). change (@nil byte) with (joined []).
  assert (Dk : default_for k k) by (clear; induction k; constructor; auto).
  assert (Ln : length k <= length (print_loop k)). { destruct (print_len k) as [E| ->]; [|cbn; lia]. assert (X : length k + length k <= length (joined k)); [|destruct k; [cbn; lia|cbn [length] in *; lia]]. clear -P. induction P as [|s k (Ne & _) H IH]; [cbn; lia|]. unfold joined in *. cbn [flat_map length app]. rewrite app_length. destruct s; [congruence|]. cbn [length]. lia. }
  rewrite finddefault_ok.
  - cbn [bind]. destruct (pick_spec g k []) as [A B]. cbn [app] in *. destruct (pick g [] k) as [|x m] eqn:E; cbn [isempty].
    + exists k. split; [reflexivity|]. split; [exact Dk|]. left. split; [reflexivity|]. apply B; auto.
    + destruct A as [A|(m' & -> & D & T & L)]; [discriminate|]. exists m'. split; [reflexivity|]. split; [exact D|]. right. auto.
  - lia.
  - eapply Forall_impl; [|exact P]. intros s (_ & X & _). exact X.
  - cbn [joined flat_map length]. rewrite need_plain by exact P. destruct (room_ge (length (print_loop k) * 2)). destruct (print_len k) as [E| ->]; [|congruence]. destruct (length (print_loop k)) as [|[|l]]; lia.
  - exact N.
  - intros c Hc. left. eapply default_canonical; eassumption.
Qed.
(** Looking for a default never writes past the buffer. *)
Lemma keymap_safe g k : canonical k -> exists m, keymap g k = Ok m /\ canonical m.
Proof.
  intros [P|(k' & N' & P & ->)].
  - destruct k as [|s k].
    + assert (R : keymap g [] = if texists g [] then if texists g [B "*"] then Ok [B "*"] else Ok [] else if texists g [B "*"] then Ok [B "*"] else Ok []).
      { unfold keymap. change (B "*") with ["*"%char]. cbn -[texists]. destruct (texists g []), (texists g [["*"%char]]); reflexivity. }
      destruct (texists g []), (texists g [B "*"]); rewrite R; eexists; (split; [reflexivity|]); left; first [apply Forall_nil|apply Forall_cons; [apply star_plain|apply Forall_nil]].
    + destruct (keymap_plain g (s :: k) P) as (m & E & D & _); [discriminate|]. exists m. split; [exact E|]. left. eapply default_canonical; eassumption.
  - unfold keymap. rewrite printable_loop. assert (N : k' ++ [[]] <> []) by (destruct k'; discriminate). rewrite <- (rest_some _ N). match goal with |- context[finddefault ?f ?g0 ?c ?r []] => change (finddefault f g0 c r []) with (finddefault f g0 c r (joined [])) end.
    assert (Ls : length (print_loop (k' ++ [[]])) = length (print_loop k') + 1) by (rewrite print_trailing by exact N'; rewrite app_length; reflexivity).
    assert (L2 : 1 <= length (print_loop k') /\ length k' <= length (print_loop k')).
    { destruct (print_len k') as [E| ->]; [|congruence]. assert (X : length k' + length k' <= length (joined k')) by (clear -P; induction P as [|s k (Ne & _) H IH]; [cbn; lia|]; unfold joined in *; cbn [flat_map length app]; rewrite app_length; destruct s; [congruence|]; cbn [length]; lia). destruct k'; [congruence|]. cbn [length] in *. lia. }
    assert (C : forall c, default_for c (k' ++ [[]]) -> canonical c).
    { intros c Hc. apply Forall2_app_inv_r in Hc. destruct Hc as (c1 & c2 & H1 & H2 & ->). destruct (default_cons _ _ _ H2) as (p & c3 & -> & Hp & H3). inversion H3; subst. pose proof (default_canonical _ _ H1 P) as P1.
      destruct Hp as [->| ->]; [right; exists c1; split; [|auto]; intros ->; apply default_len in H1; destruct k'; [congruence|discriminate]|]. left. apply Forall_app. split; [exact P1|]. constructor; [apply star_plain|constructor]. }
    rewrite finddefault_ok.
    + cbn [bind]. destruct (pick_spec g (k' ++ [[]]) []) as [A _]. cbn [app] in A. destruct (pick g [] (k' ++ [[]])) as [|x m] eqn:E; cbn [isempty].
      * exists (k' ++ [[]]). split; [reflexivity|]. right. eauto.
      * destruct A as [A|(m' & -> & D & _)]; [discriminate|]. exists m'. split; [reflexivity|]. apply C, D.
    + rewrite app_length. cbn [length]. lia.
    + apply Forall_app. split; [eapply Forall_impl; [|exact P]; intros s (_ & X & _); exact X|]. constructor; [intros []|constructor].
    + cbn [joined flat_map length]. rewrite need_snoc, need_plain by exact P. rewrite Ls. destruct (room_ge ((length (print_loop k') + 1) * 2)). destruct (print_len k') as [E| ->]; [|congruence]. cbn [length]. lia.
    + exact N.
    + exact C.
Qed.

(** ** Replacing wildcards *)
Lemma seg_wild_eq s : seg_wild s = wild s.
Proof. reflexivity. Qed.
Lemma klast_snoc k s : Forall plain (k ++ [s]) -> short (k ++ [s]) -> klast (k ++ [s]) 1 = [s].
Proof.
  intros P Sh. unfold klast, range. unfold short in Sh. rewrite app_length in *. cbn [length] in *. set (n := Z.of_nat (length k + 1)) in *. assert (En : n = (Z.of_nat (length k) + 1)%Z) by (unfold n; lia).
  destruct (Z.ltb_spec n int_max) as [_|X]; [|unfold int_max in X; replace int_max with n by (unfold int_max; lia)];
  (destruct (Z.ltb_spec (n - 1) 0); [lia|]); (destruct (Z.ltb_spec n (n - 1)); [lia|]);
  replace (Z.to_nat (n - (n - 1))) with 1 by lia; replace (Z.to_nat (n - 1)) with (length k) by lia; rewrite skipn_app, skipn_all, Nat.sub_diag; cbn; apply Forall_app in P; destruct P as (_ & P); apply Forall_inv in P; destruct P as (N & _); destruct s; congruence.
Qed.
Lemma rm_snoc k s : Forall plain k -> removelast (k ++ [s]) 1 = k.
Proof.
  intros P. unfold removelast, range. rewrite app_length. cbn [length]. set (n := Z.of_nat (length k + 1)). assert (En : n = (Z.of_nat (length k) + 1)%Z) by (unfold n; lia).
  destruct (Z.ltb_spec n (n - 1)); [lia|]. cbn [Z.ltb]. destruct (Z.ltb_spec 0 0); [lia|]. destruct (Z.ltb_spec (n - 1) 0); [lia|]. replace (Z.to_nat (n - 1 - 0)) with (length k) by lia. cbn [Z.to_nat skipn].
  rewrite firstn_app, firstn_all, Nat.sub_diag. cbn [firstn]. rewrite app_nil_r. apply plain_collapse, P.
Qed.
Lemma short_snoc k s : short (k ++ [s]) -> short k.
Proof. unfold short. rewrite app_length. lia. Qed.
(** The end of a key that has no wildcard is dropped. *)
Lemma towild_ok : forall b a fuel loc, length b < fuel -> Forall plain (a ++ b) -> short (a ++ b) -> filter wild b = [] ->
  (a = [] -> towild fuel b loc = Ok None) /\ (forall a' s, a = a' ++ [s] -> wild s = true -> towild fuel (a ++ b) loc = Ok (Some (a, (loc - Z.of_nat (length b))%Z))).
Proof.
  induction b as [|s b IH] using rev_ind; intros a fuel loc L P Sh W; destruct fuel as [|fuel]; try (cbn in L; lia); cbn [towild].
  - split; [reflexivity|]. intros a' s -> Hs. rewrite app_nil_r in *. rewrite klast_snoc by assumption. unfold iswild. cbn [existsb]. rewrite seg_wild_eq, Hs. cbn [orb]. cbn [length Z.of_nat]. rewrite Z.sub_0_r. reflexivity.
  - rewrite filter_app in W. apply app_eq_nil in W. destruct W as (W & Ws). assert (Hs : wild s = false) by (cbn in Ws; destruct (wild s); [discriminate|reflexivity]). rewrite app_length in L. cbn [length] in L.
    rewrite app_assoc in P, Sh. assert (Pab : Forall plain (a ++ b)) by (apply Forall_app in P; apply P). pose proof (short_snoc _ _ Sh) as Shab.
    assert (E : forall c, c ++ [s] = (c ++ [s]) -> Forall plain (c ++ [s]) -> short (c ++ [s]) -> iswild (klast (c ++ [s]) 1) = false /\ removelast (c ++ [s]) 1 = c).
    { intros c _ Pc Sc. rewrite klast_snoc by assumption. unfold iswild. cbn [existsb]. rewrite seg_wild_eq, Hs. split; [reflexivity|]. apply rm_snoc. apply Forall_app in Pc. apply Pc. }
    destruct (IH a fuel (loc - 1)%Z) as (I1 & I2); [lia|exact Pab|exact Shab|exact W|]. split.
    + intros ->. cbn [app] in *. destruct (E b eq_refl P Sh) as (-> & ->). destruct b; [reflexivity|]. cbn [isempty]. apply I1. reflexivity.
    + intros a' x Ea Hx. rewrite app_assoc. destruct (E (a ++ b) eq_refl P Sh) as (-> & ->). rewrite (I2 a' x Ea Hx). destruct (a ++ b) eqn:Eab; [apply app_eq_nil in Eab; destruct Eab as (-> & _); destruct a'; discriminate|]. cbn [isempty]. rewrite app_length. cbn [length]. replace (loc - Z.of_nat (length b + 1))%Z with (loc - 1 - Z.of_nat (length b))%Z by lia. reflexivity.
Qed.
(** Cutting at the last wildcard *)
Lemma last_wild c : filter wild c = [] \/ exists a s b, c = (a ++ [s]) ++ b /\ wild s = true /\ filter wild b = [].
Proof.
  induction c as [|x c IH] using rev_ind; [auto|]. rewrite filter_app. cbn [filter]. destruct (wild x) eqn:E.
  - right. exists c, x, []. rewrite app_nil_r. auto.
  - rewrite app_nil_r. destruct IH as [->|(a & s & b & -> & Hs & Hb)]; [auto|]. right. exists a, s, (b ++ [x]). rewrite <- !app_assoc. split; [reflexivity|]. split; [exact Hs|]. rewrite filter_app, Hb. cbn. rewrite E. reflexivity.
Qed.
Definition none_at (c : list bytes) (n : nat) : Prop := length (filter wild c) < n.
Lemma towild1 c fuel loc : length c < fuel -> Forall plain c -> short c -> (exists a s b, c = (a ++ [s]) ++ b /\ wild s = true /\ filter wild b = [] /\ towild fuel c loc = Ok (Some (a ++ [s], (loc - Z.of_nat (length b))%Z))) \/
  (filter wild c = [] /\ towild fuel c loc = Ok None).
Proof.
  intros L P Sh. destruct (last_wild c) as [W|(a & s & b & -> & Hs & Hb)].
  - right. split; [exact W|]. apply (towild_ok c [] fuel loc L P Sh W). reflexivity.
  - left. exists a, s, b. split; [reflexivity|]. split; [exact Hs|]. split; [exact Hb|]. rewrite app_length in L. destruct (towild_ok b (a ++ [s]) fuel loc) as (_ & I2); [lia|exact P|exact Sh|exact Hb|]. exact (I2 a s eq_refl Hs).
Qed.
Lemma towilds_ok : forall n a s b loc, Forall plain ((a ++ [s]) ++ b) -> short ((a ++ [s]) ++ b) -> wild s = true -> loc = Z.of_nat (length a + 1) ->
  (exists i k, towilds n (a ++ [s]) loc = Ok (Some (k, Z.of_nat (i + 1))) /\ nth_wild ((a ++ [s]) ++ b) (n + length (filter wild b) + 1) i) \/
  (towilds n (a ++ [s]) loc = Ok None /\ length (filter wild ((a ++ [s]) ++ b)) < n + length (filter wild b) + 1).
Proof.
  induction n as [|n IH]; intros a s b loc P Sh Hs El; cbn [towilds].
  - left. exists (length a), (a ++ [s]). subst loc. split; [reflexivity|]. exists s. split; [rewrite <- app_assoc, nth_error_app2, Nat.sub_diag by lia; reflexivity|]. split; [exact Hs|].
    rewrite skipn_app. assert (E : length (a ++ [s]) = S (length a)) by (rewrite app_length; cbn; lia). rewrite E, Nat.sub_diag. rewrite <- E, skipn_all. cbn. lia.
  - assert (Pa : Forall plain a) by (apply Forall_app in P; destruct P as (P & _); apply Forall_app in P; apply P). assert (Sa : short a) by (unfold short in *; rewrite !app_length in Sh; lia).
    rewrite rm_snoc by exact Pa. destruct (towild1 a (S (length a)) (loc - 1) (Nat.lt_succ_diag_r _) Pa Sa) as [(a1 & s1 & b1 & -> & H1 & Hb & ->)|(W & ->)]; cbn [bind].
    + rewrite <- (app_assoc (a1 ++ [s1]) b1 [s]) in *. rewrite <- (app_assoc (a1 ++ [s1]) (b1 ++ [s]) b) in *. destruct (IH a1 s1 ((b1 ++ [s]) ++ b) (loc - 1 - Z.of_nat (length b1))%Z P Sh H1) as [(i & k & E & Hn)|(E & L)].
      * rewrite El, !app_length. cbn [length]. lia.
      * left. exists i, k. split; [exact E|]. replace (S n + length (filter wild b) + 1) with (n + length (filter wild ((b1 ++ [s]) ++ b)) + 1); [exact Hn|]. rewrite !filter_app, Hb. cbn [filter app]. rewrite Hs. cbn. lia.
      * right. split; [exact E|]. replace (S n + length (filter wild b) + 1) with (n + length (filter wild ((b1 ++ [s]) ++ b)) + 1); [exact L|]. rewrite !filter_app, Hb. cbn [filter app]. rewrite Hs. cbn. lia.
    + right. split; [reflexivity|]. rewrite !filter_app, W. cbn [filter app]. rewrite Hs. cbn. lia.
Qed.
Lemma nth_wild_count c n i : nth_wild c n i -> n <= length (filter wild c).
Proof.
  intros (s & Hn & Hs & <-). apply nth_error_split in Hn. destruct Hn as (a & b & -> & <-). replace (a ++ s :: b) with ((a ++ [s]) ++ b) by (rewrite <- app_assoc; reflexivity). assert (E : S (length a) = length (a ++ [s])) by (rewrite app_length; cbn; lia).
  rewrite E, skipn_app, skipn_all, Nat.sub_diag. cbn [skipn app]. rewrite !filter_app. cbn [filter]. rewrite Hs. rewrite !app_length. cbn. lia.
Qed.
Lemma segment_nth k i : Forall plain k -> i < length k -> printable (segment k (Z.of_nat i)) = nth i k [].
Proof.
  intros P L. unfold segment, range. destruct (Z.ltb_spec (Z.of_nat (length k)) (Z.of_nat i + 1)); [lia|]. destruct (Z.ltb_spec (Z.of_nat i) 0); [lia|]. destruct (Z.ltb_spec (Z.of_nat i + 1) (Z.of_nat i)); [lia|].
  replace (Z.to_nat (Z.of_nat i + 1 - Z.of_nat i)) with 1 by lia. rewrite Nat2Z.id. destruct (nth_error k i) as [s|] eqn:E; [|apply nth_error_None in E; lia]. rewrite (nth_error_nth k i [] E).
  assert (Es : skipn i k = s :: skipn (S i) k) by (clear -E; revert i E; induction k as [|y l IH]; intros [|i] H; cbn in *; try discriminate; [injection H as ->; reflexivity|]; apply IH, H).
  rewrite Es. cbn [firstn]. rewrite plain_collapse; [reflexivity|]. constructor; [|constructor]. rewrite Forall_forall in P. apply P. eapply nth_error_In, E.
Qed.
(** What a value means: [n] is the number after the star. *)
Lemma replace_as_is k m v : (forall t, v = Some ("*"%char :: t) -> t = [] \/ atoi t = Ok 0%Z) -> replacewildcard k m v = Ok v.
Proof.
  intros H. unfold replacewildcard. destruct v as [[|c [|d t]]|]; try reflexivity. destruct (Ascii.eqb_spec c "*") as [->|N]; [|reflexivity]. cbn [negb]. destruct (H _ eq_refl) as [X| ->]; [discriminate|]. reflexivity.
Qed.
Lemma replace_nth k m t n : Forall plain k -> short k -> k <> [] -> default_for m k -> atoi t = Ok (Z.of_nat n) -> 0 < n ->
  (exists i, nth_wild m n i /\ replacewildcard k m (Some ("*"%char :: t)) = Ok (Some (nth i k []))) \/ ((forall i, ~ nth_wild m n i) /\ replacewildcard k m (Some ("*"%char :: t)) = Ok None).
Proof.
  intros P Sh N D E L. pose proof (default_canonical _ _ D P) as Pm. pose proof (default_len _ _ D) as Lm. assert (Sm : short m) by (unfold short in *; rewrite Lm; exact Sh).
  unfold replacewildcard. destruct t as [|d t]; [change (Ok 0%Z = Ok (Z.of_nat n)) in E; injection E as E; lia|]. cbn [Ascii.eqb Bool.eqb negb]. rewrite E. cbn [bind]. destruct (Z.eqb_spec (Z.of_nat n) 0); [lia|]. destruct (Z.ltb_spec (Z.of_nat n) 0); [lia|].
  rewrite Nat2Z.id. destruct (towild1 m (S (length m)) (Z.of_nat (length k)) (Nat.lt_succ_diag_r _) Pm Sm) as [(a & s & b & Em & Hs & Hb & ->)|(W & ->)]; cbn [bind].
  - subst m. destruct (towilds_ok (n - 1) a s b (Z.of_nat (length k) - Z.of_nat (length b)) Pm Sm Hs) as [(i & q & -> & Hn)|(-> & X)]; [rewrite !app_length in Lm; cbn in Lm; lia|..]; rewrite Hb in *; cbn [length] in *; replace (n - 1 + 0 + 1) with n in * by lia; cbn [bind].
    + left. exists i. split; [exact Hn|]. replace (Z.of_nat (i + 1) - 1)%Z with (Z.of_nat i) by lia. rewrite segment_nth; [reflexivity|exact P|]. destruct Hn as (x & Hx & _). rewrite <- Lm. apply nth_error_Some. congruence.
    + right. split; [|reflexivity]. intros i Hi. apply nth_wild_count in Hi. lia.
  - right. split; [|reflexivity]. intros i Hi. apply nth_wild_count in Hi. rewrite W in Hi. cbn in Hi. lia.
Qed.
