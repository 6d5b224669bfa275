From Coq Require Import ZifyBool ZifyNat ZifyN.
From Verif Require Import Base BaseFacts Ctype EncoderModel EncoderProofs BackslashModel BackslashSpec.

(** ** Encoder *)
Lemma strchr_in u c : c <> nul ->
  match strchr u c with Some _ => true | None => false end = existsb (Ascii.eqb c) u.
Proof.
  intros Hc. induction u as [|x u IH]; cbn [strchr existsb].
  - destruct (Ascii.eqb_spec c nul); [congruence|reflexivity].
  - rewrite (Ascii.eqb_sym c x). destruct (Ascii.eqb x c); [reflexivity|].
    cbn [orb]. rewrite <- IH. destruct (strchr u c); reflexivity.
Qed.

Definition special_ok (c : byte) : bool :=
  let n := nat_of_ascii c in
  if Ascii.eqb c nul then
    match find (fun p => fst p =? n) named with Some _ => false | None => true end && negb (isprint c)
    && (if list_eq_dec ascii_dec [tohex (cc c / 16); tohex (cc c mod 16)] [lhex (n / 16); lhex (n mod 16)] then true else false)
  else
  match strchr escapein c, find (fun p => fst p =? n) named with
  | Some k, Some (_, l) => match nth_error escapeout k with Some e => Ascii.eqb e l | None => false end
  | None, None => eqb (isprint c) ((32 <=? n) && (n <=? 126)) &&
                  (if list_eq_dec ascii_dec [tohex (cc c / 16); tohex (cc c mod 16)] [lhex (n / 16); lhex (n mod 16)] then true else false)
  | _, _ => false
  end.
Lemma special_all c : special_ok c = true.
Proof. revert c. apply byte_sweep. vm_compute. reflexivity. Qed.

Definition fits (free : option nat) (n : nat) : bool :=
  match free with None => true | Some k => n <=? k end.

Lemma lt_fits free n : lt_room free n = negb (fits free n).
Proof. destruct free; cbn [lt_room fits]; [apply Nat.ltb_antisym|reflexivity]. Qed.

(** One byte of the encoder. *)
Lemma encode_step nasties flush unread avail c r :
  let e := bs_esc nasties c in
  bs_encode nasties flush unread avail (c :: r) =
  if fits avail (length e) then bs_emit e (bs_encode nasties flush unread (minus_room avail (length e)) r)
  else if S (length r) <=? unread then Ok (BsOut [] (S (length r)) (negb flush)) else Fault.
Proof.
  cbv zeta. pose proof (special_all c) as Hs. unfold special_ok in Hs.
  cbn [bs_encode length]. rewrite !lt_fits. unfold bs_esc.
  destruct (Ascii.eqb_spec c nul) as [->|Hc].
  - cbn [negb andb]. change (nat_of_ascii nul =? 0) with true. cbn [negb]. rewrite andb_false_r.
    change (find (fun p : nat * ascii => fst p =? nat_of_ascii nul) named) with (@None (nat * ascii)).
    change ((32 <=? nat_of_ascii nul) && (nat_of_ascii nul <=? 126)) with false.
    cbv iota. cbn [length].
    destruct avail as [k|]; cbn [fits negb].
    + destruct k as [|[|[|[|k]]]]; cbn [Nat.leb negb minus_room Nat.sub]; reflexivity.
    + reflexivity.
  - pose proof (strchr_in nasties c Hc) as Hn.
    assert (H0 : (nat_of_ascii c =? 0) = false).
    { apply Nat.eqb_neq. intros E. apply Hc. rewrite <- (ascii_nat_embedding c), E. reflexivity. }
    rewrite H0. cbn [negb andb]. rewrite andb_true_r. rewrite <- Hn.
    destruct (strchr nasties c) as [i|].
    + cbn [negb andb length].
      destruct avail as [k|]; cbn [fits negb]; [|reflexivity].
      destruct k as [|[|k]]; cbn [Nat.leb negb minus_room Nat.sub]; reflexivity.
    + destruct (strchr escapein c) as [k|]; destruct (find (fun p => fst p =? nat_of_ascii c) named) as [[n l]|]; try discriminate.
      * destruct (nth_error escapeout k) as [e|] eqn:E; [|discriminate].
        apply Ascii.eqb_eq in Hs. subst e. cbn [of_opt bind length].
        destruct avail as [j|]; cbn [fits negb]; [|reflexivity].
        destruct j as [|[|j]]; cbn [Nat.leb negb minus_room Nat.sub]; reflexivity.
      * apply andb_true_iff in Hs. destruct Hs as [Hp Hh]. apply eqb_prop in Hp. rewrite <- Hp.
        destruct (isprint c).
        -- cbn [length]. destruct avail as [j|]; cbn [fits negb]; [|reflexivity].
           destruct j as [|j]; cbn [Nat.leb negb minus_room Nat.sub]; reflexivity.
        -- destruct (list_eq_dec ascii_dec _ _) as [Eh|]; [|discriminate].
           assert (E1 : tohex (cc c / 16) = lhex (nat_of_ascii c / 16)) by congruence.
           assert (E2 : tohex (cc c mod 16) = lhex (nat_of_ascii c mod 16)) by congruence.
           rewrite E1, E2.
           cbn [length]. destruct avail as [j|]; cbn [fits negb]; [|reflexivity].
           destruct j as [|[|[|[|j]]]]; cbn [Nat.leb negb minus_room Nat.sub]; reflexivity.
Qed.

Lemma esc_len nasties c : 1 <= length (bs_esc nasties c).
Proof.
  unfold bs_esc. destruct (_ && _); [cbn; lia|]. destruct (find _ _) as [[? ?]|]; [cbn; lia|].
  destruct (_ && _); cbn; lia.
Qed.

Theorem encode_fits nasties flush unread avail d : fits avail (length (bs_text nasties d)) = true ->
  bs_encode nasties flush unread avail d = Ok (BsOut (bs_text nasties d) 0 true).
Proof.
  revert avail. induction d as [|c d IH]; intros avail H; [reflexivity|].
  rewrite encode_step. cbv zeta. unfold bs_text in *. cbn [flat_map] in *. rewrite app_length in H.
  assert (H1 : fits avail (length (bs_esc nasties c)) = true) by (destruct avail; cbn in *; lia).
  rewrite H1, IH.
  - reflexivity.
  - destruct avail; cbn in *; lia.
Qed.

Theorem encode_short nasties flush unread k d o : k < length (bs_text nasties d) ->
  bs_encode nasties flush unread (Some k) d = Ok o ->
  0 < bs_rewound o <= unread /\ bs_ret o = negb flush.
Proof.
  revert k o. induction d as [|c d IH]; intros k o H E; [cbn in H; lia|].
  rewrite encode_step in E. cbv zeta in E. unfold bs_text in *. cbn [flat_map] in *. rewrite app_length in H.
  cbn [fits minus_room] in E. destruct (Nat.leb_spec (length (bs_esc nasties c)) k).
  - unfold bs_emit in E. destruct (bs_encode _ _ _ _ d) as [r| |] eqn:E1; try discriminate.
    cbn in E. inversion E; subst. cbn. eapply IH; [|exact E1]. lia.
  - destruct (Nat.leb_spec (S (length d)) unread); [|discriminate]. inversion E; subst. cbn. lia.
Qed.

Theorem encode_short_fresh nasties flush k d : k < length (bs_text nasties d) ->
  bs_encode nasties flush 0 (Some k) d = Fault.
Proof.
  revert k. induction d as [|c d IH]; intros k H; [cbn in H; lia|].
  rewrite encode_step. cbv zeta. unfold bs_text in *. cbn [flat_map] in *. rewrite app_length in H.
  cbn [fits minus_room]. destruct (Nat.leb_spec (length (bs_esc nasties c)) k).
  - rewrite IH by lia. reflexivity.
  - reflexivity.
Qed.

Lemma bs_text_app n a b : bs_text n (a ++ b) = bs_text n a ++ bs_text n b.
Proof. apply flat_map_app. Qed.

Theorem encoder_feed nasties calls :
  exists s bs, feed (BackslashEncoder nasties) (est_init _) [] calls
    = Ok (s, [], bs_text nasties (fed calls), bs).
Proof.
  destruct (feed_run (BackslashEncoder nasties) (fun _ l => Some (tt, bs_text nasties l)))
    with (calls := calls) (s := tt) (s' := tt) (out := bs_text nasties (fed calls)) as (bs & H).
  - intros s inp flush s' out E. cbn. rewrite encode_fits by reflexivity. cbn.
    inversion E; subst. eauto.
  - intros []; reflexivity.
  - intros s a b s' out E. inversion E; subst. eexists tt, _, _.
    split; [reflexivity|]. split; [reflexivity|]. apply bs_text_app.
  - reflexivity.
  - eauto.
Qed.

(** ** Decoder *)
Definition dchar (s : bdec) (c : byte) (free : option nat) : res (bdec * option nat * bytes) :=
  let! (s, back) := bs_switch s c in
  let! (s, free, out, _) := flushtmpbuf s free in
  if back then
    let! (s, back2) := bs_switch s c in
    let! (s, free, out2, _) := flushtmpbuf s free in
    if back2 then Fault else Ok (s, free, out ++ out2)
  else Ok (s, free, out).

Fixpoint drun (s : bdec) (free : option nat) (l : bytes) : res (bdec * option nat * bytes) :=
  match l with
  | [] => Ok (s, free, [])
  | c :: r => let! (s, free, o) := dchar s c free in
              let! (s, free, o2) := drun s free r in
              Ok (s, free, o ++ o2)
  end.

Lemma drun_app a : forall s free b,
  drun s free (a ++ b) =
  let! (s1, f1, o1) := drun s free a in
  let! (s2, f2, o2) := drun s1 f1 b in Ok (s2, f2, o1 ++ o2).
Proof.
  induction a as [|c a IH]; intros s free b; cbn [drun app bind].
  - destruct (drun s free b) as [[[s2 f2] o2]| |]; reflexivity.
  - destruct (dchar s c free) as [[[s1 f1] o1]| |]; cbn [bind]; try reflexivity.
    rewrite IH. destruct (drun s1 f1 a) as [[[s2 f2] o2]| |]; cbn [bind]; try reflexivity.
    destruct (drun s2 f2 b) as [[[s3 f3] o3]| |]; cbn [bind]; try reflexivity.
    rewrite app_assoc. reflexivity.
Qed.

Lemma minus_minus f a b : minus_room (minus_room f a) b = minus_room f (a + b).
Proof. destruct f; cbn; [f_equal; lia|reflexivity]. Qed.
Lemma minus_zero f : minus_room f 0 = f.
Proof. destruct f; cbn; [f_equal; lia|reflexivity]. Qed.

Lemma flush_free s free s' free' out ok : flushtmpbuf s free = Ok (s', free', out, ok) ->
  free' = minus_room free (length out).
Proof.
  unfold flushtmpbuf. destruct (b_state s);
    try (intros H; inversion H; subst; cbn; rewrite minus_zero; reflexivity).
  destruct (match b_value s with Some _ => _ | None => _ end) as [s1| |]; cbn [bind]; try discriminate.
  destruct (length (t_data s1) =? 0).
  { intros H; inversion H; subst. cbn. rewrite minus_zero. reflexivity. }
  assert (Hl : length (firstn (match free with Some f => min f (length (t_data s1)) | None => length (t_data s1) end) (t_data s1))
     = match free with Some f => min f (length (t_data s1)) | None => length (t_data s1) end).
  { rewrite firstn_length. destruct free; lia. }
  destruct (_ =? 0); intros H; inversion H; subst; rewrite Hl; reflexivity.
Qed.

Lemma dchar_free s c free s' free' out : dchar s c free = Ok (s', free', out) ->
  free' = minus_room free (length out).
Proof.
  unfold dchar. destruct (bs_switch s c) as [[s1 back]| |]; cbn [bind]; try discriminate.
  destruct (flushtmpbuf s1 free) as [[[[s2 f2] o2] k2]| |] eqn:E2; cbn [bind]; try discriminate.
  apply flush_free in E2. destruct back.
  - destruct (bs_switch s2 c) as [[s3 back2]| |]; cbn [bind]; try discriminate.
    destruct (flushtmpbuf s3 f2) as [[[[s4 f4] o4] k4]| |] eqn:E4; cbn [bind]; try discriminate.
    apply flush_free in E4. destruct back2; [discriminate|]. intros H; inversion H; subst.
    rewrite minus_minus, app_length. reflexivity.
  - intros H; inversion H; subst. reflexivity.
Qed.

Lemma drun_free l : forall s free s' free' out, drun s free l = Ok (s', free', out) ->
  free' = minus_room free (length out).
Proof.
  induction l as [|c l IH]; intros s free s' free' out H; cbn [drun] in H.
  - inversion H; subst. cbn. rewrite minus_zero. reflexivity.
  - destruct (dchar s c free) as [[[s1 f1] o1]| |] eqn:E1; cbn [bind] in H; try discriminate.
    destruct (drun s1 f1 l) as [[[s2 f2] o2]| |] eqn:E2; cbn [bind] in H; try discriminate.
    inversion H; subst. apply dchar_free in E1. apply IH in E2. subst.
    rewrite minus_minus, app_length. reflexivity.
Qed.

(** The room is never exhausted. *)
Definition enough (free : option nat) (n : nat) : Prop :=
  match free with None => True | Some f => n < f end.

Lemma enough_no_room free n : enough free n -> no_room (minus_room free n) = false.
Proof.
  destruct free as [f|]; cbn; [|reflexivity]. intros H. destruct (f - n) eqn:E; [lia|reflexivity].
Qed.
Lemma enough_le free n k : k <= n -> enough free n -> enough free k.
Proof. destruct free; cbn; [lia|auto]. Qed.

Lemma nth_skipn {A} (l : list A) : forall p x r, skipn p l = x :: r ->
  nth_error l p = Some x /\ skipn (S p) l = r.
Proof.
  induction l as [|y l IH]; intros p x r H.
  - rewrite skipn_nil in H. discriminate.
  - destruct p as [|p]; cbn in *; [inversion H; auto|]. apply IH. exact H.
Qed.
Lemma nth_skipn_nil {A} (l : list A) : forall p, skipn p l = [] -> nth_error l p = None.
Proof.
  induction l as [|y l IH]; intros p H; destruct p; cbn in *; try reflexivity; try discriminate.
  apply IH. exact H.
Qed.

Lemma loop_run data l : forall fuel s free p s' free' out,
  skipn p data = l -> 2 * length l < fuel ->
  drun s free l = Ok (s', free', out) -> enough free (length out) ->
  bs_loop fuel data s free p = Ok (s', free', out).
Proof.
  induction l as [|c l IH]; intros fuel s free p s' free' out Hp Hf Hr He;
    (destruct fuel as [|fuel]; [cbn in Hf; lia|]); cbn [bs_loop].
  - rewrite (nth_skipn_nil _ _ Hp). inversion Hr; subst. reflexivity.
  - destruct (nth_skipn _ _ _ _ Hp) as [Hn Hp']. rewrite Hn. cbn [drun] in Hr. cbn [length] in Hf.
    destruct (dchar s c free) as [[[s1 f1] o1]| |] eqn:E1; cbn [bind] in Hr; try discriminate.
    destruct (drun s1 f1 l) as [[[s2 f2] o2]| |] eqn:E2; cbn [bind] in Hr; try discriminate.
    inversion Hr; subst. rewrite app_length in He.
    pose proof (dchar_free _ _ _ _ _ _ E1) as Hf1. subst f1.
    unfold dchar in E1. destruct (bs_switch s c) as [[sa back]| |]; cbn [bind] in *; try discriminate.
    destruct (flushtmpbuf sa free) as [[[[sb fb] ob] kb]| |] eqn:Eb; cbn [bind] in *; try discriminate.
    pose proof (flush_free _ _ _ _ _ _ Eb) as Hfb. destruct back.
    + destruct (bs_switch sb c) as [[sc back2]| |] eqn:Esc; cbn [bind] in *; try discriminate.
      destruct (flushtmpbuf sc fb) as [[[[sd fd] od] kd]| |] eqn:Ed; cbn [bind] in *; try discriminate.
      pose proof (flush_free _ _ _ _ _ _ Ed) as Hfd.
      destruct back2; [discriminate|]. inversion E1; subst. rewrite app_length in He.
      rewrite enough_no_room by (eapply enough_le; [|exact He]; lia). cbn [bind].
      destruct fuel as [|fuel]; [lia|]. cbn [bs_loop]. rewrite Hn, Esc. cbn [bind]. rewrite Ed. cbn [bind].
      rewrite minus_minus. rewrite enough_no_room by (eapply enough_le; [|exact He]; lia). cbn [bind].
      rewrite (IH fuel s1 (minus_room free (length ob + length od)) (S p) s' free' o2); auto; [|lia| |].
      * cbn [bind]. rewrite app_assoc. reflexivity.
      * rewrite <- E2. f_equal. rewrite app_length. reflexivity.
      * destruct free; cbn in *; lia.
    + inversion E1; subst.
      rewrite enough_no_room by (eapply enough_le; [|exact He]; lia). cbn [bind].
      rewrite (IH fuel s1 (minus_room free (length o1)) (S p) s' free' o2); auto; [lia|].
      destruct free; cbn in *; lia.
Qed.

(** ** Decoding one escape *)
Definition D0 := bdec_reset.

Lemma flush_initial v t free : length t + (match v with Some _ => 1 | None => 0 end) <= 4 ->
  enough free (length t + (match v with Some _ => 1 | None => 0 end) - 1) ->
  0 < length t + (match v with Some _ => 1 | None => 0 end) ->
  let o := t ++ match v with Some v => [ascii_of_nat (v mod 256)] | None => [] end in
  flushtmpbuf (BDec Initial v 0 t) free = Ok (D0, minus_room free (length o), o, true).
Proof.
  intros H1 H2 H3. cbv zeta. unfold flushtmpbuf. cbn [b_state b_value].
  assert (Hmain : forall t', 0 < length t' -> enough free (length t' - 1) ->
    (let len := length (t_data (BDec Initial None 0 t')) in
      if len =? 0 then Ok (BDec Initial None 0 t', free, [], true) else
      let avail := match free with None => len | Some f => min f len end in
      let out := firstn avail (t_data (BDec Initial None 0 t')) in
      if len - avail =? 0 then Ok (BDec (b_state (BDec Initial None 0 t')) (b_value (BDec Initial None 0 t')) 0 [], minus_room free avail, out, true)
      else Ok (BDec (b_state (BDec Initial None 0 t')) (b_value (BDec Initial None 0 t')) (t_read (BDec Initial None 0 t') + avail) (skipn avail (t_data (BDec Initial None 0 t'))),
               minus_room free avail, out, false)) = Ok (D0, minus_room free (length t'), t', true)).
  { intros t' Hp He. cbv zeta. cbn [t_data t_read b_state b_value].
    destruct (Nat.eqb_spec (length t') 0); [lia|].
    replace (match free with Some f => min f (length t') | None => length t' end) with (length t')
      by (destruct free; cbn in He; lia).
    rewrite Nat.sub_diag, firstn_all. reflexivity. }
  destruct v as [v|].
  - unfold tput. cbn [t_read t_data b_state b_value].
    destruct (Nat.ltb_spec (0 + length t) 4); [|lia]. cbn [bind t_read t_data b_state b_value].
    apply Hmain; rewrite app_length; cbn [length]; [lia|].
    eapply enough_le; [|exact H2]. lia.
  - cbn [bind]. rewrite app_nil_r. apply Hmain; [lia|]. eapply enough_le; [|exact H2]. lia.
Qed.

(** A plain character. *)
Lemma dec_plain c free : c <> "\"%char -> enough free 0 ->
  drun D0 free [c] = Ok (D0, minus_room free 1, [c]).
Proof.
  intros Hc He. cbn [drun]. unfold dchar, D0, bdec_reset, bs_switch. cbn [b_state].
  destruct (Ascii.eqb_spec c "\"); [congruence|]. unfold tput. cbn [t_read t_data length Nat.add Nat.ltb Nat.leb bind b_state b_value app].
  rewrite (flush_initial None [c] free) by (cbn; (lia || assumption)).
  cbn. reflexivity.
Qed.

Lemma dec_bs free : dchar D0 "\"%char free = Ok (BDec Escape None 0 ["\"%char], free, []).
Proof. reflexivity. Qed.

Lemma dec_two c x free : enough free 0 ->
  bs_switch (BDec Escape None 0 ["\"%char]) c = Ok (BDec Initial None 0 [x], false) ->
  drun D0 free ["\"%char; c] = Ok (D0, minus_room free 1, [x]).
Proof.
  intros He E. cbn [drun]. rewrite dec_bs. cbn [bind]. unfold dchar. rewrite E. cbn [bind].
  rewrite (flush_initial None [x] free) by (cbn; (lia || assumption)). cbn. reflexivity.
Qed.

Lemma dec_hex a b i j free : enough free 0 -> fromhex a = Some i -> fromhex b = Some j ->
  drun D0 free ["\"%char; "x"%char; a; b] = Ok (D0, minus_room free 1, [ascii_of_nat ((i * 16 + j) mod 256)]).
Proof.
  intros He Ea Eb. cbn [drun]. rewrite dec_bs. cbn [bind].
  assert (H1 : dchar (BDec Escape None 0 ["\"%char]) "x"%char free = Ok (BDec Hex1 None 0 ["\"; "x"]%char, free, [])) by reflexivity.
  rewrite H1. cbn [bind].
  assert (H2 : dchar (BDec Hex1 None 0 ["\"; "x"]%char) a free = Ok (BDec Hex2 (Some i) 0 [], free, [])).
  { unfold dchar, bs_switch. cbn [b_state]. rewrite Ea. reflexivity. }
  rewrite H2. cbn [bind]. unfold dchar, bs_switch. cbn [b_state]. rewrite Eb.
  cbn [bind b_value].
  change (set_state (set_value (BDec Hex2 (Some i) 0 []) (i * 16 + j)) Initial)
    with (BDec Initial (Some (i * 16 + j)) 0 []).
  rewrite (flush_initial (Some (i * 16 + j)) [] free) by (cbn; (lia || assumption)).
  cbn [app bind length]. reflexivity.
Qed.

(** What happens to a character after a backslash, for non-nasty escapes. *)
Lemma named_switch : forallb (fun p => match bs_switch (BDec Escape None 0 ["\"%char]) (snd p) with
    | Ok (BDec Initial None 0 [x], false) => Ascii.eqb x (ascii_of_nat (fst p)) | _ => false end) named = true.
Proof. vm_compute. reflexivity. Qed.

Lemma nasty_switch c : ~ In c (B "0123xabfnrtv") -> c <> nul ->
  bs_switch (BDec Escape None 0 ["\"%char]) c = Ok (BDec Initial None 0 [c], false).
Proof.
  intros H Hn.
  assert (S : forall c, existsb (Ascii.eqb c) (nul :: B "0123xabfnrtv") ||
     match bs_switch (BDec Escape None 0 ["\"%char]) c with
     | Ok (BDec Initial None 0 [x], false) => Ascii.eqb x c | _ => false end = true)
    by (apply byte_sweep; vm_compute; reflexivity).
  specialize (S c). apply orb_true_iff in S. destruct S as [S|S].
  - exfalso. apply existsb_exists in S. destruct S as (x & Hx & E). apply Ascii.eqb_eq in E. subst x.
    destruct Hx as [Hx|Hx]; [congruence|]. exact (H Hx).
  - destruct (bs_switch _ c) as [[[k v t l] b]| |]; try discriminate.
    destruct k; try discriminate. destruct v; try discriminate. destruct t; try discriminate.
    destruct l as [|x [|? ?]]; try discriminate. destruct b; try discriminate.
    apply Ascii.eqb_eq in S. subst. reflexivity.
Qed.

Lemma hex_pair c : exists i j, fromhex (lhex (nat_of_ascii c / 16)) = Some i /\
  fromhex (lhex (nat_of_ascii c mod 16)) = Some j /\ ascii_of_nat ((i * 16 + j) mod 256) = c.
Proof.
  assert (S : forall c, match fromhex (lhex (nat_of_ascii c / 16)), fromhex (lhex (nat_of_ascii c mod 16)) with
     | Some i, Some j => Ascii.eqb (ascii_of_nat ((i * 16 + j) mod 256)) c | _, _ => false end = true)
    by (apply byte_sweep; vm_compute; reflexivity).
  specialize (S c). destruct (fromhex _) as [i|]; [|discriminate]. destruct (fromhex _) as [j|]; [|discriminate].
  apply Ascii.eqb_eq in S. eauto.
Qed.

Lemma dec_esc nasties c free : decodable nasties -> enough free 0 ->
  drun D0 free (bs_esc nasties c) = Ok (D0, minus_room free 1, [c]).
Proof.
  intros [Hbs Hno] He. unfold bs_esc.
  destruct (existsb (Ascii.eqb c) nasties) eqn:En; cbn [andb].
  - assert (Hin : In c nasties).
    { apply existsb_exists in En. destruct En as (x & Hx & E). apply Ascii.eqb_eq in E. subst. exact Hx. }
    destruct (Nat.eqb_spec (nat_of_ascii c) 0) as [Hz|Hz]; cbn [negb].
    + assert (c = nul) by (rewrite <- (ascii_nat_embedding c), Hz; reflexivity). subst c.
      change (find (fun p : nat * ascii => fst p =? nat_of_ascii nul) named) with (@None (nat * ascii)).
      cbv iota.
      destruct (hex_pair nul) as (i & j & Hi & Hj & Hc).
      change ((32 <=? nat_of_ascii nul) && (nat_of_ascii nul <=? 126)) with false. cbv iota.
      rewrite (dec_hex _ _ i j) by assumption. rewrite Hc. reflexivity.
    + apply dec_two; [assumption|]. apply nasty_switch; [apply Hno; assumption|].
      intros ->. apply Hz. reflexivity.
  - destruct (find _ named) as [[n l]|] eqn:Ef.
    + apply find_some in Ef. destruct Ef as [Hin Heq]. cbn in Heq. apply Nat.eqb_eq in Heq. subst n.
      pose proof named_switch as Hs. rewrite forallb_forall in Hs. specialize (Hs _ Hin). cbn [fst snd] in Hs.
      apply dec_two; [assumption|].
      destruct (bs_switch _ l) as [[[k v t d] b]| |]; try discriminate.
      destruct k; try discriminate. destruct v; try discriminate. destruct t; try discriminate.
      destruct d as [|x [|? ?]]; try discriminate. destruct b; try discriminate.
      apply Ascii.eqb_eq in Hs. rewrite ascii_nat_embedding in Hs. subst. reflexivity.
    + destruct (_ && _).
      * apply dec_plain; [|assumption]. intros ->.
        assert (existsb (Ascii.eqb "\") nasties = true); [|congruence].
        apply existsb_exists. exists "\"%char. split; [assumption|reflexivity].
      * destruct (hex_pair c) as (i & j & Hi & Hj & Hc).
        rewrite (dec_hex _ _ i j) by assumption. rewrite Hc. reflexivity.
Qed.

Lemma dec_text nasties d : decodable nasties -> forall free, enough free (length d) ->
  drun D0 free (bs_text nasties d) = Ok (D0, minus_room free (length d), d).
Proof.
  intros Hd. induction d as [|c d IH]; intros free He.
  - cbn. rewrite minus_zero. reflexivity.
  - unfold bs_text. cbn [flat_map]. rewrite drun_app. rewrite dec_esc; [|assumption|eapply enough_le; [|exact He]; cbn; lia].
    cbn [bind]. fold (bs_text nasties d). cbn [length] in *. rewrite IH by (destruct free; cbn in *; lia).
    cbn [bind app]. rewrite minus_minus. reflexivity.
Qed.

(** ** Decoder calls *)
Definition quiet (s : bdec) : Prop := forall free, flushtmpbuf s free = Ok (s, free, [], true).

Lemma quiet_D0 : quiet D0. Proof. intros free. reflexivity. Qed.
Lemma quiet_not_initial s : b_state s <> Initial -> quiet s.
Proof. intros H free. unfold flushtmpbuf. destruct (b_state s); congruence. Qed.

Lemma flush_quiet s s' free o ok : flushtmpbuf s None = Ok (s', free, o, ok) ->
  quiet s' /\ ok = true.
Proof.
  unfold flushtmpbuf at 1. destruct (b_state s) eqn:Es;
    try (intros H; inversion H; subst; split; [apply quiet_not_initial; congruence|reflexivity]).
  intros H. 
  destruct (match b_value s with Some v => _ | None => _ end) as [s1| |] eqn:Ev; cbn [bind] in H; try discriminate.
  assert (b_state s1 = Initial /\ b_value s1 = None) as [Hs1 Hv1].
  { destruct (b_value s) as [v|] eqn:Eb.
    - unfold tput in Ev. destruct (_ <? _); cbn in Ev; [|discriminate]. inversion Ev; subst. cbn. auto.
    - inversion Ev; subst. auto. }
  destruct (Nat.eqb_spec (length (t_data s1)) 0) as [Hz|Hz].
  - inversion H; subst. split; [|reflexivity]. intros f. unfold flushtmpbuf. rewrite Hs1, Hv1. cbn [bind].
    rewrite Hz. reflexivity.
  - rewrite Nat.sub_diag in H. cbn [Nat.eqb] in H. inversion H; subst. rewrite Hs1, Hv1. split; [|reflexivity].
    intros f. reflexivity.
Qed.

Lemma dchar_quiet s c s' free o : dchar s c None = Ok (s', free, o) -> quiet s'.
Proof.
  unfold dchar. destruct (bs_switch s c) as [[s1 back]| |]; cbn [bind]; try discriminate.
  destruct (flushtmpbuf s1 None) as [[[[s2 f2] o2] k2]| |] eqn:E2; cbn [bind]; try discriminate.
  pose proof (flush_free _ _ _ _ _ _ E2). cbn in H. subst f2. destruct back.
  - destruct (bs_switch s2 c) as [[s3 back2]| |]; cbn [bind]; try discriminate.
    destruct (flushtmpbuf s3 None) as [[[[s4 f4] o4] k4]| |] eqn:E4; cbn [bind]; try discriminate.
    destruct back2; [discriminate|]. intros H; inversion H; subst. eapply flush_quiet; eassumption.
  - intros H; inversion H; subst. eapply flush_quiet; eassumption.
Qed.

Lemma drun_quiet l : forall s s' free o, quiet s -> drun s None l = Ok (s', free, o) -> quiet s'.
Proof.
  induction l as [|c l IH]; intros s s' free o Hq H; cbn [drun] in H.
  - inversion H; subst. assumption.
  - destruct (dchar s c None) as [[[s1 f1] o1]| |] eqn:E1; cbn [bind] in H; try discriminate.
    destruct (drun s1 f1 l) as [[[s2 f2] o2]| |] eqn:E2; cbn [bind] in H; try discriminate.
    inversion H; subst. pose proof (dchar_free _ _ _ _ _ _ E1) as Hf. cbn in Hf. subst f1.
    eapply IH; [|eassumption]. eapply dchar_quiet; eassumption.
Qed.

Lemma decode_call s inp s' f o : quiet s -> drun s None inp = Ok (s', f, o) ->
  bs_decode s inp None false = Ok (s', None, [], o, true).
Proof.
  intros Hq H. unfold bs_decode. cbn [no_room]. rewrite Hq. cbn [bind negb].
  pose proof (drun_free _ _ _ _ _ _ H) as Hf. cbn in Hf. subst f.
  rewrite (loop_run inp inp _ s None 0 s' None o); auto.
  - unfold loop_fuel. lia.
  - exact I.
Qed.

Lemma decoder_feed_gen calls : Forall (fun c => snd c = false) calls -> forall s s' f out,
  quiet s -> drun s None (fed calls) = Ok (s', f, out) ->
  exists bs, feed BackslashDecoder (@Est BackslashDecoder true false s) [] calls
    = Ok (@Est BackslashDecoder true false s', [], out, bs).
Proof.
  induction 1 as [|[c fl] calls Hfl HF IH]; intros s s' f out Hq H.
  - inversion H; subst. cbn. eauto.
  - cbn in Hfl. subst fl. change (fed ((c, false) :: calls)) with (c ++ fed calls) in H.
    rewrite drun_app in H.
    destruct (drun s None c) as [[[s1 f1] o1]| |] eqn:E1; cbn [bind] in H; try discriminate.
    destruct (drun s1 f1 (fed calls)) as [[[s2 f2] o2]| |] eqn:E2; cbn [bind] in H; try discriminate.
    inversion H; subst. pose proof (drun_free _ _ _ _ _ _ E1) as Hf. cbn in Hf. subst f1.
    destruct (IH s1 s' f o2) as (bs & Hfeed).
    { eapply drun_quiet; eassumption. }
    { assumption. }
    cbn [feed app]. unfold enc_do_encode. cbn [okay finished st negb andb].
    destruct c as [|x c].
    + cbn [negb orb bind]. inversion E1; subst. rewrite Hfeed. cbn. eauto.
    + cbn [negb orb]. cbn [BackslashDecoder enc_encode].
      rewrite (decode_call _ _ _ _ _ Hq E1). cbn [bind o_st o_rest o_out o_ret o_err o_fin negb andb orb].
      rewrite Hfeed. cbn. eauto.
Qed.

Theorem decoder_feed nasties calls d : decodable nasties ->
  Forall (fun c => snd c = false) calls -> fed calls = bs_text nasties d ->
  exists bs, feed BackslashDecoder (est_init _) [] calls = Ok (est_init _, [], d, bs).
Proof.
  intros Hd Hc Hf. destruct (decoder_feed_gen calls Hc D0 D0 None d quiet_D0) as (bs & H).
  - rewrite Hf. exact (dec_text nasties d Hd None I).
  - exists bs. exact H.
Qed.

(** One call into a buffer with room to spare. *)
Theorem decode_room nasties d f flush : decodable nasties -> length d < f ->
  bs_decode bdec_reset (bs_text nasties d) (Some f) flush =
    Ok (bdec_reset, Some (f - length d), [], d, true).
Proof.
  intros Hd Hf. unfold bs_decode.
  replace (no_room (Some f)) with false by (destruct f; [lia|reflexivity]).
  change (flushtmpbuf bdec_reset (Some f)) with (Ok (bdec_reset, Some f, @nil ascii, true)).
  cbn [bind negb].
  rewrite (loop_run (bs_text nasties d) (bs_text nasties d) _ bdec_reset (Some f) 0 bdec_reset (Some (f - length d)) d).
  - cbn [bind app]. destruct flush; [|reflexivity]. cbn. rewrite app_nil_r. reflexivity.
  - reflexivity.
  - unfold loop_fuel. lia.
  - exact (dec_text nasties d Hd (Some f) Hf).
  - exact Hf.
Qed.

(** ** The documented escapes *)
Lemma fromoctal_in a x : In (a, x) (combine (seq 0 8) (B "01234567")) -> fromoctal x = Some a.
Proof.
  cbn [seq combine B list_ascii_of_string In]. intros H.
  repeat (destruct H as [H|H]; [inversion H; subst; vm_compute; reflexivity|]). destruct H.
Qed.
Lemma fromhex_in a x : In (a, x) (combine (seq 0 16 ++ seq 10 6) (B "0123456789abcdefABCDEF")) ->
  fromhex x = Some a /\ a < 16.
Proof.
  cbn [seq combine B list_ascii_of_string In app]. intros H.
  repeat (destruct H as [H|H]; [inversion H; subst; split; [vm_compute; reflexivity|lia]|]). destruct H.
Qed.

Lemma dec_octal x y z a b c free : enough free 0 ->
  fromoctal x = Some a -> fromoctal y = Some b -> fromoctal z = Some c ->
  drun D0 free ["\"%char; "0"%char; x; y; z] =
    Ok (D0, minus_room free 1, [ascii_of_nat ((a * 64 + b * 8 + c) mod 256)]).
Proof.
  intros He Ea Eb Ec. cbn [drun]. rewrite dec_bs. cbn [bind].
  assert (H1 : dchar (BDec Escape None 0 ["\"%char]) "0"%char free = Ok (BDec Octal1 (Some 0) 0 [], free, [])) by reflexivity.
  rewrite H1. cbn [bind].
  assert (H2 : dchar (BDec Octal1 (Some 0) 0 []) x free = Ok (BDec Octal2 (Some a) 0 [], free, [])).
  { unfold dchar, bs_switch. cbn [b_state]. rewrite Ea. reflexivity. }
  rewrite H2. cbn [bind].
  assert (H3 : dchar (BDec Octal2 (Some a) 0 []) y free = Ok (BDec Octal3 (Some (a * 8 + b)) 0 [], free, [])).
  { unfold dchar, bs_switch. cbn [b_state]. rewrite Eb. reflexivity. }
  rewrite H3. cbn [bind]. unfold dchar, bs_switch. cbn [b_state]. rewrite Ec.
  cbn [bind b_value].
  match goal with |- context [flushtmpbuf ?s free] =>
    change s with (BDec Initial (Some ((a * 8 + b) * 8 + c)) 0 []) end.
  rewrite (flush_initial (Some ((a * 8 + b) * 8 + c)) [] free) by (cbn; (lia || assumption)).
  cbn [app bind length]. replace ((a * 8 + b) * 8 + c) with (a * 64 + b * 8 + c) by lia. reflexivity.
Qed.

Lemma dec_token t c free : doc_token t c -> enough free 0 -> drun D0 free t = Ok (D0, minus_room free 1, [c]).
Proof.
  intros H He. destruct H as [c Hc|n l Hin|x y z a b c Ha Hb Hc|x y a b Ha Hb|c Hno Hn].
  - apply dec_plain; assumption.
  - apply dec_two; [assumption|].
    pose proof named_switch as Hs. rewrite forallb_forall in Hs. specialize (Hs _ Hin). cbn [fst snd] in Hs.
    destruct (bs_switch _ l) as [[[k v t d] b]| |]; try discriminate.
    destruct k; try discriminate. destruct v; try discriminate. destruct t; try discriminate.
    destruct d as [|x [|? ?]]; try discriminate. destruct b; try discriminate.
    apply Ascii.eqb_eq in Hs. subst. reflexivity.
  - apply dec_octal; [assumption| | |]; apply fromoctal_in; assumption.
  - apply fromhex_in in Ha, Hb. destruct Ha as [Ha La], Hb as [Hb Lb].
    rewrite (dec_hex _ _ a b) by assumption. rewrite Nat.mod_small by lia. reflexivity.
  - apply dec_two; [assumption|]. apply nasty_switch; assumption.
Qed.

Lemma dec_doc t d : doc_text t d -> forall free, enough free (length d) ->
  drun D0 free t = Ok (D0, minus_room free (length d), d).
Proof.
  induction 1 as [|t c l d Ht Hl IH]; intros free He.
  - cbn. rewrite minus_zero. reflexivity.
  - rewrite drun_app. rewrite (dec_token t c); [|assumption|eapply enough_le; [|exact He]; cbn; lia].
    cbn [bind length] in *. rewrite IH by (destruct free; cbn in *; lia).
    cbn [bind app]. rewrite minus_minus. reflexivity.
Qed.

Theorem decoder_doc calls d : Forall (fun c => snd c = false) calls -> doc_text (fed calls) d ->
  exists bs, feed BackslashDecoder (est_init _) [] calls = Ok (est_init _, [], d, bs).
Proof.
  intros Hc Hf. destruct (decoder_feed_gen calls Hc D0 D0 None d quiet_D0) as (bs & H).
  - exact (dec_doc _ d Hf None I).
  - exists bs. exact H.
Qed.
