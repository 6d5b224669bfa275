From Coq Require Import ZifyBool ZifyNat ZifyN.
From Verif Require Import Base BaseFacts Ctype UrlModel UrlSpec.

Definition enc1 (u : option bytes) (c : byte) : bytes := if url_safe u c then [c] else pct c.

Lemma pct_spec c : exists a b i j, pct c = ["%"%char; a; b] /\
  In a upper_hex /\ In b upper_hex /\ isspace b = false /\
  strchr hexdigits (toupper a) = Some i /\ strchr hexdigits (toupper b) = Some j /\
  ascii_of_nat ((i * 16 + j) mod 256) = c.
Proof.
  assert (H : forallb (fun c =>
      let a := nth (cc c / 16) hexdigits nul in let b := nth (cc c mod 16) hexdigits nul in
      existsb (Ascii.eqb a) upper_hex && existsb (Ascii.eqb b) upper_hex && negb (isspace b) &&
      match strchr hexdigits (toupper a), strchr hexdigits (toupper b) with
      | Some i, Some j => Ascii.eqb (ascii_of_nat ((i * 16 + j) mod 256)) c
      | _, _ => false end) all_bytes = true) by (vm_compute; reflexivity).
  pose proof (byte_sweep _ H c) as Hc. cbv beta zeta in Hc. unfold pct.
  set (a := nth (cc c / 16) hexdigits nul) in *. set (b := nth (cc c mod 16) hexdigits nul) in *.
  rewrite !andb_true_iff, !existsb_exists in Hc.
  destruct Hc as [[[(x & Hx & Ex) (y & Hy & Ey)] Hs] Hm].
  apply Ascii.eqb_eq in Ex, Ey. subst x y.
  destruct (strchr hexdigits (toupper a)) as [i|] eqn:Ea; [|discriminate].
  destruct (strchr hexdigits (toupper b)) as [j|] eqn:Eb; [|discriminate].
  apply Ascii.eqb_eq in Hm. exists a, b, i, j.
  repeat split; try assumption; try reflexivity. apply negb_true_iff in Hs. exact Hs.
Qed.

Definition plus_ok (u : option bytes) (no_space : bool) : Prop :=
  no_space = true \/ url_safe u "+" = false.
Definition space_ok (u : option bytes) : Prop := forall c, isspace c = true -> url_safe u c = false.

Lemma loop_enc u no_space s : plus_ok u no_space -> forall fuel,
  length (flat_map (enc1 u) s) < fuel ->
  url_decode_loop fuel no_space (flat_map (enc1 u) s) = Ok s.
Proof.
  intros Hp. induction s as [|c s IH]; intros fuel Hf; (destruct fuel as [|fuel]; [lia|]).
  - reflexivity.
  - cbn [flat_map] in *. unfold enc1 at 1. unfold enc1 at 1 in Hf.
    destruct (url_safe u c) eqn:Es.
    + cbn [app length] in *. cbn [url_decode_loop].
      assert (E1 : Ascii.eqb c "+" && negb no_space = false).
      { destruct (Ascii.eqb_spec c "+"); [|reflexivity]. subst. destruct Hp; [subst; reflexivity|congruence]. }
      rewrite E1.
      assert (E2 : Ascii.eqb c "%" = false).
      { unfold url_safe in Es. apply andb_true_iff in Es. destruct Es as [_ Es]. apply negb_true_iff in Es. exact Es. }
      rewrite E2. rewrite IH by lia. reflexivity.
    + destruct (pct_spec c) as (a & b & i & j & E & _ & _ & _ & Hi & Hj & Hc).
      rewrite E in *. cbn [app length] in *. cbn [url_decode_loop].
      change (Ascii.eqb "%" "+" && negb no_space) with false. cbv iota.
      change (Ascii.eqb "%" "%") with true. cbv iota.
      rewrite IH by lia. cbn [bind]. rewrite Hi, Hj, Hc. reflexivity.
Qed.

Lemma enc_no_space u s c : space_ok u -> In c (flat_map (enc1 u) s) -> isspace c = false.
Proof.
  intros Hsp Hin. apply in_flat_map in Hin. destruct Hin as (x & _ & Hin). unfold enc1 in Hin.
  destruct (url_safe u x) eqn:E.
  - destruct Hin as [<-|[]]. destruct (isspace x) eqn:E2; [|reflexivity].
    rewrite (Hsp x E2) in E. discriminate.
  - destruct (pct_spec x) as (a & b & i & j & Ep & Ha & Hb & Hbs & _). rewrite Ep in Hin.
    assert (Hh : forall y, In y upper_hex -> isspace y = false).
    { unfold upper_hex. cbn [In B list_ascii_of_string]. intros y Hy.
      repeat (destruct Hy as [<-|Hy]; [reflexivity|]). destruct Hy. }
    cbn in Hin. destruct Hin as [<-|[<-|[<-|[]]]]; [reflexivity| |]; apply Hh; assumption.
Qed.

Lemma drop_space_id s : (forall c, In c s -> isspace c = false) -> drop_space s = s.
Proof. destruct s as [|c s]; [reflexivity|]. intros H. cbn. rewrite H by (left; reflexivity). reflexivity. Qed.

Lemma trim_id s : (forall c, In c s -> isspace c = false) -> trim_string s = s.
Proof.
  intros H. unfold trim_string. rewrite (drop_space_id (rev s)).
  - rewrite rev_involutive. apply drop_space_id. assumption.
  - intros c Hc. apply H. apply in_rev. assumption.
Qed.

Lemma enc_length u s : length s <= length (flat_map (enc1 u) s).
Proof.
  induction s as [|c s IH]; cbn [flat_map length]; [lia|]. rewrite app_length. unfold enc1 at 1.
  destruct (url_safe u c); cbn [pct length]; lia.
Qed.

Theorem url_roundtrip_gen u no_space s : plus_ok u no_space -> space_ok u -> nul_free s ->
  url_decode (Some (url_encode (Some s) u)) no_space = Ok (Some s).
Proof.
  intros Hp Hs Hn. unfold url_decode, url_encode.
  change (fun c : ascii => if url_safe u c then [c] else pct c) with (enc1 u).
  rewrite trim_id by (intros c Hc; eapply enc_no_space; eassumption).
  rewrite loop_enc by (assumption || lia). cbn [bind].
  pose proof (enc_length u s).
  rewrite store_seq_some by (unfold setsize, calloc; rewrite repeat_length, app_length; cbn [length]; lia).
  cbn [of_opt bind firstn app]. do 2 f_equal. rewrite <- app_assoc. cbn [app].
  apply cstr_app_nul. assumption.
Qed.

Lemma default_plus u no_space : u = None \/ u = Some [] -> plus_ok u no_space.
Proof. intros [->| ->]; right; reflexivity. Qed.
Lemma default_space u : u = None \/ u = Some [] -> space_ok u.
Proof.
  intros Hu c Hc.
  assert (H : forall c, negb (isspace c) || negb (url_safe None c) = true)
    by (apply byte_sweep; vm_compute; reflexivity).
  specialize (H c). rewrite Hc in H. cbn in H. apply negb_true_iff in H.
  destruct Hu as [->| ->]; exact H.
Qed.

Theorem url_roundtrip u no_space s : u = None \/ u = Some [] -> nul_free s ->
  url_decode (Some (url_encode (Some s) u)) no_space = Ok (Some s).
Proof. intros Hu. apply url_roundtrip_gen; [apply default_plus|apply default_space]; assumption. Qed.

Lemma strchr_in u c : In c u -> strchr u c <> None.
Proof.
  induction u as [|x u IH]; [intros []|]. intros [->|H]; cbn.
  - rewrite Ascii.eqb_refl. discriminate.
  - destruct (Ascii.eqb x c); [discriminate|]. destruct (strchr u c); [discriminate|]. exact (IH H).
Qed.
Lemma unsafe_in u c : In c u -> url_safe (Some u) c = false.
Proof.
  intros H. unfold url_safe. destruct u as [|x u]; [destruct H|].
  destruct (strchr (x :: u) c) eqn:E; [reflexivity|]. exfalso. exact (strchr_in _ _ H E).
Qed.

Theorem url_roundtrip_custom u no_space s :
  (no_space = true \/ In "+"%char u) -> u <> [] ->
  (forall c, In c (B " " ++ map ascii_of_nat [9; 10; 11; 12; 13]) -> In c u) ->
  nul_free s ->
  url_decode (Some (url_encode (Some s) (Some u))) no_space = Ok (Some s).
Proof.
  intros H1 H2 H3. apply url_roundtrip_gen.
  - destruct H1; [left; assumption|right; apply unsafe_in; assumption].
  - intros c Hc. apply unsafe_in, H3.
    assert (H : forall c, negb (isspace c) || existsb (Ascii.eqb c) (B " " ++ map ascii_of_nat [9; 10; 11; 12; 13]) = true)
      by (apply byte_sweep; vm_compute; reflexivity).
    specialize (H c). rewrite Hc in H. cbn [negb orb] in H. apply existsb_exists in H.
    destruct H as (y & Hy & E). apply Ascii.eqb_eq in E. subst. exact Hy.
Qed.

Lemma safe_unreserved c : url_safe None c = true -> c = nul \/ In c unreserved.
Proof.
  assert (H : forall c, negb (url_safe None c) || Ascii.eqb c nul || existsb (Ascii.eqb c) unreserved = true)
      by (apply byte_sweep; vm_compute; reflexivity).
  specialize (H c). intros E. rewrite E in H. cbn [negb orb] in H.
  apply orb_true_iff in H. destruct H as [H|H]; [left; apply Ascii.eqb_eq; exact H|right].
  apply existsb_exists in H. destruct H as (y & Hy & Ey). apply Ascii.eqb_eq in Ey. subst. exact Hy.
Qed.

Theorem url_encode_text s : nul_free s -> url_text (url_encode (Some s) None).
Proof.
  unfold nul_free, url_encode. change (fun c : ascii => if url_safe None c then [c] else pct c) with (enc1 None).
  induction s as [|c s IH]; intros H; cbn [flat_map]; [constructor|].
  unfold enc1 at 1. destruct (url_safe None c) eqn:E.
  - cbn [app]. constructor.
    + destruct (safe_unreserved c E); [|assumption]. subst. exfalso. apply H. left. reflexivity.
    + apply IH. intros Hin. apply H. right. assumption.
  - destruct (pct_spec c) as (a & b & i & j & -> & Ha & Hb & _). cbn [app]. apply ut_pct; try assumption.
    apply IH. intros Hin. apply H. right. assumption.
Qed.

(** Any text: decoding terminates and stays in bounds. *)
Lemma loop_safe no_space fuel : forall s, length s < fuel ->
  exists o, url_decode_loop fuel no_space s = Ok o /\ length o <= length s.
Proof.
  induction fuel as [|fuel IH]; intros s Hs; [lia|]. cbn [url_decode_loop].
  destruct s as [|c r]; [exists []; auto|]. cbn [length] in Hs.
  destruct (_ && _).
  - destruct (IH r ltac:(lia)) as (o & -> & Ho). eexists; split; [reflexivity|]. cbn; lia.
  - assert (Hd : exists o, (let! o := url_decode_loop fuel no_space r in Ok (c :: o)) = Ok o /\ length o <= length (c :: r)).
    { destruct (IH r ltac:(lia)) as (o & -> & Ho). eexists; split; [reflexivity|]. cbn; lia. }
    destruct (Ascii.eqb c "%"); [|exact Hd]. destruct r as [|a [|b r']]; try exact Hd.
    cbn [length] in Hs. destruct (IH r' ltac:(lia)) as (o & -> & Ho). cbn [bind].
    destruct (strchr hexdigits (toupper a)), (strchr hexdigits (toupper b));
      eexists; (split; [reflexivity|]); cbn [length]; lia.
Qed.

Theorem url_decode_safe s no_space : exists o, url_decode s no_space = Ok o.
Proof.
  destruct s as [s|]; [|eexists; reflexivity]. unfold url_decode.
  destruct (loop_safe no_space (S (length (trim_string s))) (trim_string s) ltac:(lia)) as (o & -> & Ho).
  cbn [bind]. rewrite store_seq_some.
  - eexists. reflexivity.
  - unfold setsize, calloc. rewrite repeat_length, app_length. cbn [length]. lia.
Qed.
