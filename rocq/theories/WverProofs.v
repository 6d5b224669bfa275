(** Proofs about error objects. *)
From Verif Require Import Base BaseFacts WverSpec WverModel.
Local Open Scope Z_scope.

Definition good (cur : option error) : Prop :=
  match cur with None => True | Some (n, t) => n <> 0 /\ (n < 0 -> t <> None) /\ (forall x, t = Some x -> full x) end.
Definition shows (s : err) (cur : option error) : Prop :=
  match cur with None => errnum s = 0 /\ errstring s = None | Some (n, t) => errnum s = n /\ errstring s = t end.

Lemma given_full t : given (Some t) = true <-> full t.
Proof. unfold full. destruct t; cbn; split; congruence. Qed.
Lemma err_str_ok se n t : (n < 0 -> t <> None) -> (forall x, t = Some x -> full x) -> err_str se n t = Ok (message se n t).
Proof.
  intros N T. unfold err_str, str_error, message. destruct t as [[|c r]|].
  - exfalso. apply (T [] eq_refl). reflexivity.
  - destruct (n <? 0); reflexivity.
  - destruct (Z.ltb_spec n 0) as [L|L]; [exfalso; apply (N L); reflexivity|]. reflexivity.
Qed.
Lemma sound_str se e : sound e -> err_str se (o_num e) (o_text e) = Ok (message se (o_num e) (o_text e)).
Proof. intros (A & _ & C). apply err_str_ok; assumption. Qed.

Definition step se (o : op) (cur : option error) : option error := match (if forgets o then None else cur) with Some e => Some e | None => reports se o end.
Definition news se (o : op) (cur : option error) : list error := match (if forgets o then None else cur), reports se o with None, Some e => [e] | _, _ => [] end.

Lemma seterr_ok n t c : n <> 0 -> (n = -1 -> given t = true) -> seterr n (Err 0 t c) = Ok (Err n t (c ++ [(n, t)])).
Proof.
  intros N G. unfold seterr. cbn [errnum errstring calls]. destruct (Z.eqb_spec 0 0); [|congruence]. destruct (Z.eqb_spec n (-1)) as [E|E].
  - rewrite (G E), orb_true_r. destruct (Z.eqb_spec n 0); [congruence|reflexivity].
  - cbn [negb orb]. destruct (Z.eqb_spec n 0); [congruence|reflexivity].
Qed.
Lemma from_ok se e c : sound e -> exists s', seterr_from se e (Err 0 None c) = Ok s' /\ shows s' (some_error (o_num e) (o_text e)) /\ good (some_error (o_num e) (o_text e)) /\
  calls s' = c ++ match some_error (o_num e) (o_text e) with Some x => [x] | None => [] end.
Proof.
  intros S. pose proof (sound_str se e S) as X. destruct S as (A & Z0 & C). unfold seterr_from. cbn [errnum errstring calls]. destruct (Z.eqb_spec 0 0); [|congruence]. unfold some_error.
  destruct (Z.eqb_spec (o_num e) 0) as [N|N].
  - rewrite (Z0 N). cbn [given bind]. unfold seterr. cbn [errnum errstring calls given]. rewrite N. cbn. eexists. split; [reflexivity|]. cbn. rewrite app_nil_r. auto.
  - destruct (o_text e) as [t|] eqn:T.
    + assert (G : given (Some t) = true) by (apply given_full, C; reflexivity). rewrite G, X. cbn [bind message]. rewrite seterr_ok by auto. eexists. split; [reflexivity|]. cbn. auto 6.
    + cbn [given bind]. rewrite seterr_ok; [|exact N|intros E; exfalso; apply A; [lia|reflexivity]]. eexists. split; [reflexivity|]. cbn. split; [auto|]. split; [|reflexivity]. split; [exact N|]. split; [exact A|]. discriminate.
Qed.
Lemma call_ok se o s cur : proper o -> shows s cur -> good cur ->
  exists s', call se o s = Ok s' /\ shows s' (step se o cur) /\ good (step se o cur) /\ calls s' = calls s ++ news se o cur.
Proof.
  intros P SH GD. unfold step, news. destruct s as [n0 t0 c0].
  assert (BOTH : forall n t, n <> 0 -> full t -> cur = None -> exists s', seterr_both n t (Err n0 t0 c0) = Ok s' /\ shows s' (Some (n, Some t)) /\ good (Some (n, Some t)) /\ calls s' = c0 ++ [(n, Some t)]).
  { intros n t N T ->. cbn in SH. destruct SH as [-> ->]. unfold seterr_both. apply given_full in T. rewrite T. cbn [errnum calls]. destruct (Z.eqb_spec 0 0); [|congruence]. rewrite seterr_ok by auto. eexists. split; [reflexivity|]. cbn. apply given_full in T. split; [auto|]. split; [|reflexivity]. split; [exact N|]. split; [discriminate|]. intros x E. injection E as <-. exact T. }
  destruct cur as [[n t]|].
  - cbn in SH, GD. destruct SH as [-> ->], GD as (N & G1 & G2). assert (Nb : (n =? 0) = false) by (apply Z.eqb_neq, N).
    assert (KEEP : forall s', s' = Err n t c0 -> shows s' (Some (n, t)) /\ good (Some (n, t)) /\ calls s' = c0 ++ []) by (intros s' ->; cbn; rewrite app_nil_r; auto 6).
    destruct o as [m|u|m u|e|p e|e|]; cbn [forgets].
    + exists (Err n t c0). split; [cbn; unfold seterr; cbn; rewrite Nb; reflexivity|apply KEEP; reflexivity].
    + exists (Err n t c0). split; [|apply KEEP; reflexivity]. cbn [call]. unfold seterr_text, seterr_both. cbn in P. apply given_full in P. rewrite P. cbn [errnum]. rewrite Nb. reflexivity.
    + exists (Err n t c0). split; [|apply KEEP; reflexivity]. cbn [call]. unfold seterr_both. cbn in P. destruct P as [_ P]. apply given_full in P. rewrite P. cbn [errnum]. rewrite Nb. reflexivity.
    + exists (Err n t c0). split; [|apply KEEP; reflexivity]. cbn [call]. unfold seterr_from. cbn [errnum]. rewrite Nb. reflexivity.
    + exists (Err n t c0). split; [|apply KEEP; reflexivity]. cbn [call]. unfold set_prefix. destruct (o_ok e); [reflexivity|]. cbn in P. rewrite sound_str by tauto. cbn [bind]. unfold seterr_both.
      assert (F : given (Some (p ++ B ": " ++ message se (o_num e) (o_text e))) = true) by (apply given_full; unfold full; destruct p; discriminate). rewrite F. cbn [errnum]. rewrite Nb. reflexivity.
    + cbn [call]. unfold assign, noerr. cbn [calls reports]. destruct (from_ok se e c0 P) as (s' & E & S' & G' & C'). exists s'. split; [exact E|]. split; [exact S'|]. split; [exact G'|]. exact C'.
    + exists (Err 0 None c0). cbn. rewrite app_nil_r. auto.
  - assert (SH0 := SH). cbn in SH. destruct SH as [-> ->]. destruct o as [m|u|m u|e|p e|e|]; cbn [forgets reports call].
    + unfold some_error. destruct (Z.eqb_spec m 0) as [->|N].
      * exists (Err 0 None c0). cbn. rewrite app_nil_r. auto.
      * cbn in P. rewrite seterr_ok; [|exact N|lia]. eexists. split; [reflexivity|]. cbn. split; [auto|]. split; [|reflexivity]. split; [exact N|]. split; [lia|discriminate].
    + apply BOTH; [lia|exact P|reflexivity].
    + cbn in P. unfold some_error. destruct (Z.eqb_spec m 0); [tauto|]. apply BOTH; tauto.
    + destruct (from_ok se e c0 P) as (s' & E & S' & G' & C'). exists s'. split; [exact E|]. split; [exact S'|]. split; [exact G'|]. exact C'.
    + unfold set_prefix. cbn in P. destruct P as [P1 P2]. destruct (o_ok e) eqn:OK.
      * exists (Err 0 None c0). cbn. rewrite app_nil_r. auto.
      * rewrite sound_str by exact P1. cbn [bind]. unfold some_error. destruct (Z.eqb_spec (o_num e) 0) as [N|N]; [exfalso; apply P2; auto|]. apply BOTH; [exact N|unfold full; destruct p; discriminate|reflexivity].
    + unfold assign, noerr. cbn [calls]. destruct (from_ok se e c0 P) as (s' & E & S' & G' & C'). exists s'. split; [exact E|]. split; [exact S'|]. split; [exact G'|]. exact C'.
    + exists (Err 0 None c0). cbn. rewrite app_nil_r. auto.
Qed.
Lemma run_ok se : forall ops s cur, Forall proper ops -> shows s cur -> good cur ->
  exists s', run se ops s = Ok s' /\ shows s' (original se ops cur) /\ good (original se ops cur) /\ calls s' = calls s ++ told se ops cur.
Proof.
  induction ops as [|o ops IH]; intros s cur F SH GD.
  - exists s. cbn. rewrite app_nil_r. auto.
  - inversion F as [|? ? P F']; subst. destruct (call_ok se o s cur P SH GD) as (s1 & E & S1 & G1 & C1). destruct (IH s1 _ F' S1 G1) as (s2 & E2 & S2 & G2 & C2). exists s2. cbn [run]. rewrite E. cbn [bind]. split; [exact E2|].
    cbn [original told]. unfold step in *. split; [exact S2|]. split; [exact G2|]. rewrite C2, C1. unfold news. destruct (if forgets o then None else cur) as [x|]; [|destruct (reports se o)]; rewrite <- app_assoc; reflexivity.
Qed.
