(** Proofs about UniRetryGen. *)
From Verif Require Import Base RetrySpec RetryModel.
Local Open Scope Z_scope.
Local Open Scope list_scope.

Definition keeps (e : env) := follows (has_cb e) (interval e).

Definition linked (e : env) (s : st) (sp : sp) : Prop :=
  match inner s with
  | Some g => s_link sp = On g
  | None => exists b k, s_link sp = Off b k /\ next_ s = b + Z.of_nat k * interval e
  end /\ made s = s_made sp.

Definition R (e : env) (s : st) (sp : sp) : Prop :=
  keeps e (hist s) sp /\ linked e s sp /\ rest (interval e) (hd_error (hist s)) (s_link sp) = true.

Definition goodq (e : env) (P : Prop) (h : bool) (Q : ans -> st -> sp -> Prop) (r : res) : Prop :=
  match r with
  | Done a s => exists sp, R e s sp /\ Q a s sp /\ (P -> s_hurt sp = h)
  | Stuck s => exists sp, keeps e (hist s) sp /\ (P -> s_hurt sp = h)
  end.

Definition good (e : env) (P : Prop) (fs : list frame) (h : bool) (r : res) : Prop :=
  goodq e P h (fun _ _ sp => s_frames sp = fs) r.

Definition quiet (e : env) : Prop := forall h, told e h = None.
Definition idle (fs : list frame) : Prop := forall g, existsb (busy g) fs = false.

Lemma good_bind e P h Q Q' r f :
  goodq e P h Q r ->
  (forall a s sp, R e s sp -> Q a s sp -> (P -> s_hurt sp = h) -> goodq e P h Q' (f a s)) ->
  goodq e P h Q' (bind r f).
Proof.
  destruct r as [a s|s]; cbn; [|tauto]. intros (sp & A & B & C) H. eapply H; eauto.
Qed.

Lemma step e s sp ev sp' : keeps e (hist s) sp ->
  rule (has_cb e) (interval e) (hd_error (hist s)) sp ev sp' -> keeps e (ev :: hist s) sp'.
Proof.
  intros H HR. unfold keeps in *. destruct (hist s) as [|p h]; [inversion H|].
  econstructor; eauto.
Qed.

Lemma step1 e p h sp ev sp' : keeps e (p :: h) sp ->
  rule (has_cb e) (interval e) (Some p) sp ev sp' -> keeps e (ev :: p :: h) sp'.
Proof. intros. econstructor; eauto. Qed.

Lemma calms iv p l e : rest iv p l = true -> (forall t, e <> Now t) -> rest iv (Some e) l = true.
Proof.
  intros H N. destruct l; try (destruct p as [[]|]; discriminate H); try reflexivity.
  cbn. destruct e; try reflexivity. destruct (N t). reflexivity.
Qed.

(** Losing the connection. *)
Lemma disconnect_good e s sp f fs :
  R e s sp -> s_frames sp = f :: fs ->
  exists sp', R e (maybe_disconnect e s) sp' /\
    (exists seen, s_frames sp' = F (f_op f) (f_tried f) seen (f_to f) (f_back f) :: fs /\
       (inner s = None -> seen = f_seen f) /\
       (forall b, f_seen f = Some b -> seen = Some b)) /\
    (inner s = None -> inner (maybe_disconnect e s) = None) /\
    ((forall g, existsb (busy g) (f :: fs) = false) -> s_hurt sp' = s_hurt sp).
Proof.
  intros [HK [[HL HM] HT]] Hf. unfold maybe_disconnect. destruct (inner s) as [g|] eqn:Ei.
  2: { exists sp. split; [split; [exact HK|split; [split; [rewrite Ei; exact HL|exact HM]|exact HT]]|].
       split; [|tauto]. exists (f_seen f). rewrite Hf. destruct f; cbn. auto. }
  destruct sp as [l n fr h]. cbn in HL, Hf, HM. subst l fr n.
  unfold ask. cbn zeta. set (b := okay e (hist s) g).
  set (f1 := F (f_op f) (f_tried f) (match f_seen f with None => Some b | x => x end) (f_to f) (f_back f)).
  assert (K1 : keeps e (Ok g b :: hist s) (Sp (On g) (made s) (f1 :: fs) h)).
  { eapply step; [exact HK|]. apply r_ok. }
  assert (B1 : forall g0, busy g0 f1 = busy g0 f) by reflexivity.
  assert (S1 : forall b0, f_seen f = Some b0 -> f_seen f1 = Some b0) by (intros b0 X; cbn; rewrite X; reflexivity).
  destruct b eqn:Eb.
  - exists (Sp (On g) (made s) (f1 :: fs) h). split; [|split; [|split; [|tauto]]].
    + split; [exact K1|]. split; [|reflexivity]. split; [cbn; rewrite Ei; reflexivity|reflexivity].
    + exists (f_seen f1). split; [reflexivity|]. split; [congruence|exact S1].
    + congruence.
  - cbn [say setinner setnext hist inner next_ made].
    set (t := clock e _).
    assert (K2 : keeps e (Release g :: Ok g false :: hist s)
                   (Sp Lost (made s) (f1 :: fs) (h || existsb (busy g) (f1 :: fs)))).
    { eapply step1; [exact K1|]. apply r_release. }
    assert (K3 : keeps e (Stamp t :: Release g :: Ok g false :: hist s)
                   (Sp (Off (t + interval e) 0) (made s) (f1 :: fs) (h || existsb (busy g) (f1 :: fs)))).
    { eapply step1; [exact K2|]. apply r_lost. }
    eexists. split; [split; [exact K3|split; [split; [|reflexivity]|reflexivity]]|].
    { cbn. do 2 eexists. split; [reflexivity|]. cbn. lia. }
    split; [|split; [congruence|]].
    + exists (f_seen f1). split; [reflexivity|]. split; [congruence|exact S1].
    + intros HI. cbn [s_hurt]. cbn [existsb]. rewrite B1. specialize (HI g). cbn [existsb] in HI.
      rewrite HI. apply orb_false_r.
Qed.

(** Getting one. *)
Lemma reconnect_good e P visit s sp :
  R e s sp ->
  (forall s1 sp1, R e s1 sp1 -> s_frames sp1 = try_ (s_frames sp) -> s_hurt sp1 = s_hurt sp ->
     good e P (try_ (s_frames sp)) (s_hurt sp) (visit s1)) ->
  goodq e P (s_hurt sp) (fun _ s1 sp1 => s_frames sp1 = try_ (s_frames sp) \/
     inner s1 <> None /\ s_frames sp1 = s_frames sp) (maybe_reconnect e visit s).
Proof.
  intros [HK [[HL HM] HT]] HV. unfold maybe_reconnect. destruct (inner s) as [g|] eqn:Ei.
  { exists sp. split; [split; [exact HK|split; [split; [rewrite Ei; exact HL|exact HM]|exact HT]]|].
    split; [|auto]. right. split; [congruence|reflexivity]. }
  destruct HL as (b & k & El & En). destruct sp as [l n fr h]. cbn in El, HM. subst l n.
  cbn [s_frames s_hurt s_link] in *.
  cbn [say setinner setnext setmade hist inner next_ made]. set (t := clock e _).
  assert (K1 : keeps e (Now t :: hist s) (Sp (Off b k) (made s) (try_ fr) h)).
  { eapply step; [exact HK|]. apply r_now. exact HT. }
  destruct (Z.ltb_spec t (next_ s)) as [Hlt|Hge].
  { exists (Sp (Off b k) (made s) (try_ fr) h). split; [|auto]. split; [exact K1|]. split.
    - split; [|reflexivity]. cbn. rewrite Ei. eauto.
    - cbn. apply Z.ltb_lt. lia. }
  rewrite En in Hge.
  destruct (create e _).
  2: { exists (Sp (Off b k) (made s) (try_ fr) h). split; [|auto]. split; [|split; [split; [|reflexivity]|reflexivity]].
       - eapply step1; [exact K1|]. apply r_null. exact Hge.
       - cbn. rewrite Ei. eauto. }
  assert (K2 : keeps e (Make (Some (made s)) :: Now t :: hist s) (Sp (Tried (made s) b k) (S (made s)) (try_ fr) h)).
  { eapply step1; [exact K1|]. apply r_make. exact Hge. }
  unfold ask. cbn [say setinner setnext setmade hist inner next_ made].
  destruct (okay e _ _) eqn:Eb.
  - destruct (has_cb e) eqn:Ec.
    + assert (G : good e P (try_ fr) h (visit (say (Joined (made s))
        (St (Some (made s)) (next_ s) (S (made s)) (Ok (made s) true :: Make (Some (made s)) :: Now t :: hist s))))).
      { apply HV with (sp1 := Sp (On (made s)) (S (made s)) (try_ fr) h); [|reflexivity|reflexivity].
        split; [|split; [split; reflexivity|reflexivity]]. cbn [say setinner hist].
        eapply step1; [eapply step1; [exact K2|apply r_good]|]. rewrite Ec. apply r_joined. }
      revert G. unfold good, goodq, setinner. cbn [next_ made hist].
      destruct (visit _); [|auto]. intros (sp1 & A & B & C). exists sp1. auto.
    + exists (Sp (On (made s)) (S (made s)) (try_ fr) h). split; [|auto]. split; [|split; [split; reflexivity|reflexivity]].
      cbn [hist]. replace (On (made s)) with (if has_cb e then Fresh (made s) else On (made s)) by (rewrite Ec; reflexivity).
      eapply step1; [exact K2|apply r_good].
  - exists (Sp (Off b (S k)) (S (made s)) (try_ fr) h). split; [|auto]. split; [|split; [split; [|reflexivity]|reflexivity]].
    + cbn [say setnext hist]. eapply step1; [eapply step1; [exact K2|apply r_bad]|apply r_fail].
    + cbn. rewrite Ei. exists b, (S k). split; [reflexivity|]. lia.
Qed.

(** Passing something on. *)
Lemma call_good e (P : Prop) visit o s sp y seen fs h g :
  R e s sp -> s_frames sp = F o y seen None None :: fs -> (P -> s_hurt sp = h) ->
  inner s = Some g -> o <> Flush ->
  (exists r, hist s = Ok g true :: r) /\ o <> IsOk \/ unasked o = true ->
  (forall s1 sp1, R e s1 sp1 -> s_frames sp1 = F o y seen (Some g) None :: fs -> (P -> s_hurt sp1 = h) ->
     good e P (F o y seen (Some g) None :: fs) h (visit s1)) ->
  goodq e P h (fun a _ sp => s_frames sp = F o y seen (Some g) (Some a) :: fs) (filter_call e visit o s).
Proof.
  intros [HK [[HL HM] HT]] Hf Hh Ei Ho Hp HV. unfold filter_call. rewrite Ei in *.
  destruct sp as [l n fr h0]. cbn in HL, HM, Hf, Hh. subst l n fr.
  eapply good_bind.
  - eapply HV with (sp1 := Sp (On g) (made s) (F o y seen (Some g) None :: fs) h0); [|reflexivity|exact Hh].
    split; [|split; [split; [cbn; rewrite Ei; reflexivity|reflexivity]|reflexivity]].
    cbn [say hist]. destruct Hp as [[[r Er] Hi]|Hu].
    + rewrite Er in *. eapply step1; [exact HK|]. apply r_call; auto.
    + eapply step; [exact HK|]. apply r_call; auto.
  - intros a s1 sp1 [HK1 [HL1 HT1]] Hf1 Hh1. destruct sp1 as [l1 n1 fr1 h1]. cbn in Hf1, Hh1, HT1. subst fr1.
    cbn zeta. set (a1 := answer e (hist s1) g o).
    exists (Sp l1 n1 (F o y seen (Some g) (Some a1) :: fs) h1). split; [|split; [reflexivity|exact Hh1]].
    split; [|split; [exact HL1|]].
    + cbn [say hist]. eapply step; [exact HK1|]. apply r_back. exact HT1.
    + cbn [say hist s_link hd_error]. eapply calms; [exact HT1|discriminate].
Qed.

Lemma isok_good e s sp f fs :
  R e s sp -> s_frames sp = f :: fs -> f_seen f = None ->
  exists sp', R e (snd (filter_isok e s)) sp' /\ s_hurt sp' = s_hurt sp /\
    inner (snd (filter_isok e s)) = inner s /\
    match inner s with
    | Some g => s_frames sp' = F (f_op f) (f_tried f) (Some (fst (filter_isok e s))) (f_to f) (f_back f) :: fs /\
                hist (snd (filter_isok e s)) = Ok g (fst (filter_isok e s)) :: hist s
    | None => s_frames sp' = f :: fs /\ fst (filter_isok e s) = false
    end.
Proof.
  intros [HK [[HL HM] HT]] Hf Hs. unfold filter_isok. destruct (inner s) as [g|] eqn:Ei.
  - destruct sp as [l n fr h]. cbn in HL, HM, Hf. subst l n fr. unfold ask. cbn [fst snd].
    set (b := okay e (hist s) g).
    exists (Sp (On g) (made s) (F (f_op f) (f_tried f) (Some b) (f_to f) (f_back f) :: fs) h).
    split; [|split; [reflexivity|split; [exact Ei|split; reflexivity]]].
    split; [|split; [split; [cbn; rewrite Ei; reflexivity|reflexivity]|reflexivity]].
    cbn [say hist].
    replace (Some b) with (match f_seen f with None => Some b | x => x end) by (rewrite Hs; reflexivity).
    eapply step; [exact HK|]. apply r_ok.
  - exists sp. cbn [fst snd].
    split; [split; [exact HK|split; [split; [rewrite Ei; exact HL|exact HM]|exact HT]]|]. auto.
Qed.

Definition calm (e : env) (c : cmd) (fs : list frame) : Prop :=
  quiet e /\ (idle fs \/ c = Visit told).

Lemma off_link e s sp : R e s sp -> inner s = None -> is_on (s_link sp) = false.
Proof. intros [_ [[HL _] _]] Ei. rewrite Ei in HL. destruct HL as (b & k & -> & _). reflexivity. Qed.

Lemma leave_good e (P : Prop) h o a s sp f fs :
  R e s sp -> s_frames sp = f :: fs -> f_op f = o -> (forall g, busy g f = false) ->
  due_ans (s_link sp) f a -> (P -> s_hurt sp = h) ->
  goodq e P h (fun _ _ sp => s_frames sp = fs) (Done a (say (Leave o a) s)).
Proof.
  intros [HK [HL HT]] Hf Ho HB Hd Hh. destruct sp as [l n fr h0]. cbn in Hf, Hd, Hh, HT. subst fr o.
  exists (Sp l n fs h0). split; [|split; [reflexivity|exact Hh]]. split; [|split; [exact HL|]].
  - cbn [say hist]. eapply step; [exact HK|]. apply r_leave; assumption.
  - cbn [say hist hd_error s_link]. eapply calms; [exact HT|discriminate].
Qed.

Lemma run_good n e : forall c s sp,
  R e s sp -> good e (calm e c (s_frames sp)) (s_frames sp) (s_hurt sp) (run n e c s).
Proof.
  induction n as [|n IH]; intros c s sp HR.
  { exists sp. split; [apply HR|auto]. }
  destruct c as [o|w].
  2: { cbn [run]. destruct (w e (hist s)) as [o|] eqn:Ew.
       2: { exists sp. split; [exact HR|auto]. }
       assert (CW : calm e (Visit w) (s_frames sp) -> idle (s_frames sp)).
       { intros [Q [I|E]]; [exact I|]. injection E as ->. rewrite (Q (hist s)) in Ew. discriminate. }
       apply good_bind with (Q := fun _ _ sp' => s_frames sp' = s_frames sp).
       - specialize (IH (Op o) s sp HR). revert IH. unfold good, goodq.
         destruct (run n e (Op o) s).
         + intros (sp' & A & B & C). exists sp'. split; [exact A|]. split; [exact B|].
           intros X. apply C. split; [apply X|left; auto].
         + intros (sp' & A & C). exists sp'. split; [exact A|].
           intros X. apply C. split; [apply X|left; auto].
       - intros _ s1 sp1 HR1 Hf1 Hh1. specialize (IH (Visit w) s1 sp1 HR1). rewrite Hf1 in IH.
         revert IH. unfold good, goodq. destruct (run n e (Visit w) s1).
         + intros (sp' & A & B & C). exists sp'. split; [exact A|]. split; [exact B|].
           intros X. rewrite C; auto.
         + intros (sp' & A & C). exists sp'. split; [exact A|]. intros X. rewrite C; auto. }
  cbn [run]. set (fs := s_frames sp). set (P := calm e (Op o) fs). set (h := s_hurt sp).
  assert (HP : P -> quiet e /\ idle fs) by (intros [Q [I|E]]; [auto|discriminate E]).
  set (s0 := say (Enter o) s).
  assert (R0 : R e s0 (Sp (s_link sp) (s_made sp) (F o false None None None :: fs) h)).
  { destruct HR as [HK [HL HT]]. destruct sp as [l m fr h0]. split; [|split; [exact HL|]].
    - cbn [s0 say hist s_link s_made]. eapply step; [exact HK|]. apply r_enter. exact HT.
    - cbn [s0 say hist s_link hd_error]. eapply calms; [exact HT|discriminate]. }
  assert (VT : forall s1 sp1 y sn g, R e s1 sp1 -> s_frames sp1 = F o y sn (Some g) None :: fs ->
     (P -> s_hurt sp1 = h) -> good e P (F o y sn (Some g) None :: fs) h (run n e (Visit told) s1)).
  { intros s1 sp1 y sn g HR1 Hf1 Hh1. specialize (IH (Visit told) s1 sp1 HR1). rewrite Hf1 in IH.
    revert IH. unfold good, goodq. destruct (run n e (Visit told) s1).
    - intros (sp' & A & B & C). exists sp'. split; [exact A|]. split; [exact B|].
      intros X. rewrite C; auto. split; [apply HP, X|auto].
    - intros (sp' & A & C). exists sp'. split; [exact A|]. intros X. rewrite C; auto.
      split; [apply HP, X|auto]. }
  assert (VJ : goodq e P h (fun _ s1 sp1 => exists y, s_frames sp1 = F o y None None None :: fs /\
                 (inner s1 = None -> y = true)) (maybe_reconnect e (run n e (Visit joining)) s0)).
  { pose proof (reconnect_good e P (run n e (Visit joining)) _ _ R0) as G. cbn [s_frames s_hurt try_] in G.
    cbn [f_op f_seen f_to f_back] in G.
    assert (V : forall s1 sp1, R e s1 sp1 -> s_frames sp1 = F o true None None None :: fs -> s_hurt sp1 = h ->
       good e P (F o true None None None :: fs) h (run n e (Visit joining) s1)).
    { intros s1 sp1 HR1 Hf1 Hh1. specialize (IH (Visit joining) s1 sp1 HR1). rewrite Hf1, Hh1 in IH.
      revert IH. unfold good, goodq. destruct (run n e (Visit joining) s1).
      - intros (sp' & A & B & C). exists sp'. split; [exact A|]. split; [exact B|].
        intros X. rewrite C; auto. split; [apply HP, X|]. left. intros g. cbn. apply HP; exact X.
      - intros (sp' & A & C). exists sp'. split; [exact A|]. intros X. rewrite C; auto.
        split; [apply HP, X|]. left. intros g. cbn. apply HP; exact X. }
    specialize (G V). revert G. unfold goodq. destruct (maybe_reconnect _ _ _); [|auto].
    intros (sp1 & A & B & C). exists sp1. split; [exact A|]. split; [|exact C].
    destruct B as [B|[B1 B2]]; [exists true; auto|]. exists false. split; [exact B2|congruence]. }
  assert (BI : forall y sn t a, P -> idle (F o y sn t (Some a) :: fs)).
  { intros y sn t a X g. cbn. unfold busy. cbn. rewrite andb_false_r. apply HP, X. }
  assert (BN : forall y sn, P -> idle (F o y sn None None :: fs)).
  { intros y sn X g. cbn. apply HP, X. }
  unfold good. fold fs P h.
  (* a call, and the end *)
  assert (FIN : forall s1 sp1 a f, R e s1 sp1 -> s_frames sp1 = f :: fs -> f_op f = o ->
      (forall g, busy g f = false) -> (P -> idle (f :: fs)) -> (P -> s_hurt sp1 = h) ->
      (forall sp2 seen, (inner s1 = None -> is_on (s_link sp2) = false) ->
         (inner s1 = None -> seen = f_seen f) -> (forall b, f_seen f = Some b -> seen = Some b) ->
         due_ans (s_link sp2) (F o (f_tried f) seen (f_to f) (f_back f)) a) ->
      goodq e P h (fun _ _ sp => s_frames sp = fs) (Done a (say (Leave o a) (maybe_disconnect e s1)))).
  { intros s1 sp1 a f HR1 Hf1 Ho HB HI Hh1 HD.
    destruct (disconnect_good e s1 sp1 f fs HR1 Hf1) as (sp2 & R2 & (seen & F2 & S1 & S2) & I2 & H2).
    eapply leave_good; [exact R2|exact F2|exact Ho|exact HB| |].
    - rewrite Ho. apply HD; auto. intros X. eapply off_link; eauto.
    - intros X. rewrite H2; [auto|exact (HI X)]. }
  assert (CALLS : o <> IsOk -> o <> Flush -> unasked o = false ->
     goodq e P h (fun _ _ sp => s_frames sp = fs)
       (bind (bind (maybe_reconnect e (run n e (Visit joining)) s0) (fun _ s =>
          let (b, s) := filter_isok e s in
          bind (if b then filter_call e (run n e (Visit told)) o s else Done (default o) s) (fun a s =>
          Done a (maybe_disconnect e s)))) (fun a s => Done a (say (Leave o a) s)))).
  { intros N1 N2 N3.
    assert (DUE : forall l y sn t bk a, due_ans l (F o y sn t bk) a <->
       match bk with
       | Some b => a = b
       | None => a = default o /\ match sn with Some b => unasked o = false /\ b = false | None => is_on l = false /\ (lazy o = true \/ y = true) end
       end) by (intros; unfold due_ans; cbn [f_op f_back f_seen f_tried]; destruct o; try tauto; congruence).
    destruct (maybe_reconnect e (run n e (Visit joining)) s0) as [a1 s1|s1]; [|exact VJ].
    destruct VJ as (sp1 & R1 & (y & F1 & Y1) & H1). cbn [bind].
    destruct (isok_good e s1 sp1 _ fs R1 F1 eq_refl) as (sp2 & R2 & H2 & I2 & X2).
    destruct (filter_isok e s1) as [b s2]. cbn [fst snd] in *.
    assert (H2' : P -> s_hurt sp2 = h) by (intros X; rewrite H2; auto).
    destruct (inner s1) as [g|] eqn:Ei.
    - destruct X2 as [F2 E2]. cbn [f_op f_to f_back] in F2. destruct b.
      + pose proof (call_good e P (run n e (Visit told)) o s2 sp2 y (Some true) fs h g R2 F2 H2' I2 N2
          (or_introl (conj (ex_intro _ _ E2) N1))
          (fun s3 sp3 A B C => VT s3 sp3 y (Some true) g A B C)) as G.
        destruct (filter_call e (run n e (Visit told)) o s2) as [a s3|s3]; [|exact G].
        destruct G as (sp3 & R3 & F3 & H3). cbn [bind].
        eapply FIN; [exact R3|exact F3|reflexivity|intros g0; unfold busy; cbn; apply andb_false_r|apply BI|exact H3|].
        intros. apply DUE. cbn [f_back]. reflexivity.
      + cbn [bind]. eapply FIN; [exact R2|exact F2|reflexivity|reflexivity|apply BN|exact H2'|].
        intros sp4 sn _ _ S. apply DUE. cbn [f_back]. split; [reflexivity|].
        rewrite (S false eq_refl). auto.
    - destruct X2 as [F2 E2]. subst b. cbn [bind].
      eapply FIN; [exact R2|exact F2|reflexivity|reflexivity|apply BN|exact H2'|].
      intros sp4 sn L S _. apply DUE. cbn [f_back]. split; [reflexivity|].
      rewrite (S I2). cbn [f_seen f_tried]. split; [apply L; exact I2|]. right. rewrite I2 in *. auto. }
  destruct o; try (apply CALLS; [discriminate|discriminate|reflexivity]); clear CALLS.
  - (* IsOk *)
    destruct (maybe_reconnect e (run n e (Visit joining)) s0) as [a1 s1|s1]; [|exact VJ].
    destruct VJ as (sp1 & R1 & (y & F1 & Y1) & H1). cbn [bind].
    destruct (isok_good e s1 sp1 _ fs R1 F1 eq_refl) as (sp2 & R2 & H2 & I2 & X2).
    destruct (filter_isok e s1) as [b s2]. cbn [fst snd] in *.
    assert (H2' : P -> s_hurt sp2 = h) by (intros X; rewrite H2; auto).
    destruct (inner s1) as [g|] eqn:Ei.
    + destruct X2 as [F2 E2]. cbn [bind]. eapply FIN; [exact R2|exact F2|reflexivity|reflexivity|apply BN|exact H2'|].
      intros sp4 sn _ _ S. unfold due_ans. cbn [f_op f_seen]. rewrite (S b eq_refl). reflexivity.
    + destruct X2 as [F2 E2]. subst b. cbn [bind].
      eapply FIN; [exact R2|exact F2|reflexivity|reflexivity|apply BN|exact H2'|].
      intros sp4 sn L S _. unfold due_ans. cbn [f_op f_seen]. rewrite (S I2). cbn [f_seen f_tried]. auto.
  - (* IterateAll *)
    destruct (maybe_reconnect e (run n e (Visit joining)) s0) as [a1 s1|s1]; [|exact VJ].
    destruct VJ as (sp1 & R1 & (y & F1 & Y1) & H1). cbn [bind].
    destruct (inner s1) as [g|] eqn:Ei.
    + pose proof (call_good e P (run n e (Visit told)) (IterateAll k) s1 sp1 y None fs h g R1 F1 H1 Ei ltac:(discriminate)
          (or_intror eq_refl) (fun s3 sp3 A B C => VT s3 sp3 y None g A B C)) as G.
      destruct (filter_call e (run n e (Visit told)) (IterateAll k) s1) as [a s3|s3]; [|exact G].
      destruct G as (sp3 & R3 & F3 & H3). cbn [bind].
      eapply FIN; [exact R3|exact F3|reflexivity|intros g0; unfold busy; cbn; apply andb_false_r|apply BI|exact H3|].
      intros. unfold due_ans. cbn [f_op f_back]. reflexivity.
    + unfold filter_call. rewrite Ei. cbn [bind].
      eapply FIN; [exact R1|exact F1|reflexivity|reflexivity|apply BN|exact H1|].
      intros sp4 sn L S _. unfold due_ans. cbn [f_op f_back f_seen]. rewrite (S Ei). cbn [f_seen f_tried]. auto.
  - (* SetAll *)
    destruct (inner s0) as [g|] eqn:Ei.
    + pose proof (call_good e P (run n e (Visit told)) (SetAll kv) s0 _ false None fs h g R0 eq_refl (fun _ => eq_refl) Ei ltac:(discriminate)
          (or_intror eq_refl) (fun s3 sp3 A B C => VT s3 sp3 false None g A B C)) as G.
      destruct (filter_call e (run n e (Visit told)) (SetAll kv) s0) as [a s3|s3]; [|exact G].
      destruct G as (sp3 & R3 & F3 & H3). cbn [bind].
      eapply leave_good; [exact R3|exact F3|reflexivity|intros g0; unfold busy; cbn; apply andb_false_r| |exact H3].
      unfold due_ans. cbn [f_op f_back]. reflexivity.
    + unfold filter_call. rewrite Ei. cbn [bind].
      eapply leave_good; [exact R0|reflexivity|reflexivity|reflexivity| |auto].
      unfold due_ans. cbn [f_op f_back f_seen]. split; [reflexivity|]. split; [|auto]. exact (off_link _ _ _ R0 Ei).
  - (* Flush *)
    cbn [bind]. eapply leave_good; [exact R0|reflexivity|reflexivity|reflexivity| |auto]. reflexivity.
Qed.

Definition states (r : res) : st := match r with Done _ s | Stuck s => s end.

Definition mentions (l : link) (g : nat) : Prop :=
  match l with
  | Tried g' _ _ | Bad g' _ _ | Fresh g' | On g' => g = g'
  | _ => False
  end.

Lemma life_good n e :
  exists sp, keeps e (hist (states (life n e))) sp /\ (quiet e -> s_hurt sp = false) /\
    match life n e with
    | Done _ s => s_frames sp = [] /\ forall g, ~ mentions (s_link sp) g
    | Stuck _ => True
    end.
Proof.
  unfold life, construct. set (t := clock e []). set (s0 := St None t 0 [Stamp t]).
  assert (R0 : R e s0 (Sp (Off t 0) 0 [] false)).
  { split; [apply fo_start|]. split; [split; [|reflexivity]|reflexivity]. cbn. exists t, 0%nat. split; [reflexivity|lia]. }
  assert (V : forall w s sp, R e s sp -> s_frames sp = [] -> s_hurt sp = false ->
     good e (quiet e) [] false (run n e (Visit w) s)).
  { intros w s sp HR Hf Hh. pose proof (run_good n e (Visit w) s sp HR) as G. rewrite Hf, Hh in G.
    revert G. unfold good, goodq. destruct (run n e (Visit w) s).
    - intros (sp' & A & B & C). exists sp'. split; [exact A|]. split; [exact B|]. intros Q. apply C.
      split; [exact Q|left; intros g; reflexivity].
    - intros (sp' & A & C). exists sp'. split; [exact A|]. intros Q. apply C.
      split; [exact Q|left; intros g; reflexivity]. }
  pose proof (reconnect_good e (quiet e) (run n e (Visit joining)) s0 _ R0) as G. cbn [s_frames s_hurt] in G.
  specialize (G (fun s sp A B C => V joining s sp A B C)).
  destruct (maybe_reconnect e (run n e (Visit joining)) s0) as [a1 s1|s1]; cbn [bind].
  2: { destruct G as (sp & A & B). exists sp. auto. }
  destruct G as (sp1 & R1 & F1' & H1). assert (F1 : s_frames sp1 = []) by (destruct F1' as [|[_ ?]]; assumption). clear F1'.
  pose proof (run_good n e (Visit user) s1 sp1 R1) as G. rewrite F1 in G.
  destruct (run n e (Visit user) s1) as [a2 s2|s2]; cbn [bind].
  2: { destruct G as (sp & A & B). exists sp. split; [exact A|]. split; [|exact I]. intros Q.
       rewrite B, H1; auto. split; [exact Q|left; intros g; reflexivity]. }
  destruct G as (sp2 & [K2 [L2 T2]] & F2 & H2).
  assert (H2' : quiet e -> s_hurt sp2 = false).
  { intros Q. rewrite H2, H1; auto. split; [exact Q|left; intros g; reflexivity]. }
  cbn [states]. unfold destroy. destruct (inner s2) as [g|] eqn:Ei.
  - destruct sp2 as [l m fr h]. cbn in F2, H2'. subst fr. destruct L2 as [L2 M2]. rewrite Ei in L2. cbn in L2. subst l.
    exists (Sp Lost m [] h). split; [|auto]. cbn [say setinner hist]. eapply step; [exact K2|]. apply r_end.
  - exists sp2. split; [exact K2|]. split; [exact H2'|]. split; [exact F2|].
    intros g0. destruct L2 as [L2 _]. rewrite Ei in L2. destruct L2 as (b & k & -> & _). cbn. auto.
Qed.

(** ** What follows from the rules *)

Lemma lives cb iv h sp : follows cb iv h sp ->
  (forall g, In (Make (Some g)) h -> (g < s_made sp)%nat) /\
  (forall g, In (Make (Some g)) h <-> In (Release g) h \/ mentions (s_link sp) g) /\
  (forall g, In (Release g) h -> ~ mentions (s_link sp) g).
Proof.
  induction 1 as [t|e p h s s' Hf (A & B & C) HR].
  - cbn. repeat split; intros; intuition (try discriminate; try lia).
  - assert (SAME : (forall g, e <> Make (Some g)) -> (forall g, e <> Release g) ->
              s_made s' = s_made s -> (forall g, mentions (s_link s') g <-> mentions (s_link s) g) ->
              (forall g, In (Make (Some g)) (e :: p :: h) -> (g < s_made s')%nat) /\
              (forall g, In (Make (Some g)) (e :: p :: h) <-> In (Release g) (e :: p :: h) \/ mentions (s_link s') g) /\
              (forall g, In (Release g) (e :: p :: h) -> ~ mentions (s_link s') g)).
    { intros N1 N2 N3 N4. rewrite N3. repeat split.
      - intros g [X|X]; [destruct (N1 _ X)|auto].
      - intros [X|X]; [destruct (N1 _ X)|]. rewrite N4. apply B in X. destruct X; [left; right|right]; auto.
      - intros X. right. apply B. destruct X as [[X|X]|X]; [destruct (N2 _ X)|auto|]. right. apply N4. exact X.
      - intros g [X|X]; [destruct (N2 _ X)|]. rewrite N4. auto. }
    inversion HR; subst; cbn [s_link s_made] in *;
      try (apply SAME; [intros; discriminate|intros; discriminate|reflexivity|intros; cbn; tauto]).
    + (* made *) repeat split.
      * intros g [X|X]; [injection X as ->; lia|]. apply A in X. lia.
      * intros [X|X]; [injection X as ->; right; reflexivity|].
        apply B in X. destruct X as [X|[]]. left. right. exact X.
      * intros [[X|X]|X]; [discriminate| |cbn in X; subst; left; reflexivity].
        right. apply B. auto.
      * intros g [X|X] M; [discriminate|]. cbn in M. subst g.
        assert (In (Make (Some n)) (Now t :: h)) by (apply B; auto). apply A in H. lia.
    + (* good *) apply SAME; [intros; discriminate|intros; discriminate|reflexivity|]. intros. destruct cb; cbn; tauto.
    + (* fail *) repeat split.
      * intros g' [X|X]; [discriminate|auto].
      * intros [X|X]; [discriminate|]. apply B in X. destruct X as [X|X]; [left; right; exact X|].
        cbn in X. subst. left. left. reflexivity.
      * intros [[X|X]|[]]; [injection X as ->|]; right; apply B; [right; reflexivity|auto].
      * cbn. auto.
    + (* release *) repeat split.
      * intros g' [X|X]; [discriminate|auto].
      * intros [X|X]; [discriminate|]. apply B in X. destruct X as [X|X]; [left; right; exact X|].
        cbn in X. subst. left. left. reflexivity.
      * intros [[X|X]|[]]; [injection X as ->|]; right; apply B; [right; reflexivity|auto].
      * cbn. auto.
    + (* end *) repeat split.
      * intros g' [X|X]; [discriminate|auto].
      * intros [X|X]; [discriminate|]. apply B in X. destruct X as [X|X]; [left; right; exact X|].
        cbn in X. subst. left. left. reflexivity.
      * intros [[X|X]|[]]; [injection X as ->|]; right; apply B; [right; reflexivity|auto].
      * cbn. auto.
Qed.

Lemma follows_app cb iv l2 : forall e l1 sp, follows cb iv (l2 ++ e :: l1) sp -> l1 <> [] ->
  exists p r s1 s2, l1 = p :: r /\ follows cb iv l1 s1 /\ rule cb iv (Some p) s1 e s2 /\ follows cb iv (e :: l1) s2.
Proof.
  induction l2 as [|x l2 IH]; intros e l1 sp H N.
  - cbn in H. inversion H; subst; [congruence|]. do 4 eexists. split; [reflexivity|]. split; [eassumption|].
    split; [eassumption|]. exact H.
  - cbn in H. inversion H; subst; [destruct l2; discriminate|].
    match goal with X : _ :: _ = l2 ++ e :: l1 |- _ => rewrite X in * end. eapply IH; eauto.
Qed.

Lemma use_live cb iv l2 e g l1 sp : follows cb iv (l2 ++ e :: l1) sp -> uses e = Some g ->
  In (Make (Some g)) l1 /\ ~ In (Release g) l1.
Proof.
  intros H U. destruct l1 as [|p r].
  { exfalso. clear -H U. remember (l2 ++ [e]) as l eqn:E. revert l2 E. induction H; intros l2 E.
    - destruct l2 as [|? [|]]; try discriminate. injection E as <-. discriminate.
    - destruct l2 as [|x l2]; [discriminate|]. injection E as -> E. eapply IHfollows; exact E. }
  destruct (follows_app cb iv l2 e (p :: r) sp H ltac:(discriminate)) as (p' & r' & s1 & s2 & E & F1 & HR & _).
  destruct (lives cb iv _ s1 F1) as (_ & A & B).
  assert (M : mentions (s_link s1) g).
  { inversion HR; subst; cbn in U; try discriminate; injection U as <-; reflexivity. }
  split; [apply A; auto|]. intros X. exact (B g X M).
Qed.

(** Calls under way. *)
Lemma hurt_mono cb iv l2 : forall l1 sp, follows cb iv (l2 ++ l1) sp -> l1 <> [] -> s_hurt sp = false ->
  exists s1, follows cb iv l1 s1 /\ s_hurt s1 = false.
Proof.
  induction l2 as [|x l2 IH]; intros l1 sp H N Hh; [exists sp; auto|].
  cbn in H. inversion H; subst.
  - destruct l2; [|discriminate]. cbn in *. congruence.
  - match goal with X : _ :: _ = l2 ++ l1 |- _ => rewrite X in * end.
    eapply IH; eauto.
    match goal with X : rule _ _ _ _ _ _ |- _ => inversion X; subst; cbn in *; auto end.
    apply orb_false_iff in Hh. tauto.
Qed.

Lemma under_way cb iv g o l1 : forall l3 sp, follows cb iv (l3 ++ Call g o :: l1) sp ->
  s_hurt sp = false -> (forall a, ~ In (Back g a) l3) -> existsb (busy g) (s_frames sp) = true.
Proof.
  induction l3 as [|x l3 IH]; intros sp H Hh HB.
  - cbn in H. inversion H; subst.
    match goal with X : rule _ _ _ _ _ _ |- _ => inversion X; subst; cbn; unfold busy; cbn; rewrite Nat.eqb_refl; reflexivity end.
  - cbn in H. inversion H; subst; [destruct l3; discriminate|].
    match goal with X : _ :: _ = l3 ++ _ |- _ => rewrite X in * end.
    assert (HB' : forall a, ~ In (Back g a) l3) by (intros a X; apply (HB a); right; exact X).
    match goal with X : follows _ _ (l3 ++ _) ?s |- _ => specialize (IH s X) end.
    match goal with X : rule _ _ _ _ _ _ |- _ => inversion X; subst; cbn in * end;
      try (apply IH; assumption).
    + specialize (IH Hh HB'). match goal with X : forall g, busy g f = false |- _ => rewrite X in IH end. exact IH.
    + specialize (IH Hh HB'). destruct fs as [|f fs]; [exact IH|]. exact IH.
    + specialize (IH Hh HB'). cbn in IH. rewrite IH. apply orb_true_r.
    + (* Back of another *)
      specialize (IH Hh HB'). rewrite orb_true_iff in *. destruct IH as [IH|IH]; [|auto].
      unfold busy in IH. cbn in IH. rewrite andb_true_r in IH. apply Nat.eqb_eq in IH. subst.
      destruct (HB a). left. reflexivity.
    + (* given up *) apply orb_false_iff in Hh. apply IH; tauto.
Qed.

Lemma new_unused cb iv h sp : follows cb iv h sp -> forall g o,
  (exists b k, s_link sp = Tried g b k) \/ (exists b k, s_link sp = Bad g b k) -> ~ In (Call g o) h.
Proof.
  induction 1 as [t|e p h s s' Hf IH HR]; intros g o L.
  - destruct L as [(b & k & L)|(b & k & L)]; discriminate.
  - assert (NR : rest iv (Some p) (s_link s') = false).
    { destruct L as [(b & k & ->)|(b & k & ->)]; reflexivity. }
    inversion HR; subst; cbn [s_link] in *; try congruence;
      try (destruct L as [(b' & k' & L)|(b' & k' & L)]; discriminate).
    + (* made *) destruct L as [(b' & k' & L)|(b' & k' & L)]; [|discriminate]. injection L as -> _ _.
      intros [X|X]; [discriminate|]. apply in_split in X. destruct X as (l2 & l1 & E).
      rewrite E in Hf. destruct (use_live cb iv l2 (Call g o) g l1 _ Hf eq_refl) as [A _].
      rewrite <- E in Hf. destruct (lives cb iv _ _ Hf) as (B & _ & _). cbn [s_made] in B.
      assert (C : In (Make (Some g)) (Now t :: h)) by (rewrite E; apply in_or_app; right; right; exact A).
      apply B in C. lia.
    + (* good *) destruct cb; destruct L as [(b' & k' & L)|(b' & k' & L)]; discriminate.
    + (* bad *) destruct L as [(b' & k' & L)|(b' & k' & L)]; [discriminate|]. injection L as -> _ _.
      intros [X|X]; [discriminate|]. revert X. apply IH. left. eauto.
Qed.

Lemma not_in_call cb iv l4 g l3 o l1 sp :
  follows cb iv (l4 ++ Release g :: l3 ++ Call g o :: l1) sp -> s_hurt sp = false ->
  exists a, In (Back g a) l3.
Proof.
  intros H Hh.
  assert (D : (exists a, In (Back g a) l3) \/ forall a, ~ In (Back g a) l3).
  { clear. induction l3 as [|x l3 IH]; [right; auto|]. destruct IH as [[a IH]|IH]; [left; exists a; right; exact IH|].
    destruct x; try (right; intros a0 [X|X]; [discriminate|exact (IH _ X)]).
    destruct (Nat.eq_dec g0 g) as [->|Ne].
    - left. exists a. left. reflexivity.
    - right. intros a0 [X|X]; [congruence|exact (IH _ X)]. }
  destruct D as [D|D]; [exact D|]. exfalso.
  destruct (hurt_mono cb iv l4 _ sp H ltac:(discriminate) Hh) as (s1 & F1 & H1).
  inversion F1; subst.
  match goal with X : _ :: _ = l3 ++ _ |- _ => rewrite X in * end.
  match goal with X : follows _ _ (l3 ++ _) ?s |- _ => pose proof (under_way cb iv g o l1 l3 s X) as U end.
  match goal with X : rule _ _ _ _ _ _ |- _ => inversion X; subst; cbn in * end.
  - (* a bad attempt *)
    match goal with X : follows _ _ (l3 ++ _) _ |- _ => apply (new_unused cb iv _ _ X g o (or_intror (ex_intro _ b (ex_intro _ k eq_refl)))) end.
    apply in_or_app. right. left. reflexivity.
  - specialize (U (proj1 (proj1 (orb_false_iff _ _) H1)) D). apply orb_false_iff in H1. rewrite U in H1. destruct H1; discriminate.
  - specialize (U H1 D). discriminate.
Qed.

(** The pace of attempts. *)
Lemma pace_inv cb iv h sp : follows cb iv h sp -> ascending h -> forall t0,
  last h (Stamp 0) = Stamp t0 ->
  match s_link sp with
  | Off b k => t0 + released h * iv <= b + Z.of_nat k * iv
  | Tried _ b k | Bad _ b k =>
      t0 + released h * iv <= b + Z.of_nat k * iv /\
      exists e t, In e h /\ reading e t /\ b + Z.of_nat k * iv <= t
  | Fresh _ | On _ => exists e t, In e h /\ reading e t /\ t0 + released h * iv <= t
  | Lost => exists e t, In e h /\ reading e t /\ t0 + released h * iv <= t + iv
  end.
Proof.
  induction 1 as [t|e p h s s' Hf IH HR]; intros HA t0 HL.
  - cbn in *. injection HL as ->. lia.
  - assert (HA' : ascending (p :: h)).
    { intros l2 x l1 x' t t' E. apply (HA (e :: l2) x l1 x' t t'). rewrite E. reflexivity. }
    specialize (IH HA' t0). change (last (e :: p :: h) (Stamp 0)) with (last (p :: h) (Stamp 0)) in HL.
    specialize (IH HL).
    assert (SAME : (forall g, e <> Release g) -> released (e :: p :: h) = released (p :: h)).
    { intros N. unfold released. cbn [filter]. destruct e; try reflexivity. destruct (N g). reflexivity. }
    assert (MORE : forall g, e = Release g -> released (e :: p :: h) = released (p :: h) + 1).
    { intros g ->. unfold released. cbn [filter length]. lia. }
    assert (UP : forall Q : Z -> Prop, (exists x t, In x (p :: h) /\ reading x t /\ Q t) ->
                 exists x t, In x (e :: p :: h) /\ reading x t /\ Q t).
    { intros Q (x & t & A & B & C). exists x, t. split; [right; exact A|auto]. }
    inversion HR; subst; cbn [s_link] in *; try (rewrite SAME by discriminate).
    + destruct l; try exact IH; try (apply UP; exact IH); destruct p; discriminate.
    + destruct l; try exact IH; try (apply UP; exact IH); destruct p; discriminate.
    + exact IH.
    + (* noted *) destruct IH as (x & t1 & A & B & C).
      assert (t1 <= t) by (eapply (HA [] (Stamp t) (p :: h) x); eauto; right; reflexivity). lia.
    + exact IH.
    + split; [exact IH|]. exists (Now t), t. split; [right; left; reflexivity|]. split; [left; reflexivity|assumption].
    + destruct IH as [A (x & t & B & C & D)].
      assert (exists e t, In e (Ok g true :: p :: h) /\ reading e t /\ t0 + released (p :: h) * iv <= t).
      { exists x, t. split; [right; exact B|]. split; [exact C|lia]. }
      destruct cb; assumption.
    + destruct IH as [A B]. split; [exact A|]. apply UP. exact B.
    + rewrite (MORE g eq_refl). destruct IH as [A _]. lia.
    + apply UP. exact IH.
    + apply UP. exact IH.
    + apply UP. exact IH.
    + destruct l; try exact IH; try (apply UP; exact IH); destruct p; discriminate.
    + rewrite (MORE g eq_refl). destruct IH as (x & t & A & B & C). exists x, t. split; [right; exact A|]. split; [exact B|lia].
    + rewrite (MORE g eq_refl). destruct IH as (x & t & A & B & C). exists x, t. split; [right; exact A|]. split; [exact B|lia].
Qed.

Lemma pace cb iv l2 r l1 sp t0 : follows cb iv (l2 ++ Make r :: l1) sp -> ascending l1 ->
  last l1 (Stamp 0) = Stamp t0 -> l1 <> [] ->
  exists t l, l1 = Now t :: l /\ t0 + released l1 * iv <= t.
Proof.
  intros H HA HL HN. destruct (follows_app cb iv l2 _ l1 sp H HN) as (p & l & s1 & s2 & E & F1 & HR & _).
  pose proof (pace_inv cb iv l1 s1 F1 HA t0 HL) as P. subst l1.
  inversion HR; subst; cbn in P; exists t, l; (split; [reflexivity|lia]).
Qed.
