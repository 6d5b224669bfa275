From Verif Require Import Base BaseFacts EncoderModel EStreamModel EStreamSpec.
From Coq Require Import Lia.
Local Lemma NoDup_app_intro {A} (a b : list A) : NoDup a -> NoDup b -> (forall x, In x a -> In x b -> False) -> NoDup (a ++ b).
Proof.
  induction 1 as [|x a Hx Ha IH]; intros Hb Hd; cbn; [exact Hb|]. constructor.
  - intro Hi. apply in_app_or in Hi as [Hi|Hi]; [contradiction|]. eapply Hd; [now left|exact Hi].
  - apply IH; [exact Hb|]. intros y Hy. apply Hd. now right.
Qed.
Local Open Scope nat_scope.

(** ** Machines *)
Lemma bytes_run_app (M : machine) a : forall s b,
  bytes_run M s (a ++ b) = let (s1, o1) := bytes_run M s a in let (s2, o2) := bytes_run M s1 b in (s2, o1 ++ o2).
Proof.
  induction a as [|x a IH]; intros s b; cbn.
  - destruct (bytes_run M s b); reflexivity.
  - destruct (M_byte M s x) as [s' o]. rewrite IH. destruct (bytes_run M s' a) as [s1 o1]. destruct (bytes_run M s1 b) as [s2 o2].
    now rewrite app_assoc.
Qed.
Lemma pipe_app l : forall a b f fin, pipe l (a ++ b) f fin =
  let (l1, o1) := pipe l a false false in let (l2, o2) := pipe l1 b f fin in (l2, o1 ++ o2).
Proof.
  induction l as [|[M s] l IH]; intros a b f fin; cbn; [reflexivity|].
  unfold call_run. rewrite bytes_run_app. destruct (bytes_run M s a) as [s1 o1] eqn:E1. cbn.
  rewrite !app_nil_r. destruct (pipe l o1 false false) as [l1 q1] eqn:P1. cbn. unfold call_run.
  destruct (bytes_run M s1 b) as [s2 o2].
  destruct (if f then M_flush M s2 else (s2, [])) as [s3 o3].
  rewrite <- app_assoc. rewrite IH, P1. destruct (pipe l1 (o2 ++ o3 ++ (if fin then M_finish M s3 else [])) f fin) as [l2 q2]. reflexivity.
Qed.
Lemma pipe_nil l : pipe l [] false false = (l, []).
Proof. induction l as [|[M s] l IH]; cbn; [reflexivity|]. now rewrite IH. Qed.
Lemma pipes_app a : forall l b, pipes l (a ++ b) = let (l1, o1) := pipes l a in let (l2, o2) := pipes l1 b in (l2, o1 ++ o2).
Proof.
  induction a as [|[x f] a IH]; intros l b; cbn.
  - destruct (pipes l b); reflexivity.
  - destruct (pipe l x f false) as [l' o]. rewrite IH. destruct (pipes l' a) as [l1 o1]. destruct (pipes l1 b). now rewrite app_assoc.
Qed.
Lemma pipes_unflushed calls : forall l, Forall (fun c => snd c = false) calls -> pipes l calls = pipe l (given calls) false false.
Proof.
  induction calls as [|[b f] calls IH]; intros l H; cbn.
  - now rewrite pipe_nil.
  - inversion H as [|c cs Hf Hr E]; subst. cbn in Hf. subst f. rewrite pipe_app.
    destruct (pipe l b false false) as [l1 o1]. rewrite IH by exact Hr. reflexivity.
Qed.
Definition M_of (x : { M : machine & M_st M }) : machine := projT1 x.
Lemma pipe_machines l : forall b f fin, map M_of (fst (pipe l b f fin)) = map M_of l.
Proof.
  induction l as [|[M s] l IH]; intros b f fin; cbn; [reflexivity|].
  destruct (call_run M s b f fin) as [s' o]. specialize (IH o f fin). destruct (pipe l o f fin) as [l' o']. cbn in *. now rewrite IH.
Qed.
Lemma pipe_steady l : Forall steady (map M_of l) -> forall b f, pipe l b f false = pipe l b false false.
Proof.
  induction l as [|[M s] l IH]; intros H b f; cbn; [reflexivity|].
  inversion H as [|m ms HM Hr E]; subst. unfold call_run. destruct (bytes_run M s b) as [s1 o1]. cbn in HM.
  replace (if f then M_flush M s1 else (s1, [])) with (s1, @nil byte) by (destruct f; [now rewrite HM|reflexivity]). cbn.
  rewrite (IH Hr _ f). reflexivity.
Qed.
Lemma pipes_steady calls : forall l, Forall steady (map M_of l) -> pipes l calls = pipe l (given calls) false false.
Proof.
  induction calls as [|[b f] calls IH]; intros l H; cbn.
  - now rewrite pipe_nil.
  - rewrite pipe_app. rewrite (pipe_steady l H b f). pose proof (pipe_machines l b false false) as Q. destruct (pipe l b false false) as [l1 o1].
    cbn in Q. rewrite IH by (now rewrite Q). reflexivity.
Qed.
Lemma fresh_machines ms : map M_of (fresh ms) = ms.
Proof. unfold fresh. rewrite map_map. cbn. now rewrite map_id. Qed.
Lemma through_pipe ms : Forall steady ms -> forall b, snd (pipe (fresh ms) b true true) = through ms b.
Proof.
  induction ms as [|M ms IH]; intros H b; cbn; [reflexivity|].
  inversion H as [|m l HM Hr E]; subst. unfold call_run.
  destruct (bytes_run M (M_init M) b) as [s o] eqn:Eb. rewrite HM. cbn. change (map _ ms) with (fresh ms).
  specialize (IH Hr (o ++ M_finish M s)). destruct (pipe (fresh ms) (o ++ M_finish M s) true true) as [l' o']. cbn [snd] in *. rewrite IH.
  unfold through. f_equal. unfold total. now rewrite Eb.
Qed.
Lemma finished_through ms calls : Forall steady ms -> finished_output ms calls = through ms (given calls).
Proof.
  intro H. unfold finished_output. rewrite pipes_steady by (now rewrite fresh_machines).
  rewrite <- through_pipe by exact H. rewrite <- (app_nil_r (given calls)) at 2. rewrite pipe_app.
  destruct (pipe (fresh ms) (given calls) false false) as [l1 o1]. destruct (pipe l1 [] true true) as [l2 o2]. reflexivity.
Qed.

(** ** Chains and machines *)
Inductive rel : list stage -> live -> bytes -> Prop :=
| rel_nil : rel [] [] []
| rel_cons i E M (I : works_like E M) s r l buf : rel r l buf -> rel (Stage i E (Est true false (w_st I s)) buf :: r) (existT _ M s :: l) (w_held I s).
Lemma enc_ok E M (I : works_like E M) s b f :
  exists r, enc_do_encode E (Est true false (w_st I s)) (w_held I s ++ b) f false =
    Ok (let (s', o) := call_run M s b f false in (Est true false (w_st I s'), w_held I s', o, r)).
Proof.
  unfold enc_do_encode. cbn [okay finished negb andb st].
  destruct (w_held I s ++ b) as [|x y] eqn:Ex.
  - apply app_eq_nil in Ex as [Eh Eb]. subst b. destruct f; cbn [negb orb].
    + destruct (w_enc I s [] true) as [r Hr]. rewrite Eh in Hr. cbn in Hr. exists r. rewrite Hr. cbn.
      destruct (M_flush M s) as [s' o']. reflexivity.
    + exists false. cbn. now rewrite Eh.
  - cbn [negb orb]. destruct (w_enc I s b f) as [r Hr]. exists r. rewrite Ex in Hr. rewrite Hr. cbn [bind].
    destruct (call_run M s b f false) as [s' o]. reflexivity.
Qed.
Lemma run_ok st l h : rel st l h -> forall b f,
  exists st' h' r, run_stages st (h ++ b) f false = Ok (st', h', snd (pipe l b f false), r) /\ rel st' (fst (pipe l b f false)) h' /\ map s_id st' = map s_id st /\ (f = true -> h' = []).
Proof.
  induction 1 as [|i E M I s r l buf Hr IH]; intros b f.
  - exists [], [], true. cbn. repeat split; constructor.
  - cbn [run_stages s_enc s_st s_buf s_id].
    destruct (enc_ok E M I s b f) as [ret Hret]. rewrite Hret. cbn [pipe].
    destruct (call_run M s b f false) as [s' o] eqn:Ec. cbn [bind].
    rewrite app_nil_r. destruct (IH o f) as (st' & h' & r3 & Hrun & Hrel & Hid & Hf). rewrite Hrun. cbn [bind].
    destruct (pipe l o f false) as [l' o'] eqn:Ep. cbn in *.
    exists (Stage i E (Est true false (w_st I s')) h' :: st'), (w_held I s'), (ret && true && r3). repeat split.
    + constructor. exact Hrel.
    + cbn. now rewrite Hid.
    + intro Ef. subst f. unfold call_run in Ec. destruct (bytes_run M s b) as [s1 o1]. pose proof (w_flushed I s1) as Hfl.
      destruct (M_flush M s1) as [s2 o2]. cbn in Hfl. congruence.
Qed.
Lemma call_run_fin M s b : let (s', o) := call_run M s b true false in snd (call_run M s b true true) = o ++ M_finish M s'.
Proof.
  unfold call_run. destruct (bytes_run M s b) as [s1 o1]. destruct (M_flush M s1) as [s2 o2]. cbn. now rewrite app_nil_r, <- app_assoc.
Qed.
Definition done (x : stage) : Prop := finished (s_st x) = true /\ okay (s_st x) = true /\ s_buf x = [].
Lemma run_fin st l h : rel st l h -> forall b,
  exists st' r, run_stages st (h ++ b) true true = Ok (st', [], snd (pipe l b true true), r) /\ Forall done st' /\ map s_id st' = map s_id st.
Proof.
  induction 1 as [|i E M I s r l buf Hr IH]; intros b.
  - exists [], true. cbn. repeat split; constructor.
  - cbn [run_stages s_enc s_st s_buf s_id].
    destruct (enc_ok E M I s b true) as [ret Hret]. rewrite Hret. cbn [pipe].
    pose proof (call_run_fin M s b) as Hf.
    destruct (call_run M s b true false) as [s' o] eqn:Ec. cbn [bind].
    unfold enc_do_finish. cbn [okay finished negb andb st]. destruct (w_fin I s') as [rf Hfin]. rewrite Hfin. cbn [bind].
    destruct (IH (o ++ M_finish M s')) as (st' & r3 & Hrun & Hd & Hid). rewrite Hrun. cbn [bind].
    destruct (call_run M s b true true) as [s'' oo] eqn:Ec2. cbn in Hf. subst oo.
    destruct (pipe l (o ++ M_finish M s') true true) as [l' o'] eqn:Ep. cbn [snd].
    exists (Stage i E (Est true true (w_st I s')) [] :: st'), (ret && rf && r3).
    replace (w_held I s') with (@nil byte).
    2:{ unfold call_run in Ec. destruct (bytes_run M s b) as [s1 o1]. pose proof (w_flushed I s1) as Hfl.
      destruct (M_flush M s1) as [s2 o2]. cbn in Hfl. congruence. }
    repeat split; [| cbn; now rewrite Hid]. constructor; [repeat split|exact Hd].
Qed.
Lemma rel_ok st l h : rel st l h -> forallb (fun x => okay (s_st x)) st = true /\ existsb (fun x => finished (s_st x)) st = false.
Proof. induction 1 as [|i E M I s r l buf Hr [IH1 IH2]]; cbn; [auto|]. now rewrite IH1, IH2. Qed.
Lemma rel_app st l h E M (I : works_like E M) i : rel st l h -> rel (st ++ [Stage i E (est_init E) []]) (l ++ [existT _ M (M_init M)]) h.
Proof.
  induction 1 as [|i' E' M' I' s r l buf Hr IH]; cbn.
  - unfold est_init. destruct (w_init I) as [Ei Eh]. rewrite <- Ei. pose proof (rel_cons i E M I (M_init M) [] [] [] rel_nil) as R. rewrite Eh in R. exact R.
  - apply rel_cons. exact IH.
Qed.
(** A chain that works as machines [l]; [h] is what it left in its input *)
Definition crel (c : chain) (l : live) (h : bytes) : Prop :=
  c_ok c = true /\ c_fin c = false /\ rel (c_stages c) l h /\ NoDup (map s_id (c_stages c)).
Lemma chain_encode_ok c l h b f : crel c l h ->
  exists c' h' r, chain_encode c (h ++ b) f = Ok (c', h', snd (pipe l b f false), r) /\ crel c' (fst (pipe l b f false)) h' /\
   map s_id (c_stages c') = map s_id (c_stages c) /\ (f = true -> h' = [] /\ c_last c' = last_id (c_stages c') None) /\
   (c_last c' = c_last c \/ c_last c' = last_id (c_stages c') None).
Proof.
  intros (Ho & Hf & Hr & Hn). unfold chain_encode. rewrite Ho, Hf. cbn [negb andb].
  destruct (run_ok _ _ _ Hr b f) as (st' & h' & r & Hrun & Hrel & Hid & Hfl).
  destruct (is_nil (h ++ b)) eqn:En; [destruct f|]; cbn [negb orb].
  2:{ exists c, (h ++ b), false. destruct (h ++ b) eqn:E; [|discriminate]. apply app_eq_nil in E as [-> ->].
    rewrite pipe_nil. repeat split; auto; try discriminate. }
  all: unfold do_encode; rewrite Hrun; cbn [bind]; eexists _, _, _; repeat split; eauto; cbn; rewrite ?Hid; auto.
Qed.
Lemma chain_finish_ok c l : crel c l [] ->
  exists c' r, chain_finish c = Ok (c', snd (pipe l [] true true), r) /\ c_fin c' = true /\ c_ok c' = true /\ Forall done (c_stages c') /\ map s_id (c_stages c') = map s_id (c_stages c).
Proof.
  intros (Ho & Hf & Hr & Hn). unfold chain_finish. rewrite Ho, Hf. cbn [negb andb]. unfold do_encode.
  destruct (run_fin _ _ _ Hr []) as (st' & r & Hrun & Hd & Hid). cbn [app] in Hrun. rewrite Hrun. cbn [bind].
  eexists _, _. repeat split; eauto.
Qed.
Lemma chain_isok_ok c l h : crel c l h -> chain_isok c = true /\ chain_isfinished c = false.
Proof.
  intros (Ho & Hf & Hr & Hn). unfold chain_isok, chain_isfinished. rewrite Ho, Hf. cbn. exact (rel_ok _ _ _ Hr).
Qed.
Lemma done_ok st : Forall done st -> forallb (fun x => okay (s_st x)) st = true.
Proof. induction 1 as [|x l [H1 [H2 H3]] Hl IH]; cbn; [reflexivity|]. now rewrite H2, IH. Qed.
Lemma build_rel l ms : Forall2 (fun E M => exists I : works_like E M, True) l ms -> forall c l0 h i, crel c l0 h -> (forall x, In x (map s_id (c_stages c)) -> x < i) ->
  crel (build c i l) (l0 ++ fresh ms) h /\ c_last (build c i l) = c_last c.
Proof.
  induction 1 as [|E M l ms [I _] Hr IH]; intros c l0 h i Hc Hi; cbn.
  - rewrite app_nil_r. auto.
  - specialize (IH (chain_append c i E) (l0 ++ [existT _ M (M_init M)]) h (S i)). rewrite <- app_assoc in IH. cbn in IH.
    apply IH.
    + destruct Hc as (Ho & Hf & Hrel & Hn). repeat split; cbn; auto.
      * now apply rel_app.
      * rewrite map_app. cbn. apply NoDup_app_intro; auto.
        -- repeat constructor. auto.
        -- intros x Hx [<-|[]]. specialize (Hi _ Hx). lia.
    + intros x Hx. cbn in Hx. rewrite map_app in Hx. apply in_app_or in Hx as [Hx|[Hx|[]]]; [specialize (Hi _ Hx)|cbn in Hx]; lia.
Qed.
Lemma empty_rel : crel chain_empty [] [].
Proof. repeat split; constructor. Qed.

(** ** Streams before they close *)
Definition last_ok (c : chain) (ro : bytes) : Prop := c_last c = last_id (c_stages c) None \/ (c_last c = None /\ ro = []).
Lemma split_at_last st : forall a x, st = a ++ [x] -> NoDup (map s_id st) -> split_at st (s_id x) = Some (st, []).
Proof.
  induction st as [|y st IH]; intros a x E Hn; [destruct a; discriminate|].
  destruct a as [|y' a]; cbn in E.
  - injection E as -> ->. cbn. now rewrite Nat.eqb_refl.
  - injection E as -> ->. cbn. inversion Hn as [|z zs H1 H2 E]; subst.
    destruct (s_id y' =? s_id x) eqn:Q.
    + apply Nat.eqb_eq in Q. destruct H1. rewrite Q, map_app. apply in_or_app. right. now left.
    + now rewrite (IH a x eq_refl H2).
Qed.
Lemma continue_ok c l ro : crel c l [] -> last_ok c ro ->
  exists c' r, continue_encode c ro = Ok (c', [], ro, r) /\ crel c' l [] /\ c_last c' = last_id (c_stages c') None /\ map s_id (c_stages c') = map s_id (c_stages c).
Proof.
  intros (Ho & Hf & Hr & Hn) HL. unfold continue_encode. unfold last_ok in HL.
  destruct (c_last c) as [i|] eqn:EL.
  - destruct HL as [HL|[HL _]]; [|discriminate]. unfold last_id in HL. destruct (rev (c_stages c)) as [|x r] eqn:Er; [discriminate|]. injection HL as ->.
    assert (Es : c_stages c = rev r ++ [x]) by (rewrite <- (rev_involutive (c_stages c)), Er; reflexivity).
    cbn. rewrite (split_at_last _ _ _ Es Hn). cbn. eexists _, _. repeat split; cbn; rewrite ?app_nil_r; auto.
    unfold last_id. now rewrite Er.
  - assert (H : ro = [] \/ c_stages c = []).
    { destruct HL as [HL|[_ ->]]; [|now left]. right. unfold last_id in HL. destruct (rev (c_stages c)) as [|x r] eqn:Er; [|discriminate].
      rewrite <- (rev_involutive (c_stages c)), Er. reflexivity. }
    destruct H as [->|E].
    + destruct (run_ok _ _ _ Hr [] false) as (st' & h' & r & Hrun & Hrel & Hid & _). cbn in Hrun. unfold do_encode. rewrite Hrun. cbn [bind].
      rewrite pipe_nil in *. cbn [fst snd] in *. assert (h' = []) as ->.
      { clear - Hrun Hr. destruct Hr as [|i E M I s r0 l buf Hr]; [now injection Hrun as <- <- <-|].
        cbn [run_stages s_enc s_st s_buf s_id] in Hrun. destruct (enc_ok E M I s [] false) as [ret Hret]. rewrite app_nil_r in Hret.
        cbn in Hret. rewrite Hret in Hrun. clear Hret. cbn in Hrun. destruct (run_stages r0 (buf ++ []) false false) as [[[[? ?] ?] ?]| |]; [|discriminate|discriminate].
        injection Hrun as <- <- _ _. reflexivity. }
      eexists _, _. repeat split; cbn; rewrite ?Hid; auto.
    + unfold do_encode. rewrite E. cbn. eexists _, _. rewrite E in Hr. inversion Hr as [El|]; subst. repeat split; cbn; auto; constructor.
Qed.

Record inv (s : es) (lr lw : live) : Prop := Inv {
  i_flags : closing s = false /\ closed s = false /\ err s = false /\ stop_read s = false /\ stop_write s = false;
  i_sub : u_ok (below s) = true /\ u_err (below s) = false /\ u_room (below s) = None;
  i_rin : rin s = [];
  i_rc : crel (rc s) lr [];
  i_last : last_ok (rc s) (rout s);
  i_wc : crel (wc s) lw (win s);
  i_out : delayed s = true \/ outbuf s = [] }.
Ltac sp := repeat match goal with |- _ /\ _ => split end.
(** What stays *)
Definition same (s s' : es) : Prop := queue_min s' = queue_min s /\ min_read s' = min_read s /\ delayed s' = delayed s /\ auto s' = auto s.

Lemma sub_write_all u b : u_ok u = true -> u_room u = None -> sub_write u b = Sub (u_script u) true (u_err u) None (u_got u ++ b) (u_cb u).
Proof. intros H1 H2. unfold sub_write. rewrite H1, H2, firstn_all. reflexivity. Qed.
Lemma autoclose_live s : stop_read s = false -> maybe_autoclose s = Ok s.
Proof. intro H. unfold maybe_autoclose. now rewrite H. Qed.

Definition wstep (s s' : es) (lw lw' : live) (acc : bytes) : Prop := exists wcalls,
  given wcalls ++ outbuf s' = outbuf s ++ acc /\ u_got (below s') = u_got (below s) ++ snd (pipes lw wcalls) /\ lw' = fst (pipes lw wcalls).
Definition rstep (s s' : es) (lr lr' : live) (got : bytes) : Prop := exists rcalls,
  data (u_script (below s)) = given rcalls ++ data (u_script (below s')) /\
  got ++ inbuf s' ++ rout s' = inbuf s ++ rout s ++ snd (pipes lr rcalls) /\ lr' = fst (pipes lr rcalls).
Definition wsame (s s' : es) : Prop := outbuf s' = outbuf s /\ win s' = win s /\ wc s' = wc s /\ u_got (below s') = u_got (below s).
Definition rsame (s s' : es) : Prop := inbuf s' = inbuf s /\ rin s' = rin s /\ rout s' = rout s /\ rc s' = rc s /\ u_script (below s') = u_script (below s) /\ u_cb (below s') = u_cb (below s).
Lemma wsame_step s s' lw : wsame s s' -> wstep s s' lw lw [].
Proof. intros (A & B & C & D). exists []. cbn. rewrite A, D, !app_nil_r. auto. Qed.
Lemma rsame_step s s' lr : rsame s s' -> rstep s s' lr lr [].
Proof. intros (A & B & C & D & E & F). exists []. cbn. rewrite A, C, E, !app_nil_r. auto. Qed.
Lemma wstep_trans s0 s1 s2 l0 l1 l2 a b : wstep s0 s1 l0 l1 a -> wstep s1 s2 l1 l2 b -> wstep s0 s2 l0 l2 (a ++ b).
Proof.
  intros (c1 & A1 & B1 & ->) (c2 & A2 & B2 & ->). exists (c1 ++ c2). rewrite pipes_app. destruct (pipes l0 c1) as [q o]. cbn in *. destruct (pipes q c2) as [q2 o2]. cbn in *.
  repeat split.
  - unfold given in *. rewrite map_app, concat_app, <- app_assoc, A2, app_assoc, A1, app_assoc. reflexivity.
  - now rewrite B2, B1, app_assoc.
Qed.
Lemma rstep_trans s0 s1 s2 l0 l1 l2 a b : rstep s0 s1 l0 l1 a -> rstep s1 s2 l1 l2 b -> rstep s0 s2 l0 l2 (a ++ b).
Proof.
  intros (c1 & A1 & B1 & ->) (c2 & A2 & B2 & ->). exists (c1 ++ c2). rewrite pipes_app. destruct (pipes l0 c1) as [q o]. cbn in *. destruct (pipes q c2) as [q2 o2]. cbn in *.
  repeat split.
  - unfold given in *. rewrite map_app, concat_app, <- app_assoc, <- A2, <- A1. reflexivity.
  - rewrite <- app_assoc, B2, !app_assoc. rewrite <- (app_assoc a), B1, !app_assoc. reflexivity.
Qed.
Lemma push_ok s lr lw f : inv s lr lw ->
  exists s' lw', push checkwrite f false s = Ok s' /\ inv s' lr lw' /\ wstep s s' lw lw' [] /\ rsame s s' /\ same s s' /\
    outbuf s' = (if f then [] else outbuf s) /\ (f = true -> win s' = [] /\ exists w, lw' = fst (pipe lw w true false) /\ u_got (below s') = u_got (below s) ++ snd (pipe lw w true false)).
Proof.
  intros [F S Ri Rc L W D]. destruct F as (F1 & F2 & F3 & F4 & F5). destruct S as (S1 & S2 & S3).
  unfold push. set (b := if f then outbuf s else []).
  assert (Ew : (if f then win s ++ outbuf s else win s) = win s ++ b) by (unfold b; destruct f; [|rewrite app_nil_r]; reflexivity).
  rewrite Ew. destruct (chain_encode_ok _ _ _ b f W) as (c' & h' & r & He & Hc & Hid & Hfl & Hla). rewrite He. cbn [bind].
  destruct (chain_isok_ok _ _ _ Hc) as [Ok1 _]. unfold checkwrite at 1. cbn [wc set_out]. rewrite Ok1. cbn [bind].
  eexists _, (fst (pipe lw b f false)). split; [reflexivity|]. split; [|split; [|split; [|split; [|split]]]].
  - cbn. rewrite sub_write_all by assumption. constructor; cbn; auto. destruct f; auto.
  - exists [(b, f)]. cbn. rewrite sub_write_all by assumption. cbn. rewrite !app_nil_r. split; [unfold b; destruct f; cbn; now rewrite ?app_nil_r|].
    split; [|destruct (pipe lw b f false); reflexivity]. destruct (pipe lw b f false); cbn. now rewrite app_nil_r.
  - cbn. rewrite sub_write_all by assumption. repeat split.
  - repeat split.
  - reflexivity.
  - intro Ef. cbn. rewrite sub_write_all by assumption. cbn. subst f. split; [now apply Hfl|]. exists b. split; [reflexivity|]. now rewrite !app_nil_r.
Qed.
Lemma flush_ok s lr lw : inv s lr lw -> exists s' lw', flush s = Ok s' /\ inv s' lr lw' /\ wstep s s' lw lw' [] /\ rsame s s' /\ same s s' /\ outbuf s' = [] /\ win s' = [] /\
  exists w, lw' = fst (pipe lw w true false) /\ u_got (below s') = u_got (below s) ++ snd (pipe lw w true false).
Proof.
  intro H. unfold flush. destruct (push_ok s lr lw true H) as (s' & lw' & Hp & Hi & Hw & Hr & Hs & Ho & Hf). rewrite Hp. cbn [bind].
  destruct (Hf eq_refl) as [Hf1 Hf2].
  rewrite autoclose_live by apply (i_flags _ _ _ Hi). exists s', lw'. repeat (split; [assumption || reflexivity|]). exact Hf2.
Qed.
Lemma rsame_trans a b c : rsame a b -> rsame b c -> rsame a c.
Proof. intros (A1&A2&A3&A4&A5&A6) (B1&B2&B3&B4&B5&B6). unfold rsame. rewrite B1, B2, B3, B4, B5, B6. auto 10. Qed.
Lemma same_trans a b c : same a b -> same b c -> same a c.
Proof. intros (A1&A2&A3&A4) (B1&B2&B3&B4). unfold same. rewrite B1, B2, B3, B4. auto. Qed.
Lemma same_refl a : same a a.
Proof. repeat split. Qed.
Lemma wsame_refl a : wsame a a.
Proof. repeat split. Qed.
Lemma rsame_refl a : rsame a a.
Proof. repeat split. Qed.
Lemma write_ok s lr lw b : inv s lr lw -> exists s' lw', write b s = Ok s' /\ inv s' lr lw' /\ wstep s s' lw lw' b /\ rsame s s' /\ same s s'.
Proof.
  intro H. pose proof H as [F S Ri Rc L W D]. destruct F as (F1 & F2 & F3 & F4 & F5). destruct S as (S1 & S2 & S3).
  unfold write, isok. rewrite F2, F3, S2, F5. cbn [negb andb orb]. rewrite orb_false_r. destruct (is_nil b) eqn:Eb.
  { destruct b; [|discriminate]. exists s, lw. sp; auto using same_refl, wsame_refl, rsame_refl. apply wsame_step, wsame_refl. }
  destruct (delayed s) eqn:Ed.
  - cbn [negb andb bind]. cbn [delayed set_out]. rewrite Ed. eexists _, lw. split; [reflexivity|]. split; [|split; [|split]]; [| |repeat split|repeat split].
    + constructor; cbn; auto.
    + exists []. cbn. rewrite !app_nil_r. auto.
  - destruct D as [D|D]; [discriminate|]. rewrite D. cbn [negb andb is_nil].
    assert (exists s' lw', push checkwrite false false (set_out s (outbuf s) (win s ++ b) (wc s) (below s)) = Ok s' /\ inv s' lr lw' /\ wstep s s' lw lw' b /\ rsame s s' /\ same s s' /\ outbuf s' = []) as Hp.
    { unfold push. cbn [win set_out wc outbuf below]. destruct (chain_encode_ok _ _ _ b false W) as (c' & h' & r & He & Hc & Hid & Hfl & Hla). rewrite He. cbn [bind].
      destruct (chain_isok_ok _ _ _ Hc) as [Ok1 _]. unfold checkwrite. cbn [wc set_out]. rewrite Ok1. cbn [bind].
      eexists _, (fst (pipe lw b false false)). split; [reflexivity|]. cbn. rewrite sub_write_all by assumption. split; [|split; [|split; [|split]]]; [| |repeat split|repeat split|exact D].
      - constructor; cbn; auto.
      - exists [(b, false)]. cbn. rewrite D, !app_nil_r. split; [reflexivity|]. destruct (pipe lw b false false); cbn. rewrite app_nil_r. auto. }
    destruct Hp as (s' & lw' & Hp & Hi & Hw & Hr & Hs & Ho). rewrite D in Hp. rewrite Hp. cbn [bind].
    destruct Hs as (Hs1 & Hs2 & Hs3 & Hs4). rewrite Hs3, Ed.
    assert (Hsm : same s s') by (unfold same; auto). destruct (auto s') eqn:Ea.
    + destruct (flush_ok s' lr lw' Hi) as (s2 & lw2 & Hp2 & Hi2 & Hw2 & Hr2 & Hs2' & Ho2 & Hwin2 & _). rewrite Hp2.
      exists s2, lw2. split; [reflexivity|]. split; [assumption|]. split; [|split].
      * rewrite <- (app_nil_r b). eapply wstep_trans; eassumption.
      * eapply rsame_trans; eassumption.
      * apply (same_trans _ s'); [|assumption]. exact Hsm.
    + rewrite autoclose_live by apply (i_flags _ _ _ Hi). exists s', lw'. sp; auto using same_refl, wsame_refl, rsame_refl.
Qed.
Definition shrinks (x x' : items) : Prop := x' = x \/ exists c r, x = (c, false) :: r /\ (x' = r \/ exists c', x' = (c', false) :: r).
Definition quiet (n : nat) (x : items) : Prop := n = 0 \/ match x with (_, true) :: _ => False | _ => True end.
Lemma open_quiet n x : open_script x -> quiet n x.
Proof. intro H. right. destruct H as [|[c cl] r H]; [exact I|]. cbn in H. now subst. Qed.
Lemma open_shrinks x x' : open_script x -> shrinks x x' -> open_script x'.
Proof.
  intros H [->|(c & r & -> & H')]; [exact H|]. inversion H as [|a b H1 H2 E]; subst. destruct H' as [->|[c' ->]]; [exact H2|]. constructor; [reflexivity|exact H2].
Qed.
Lemma pull_gen s lr lw n : inv s lr lw -> quiet n (u_script (below s)) ->
  exists s' lr', pull n s = Ok s' /\ inv s' lr' lw /\ rstep s s' lr lr' [] /\ wsame s s' /\ same s s' /\ inbuf s' = inbuf s /\ shrinks (u_script (below s)) (u_script (below s')) /\ u_cb (below s') = u_cb (below s).
Proof.
  intros [F S Ri Rc L W D] Ho. destruct F as (F1 & F2 & F3 & F4 & F5). destruct S as (S1 & S2 & S3).
  unfold pull.
  assert (H : exists c u', (if n =? 0 then Ok s else sub_read s n) = Ok (set_in (set_out s (outbuf s) (win s) (wc s) u') (inbuf s) c (rout s) (rc s)) /\
    u_ok u' = true /\ u_err u' = false /\ u_room u' = None /\ u_got u' = u_got (below s) /\ u_cb u' = u_cb (below s) /\ shrinks (u_script (below s)) (u_script u') /\ data (u_script (below s)) = c ++ data (u_script u')).
  { assert (N0 : exists c u', Ok s = Ok (set_in (set_out s (outbuf s) (win s) (wc s) u') (inbuf s) c (rout s) (rc s)) /\
    u_ok u' = true /\ u_err u' = false /\ u_room u' = None /\ u_got u' = u_got (below s) /\ u_cb u' = u_cb (below s) /\ shrinks (u_script (below s)) (u_script u') /\ data (u_script (below s)) = c ++ data (u_script u')).
    { exists [], (below s). split; [|repeat split; auto; now left]. destruct s. cbn in *. now subst. }
    destruct (n =? 0) eqn:En; [exact N0|]. apply Nat.eqb_neq in En. destruct Ho as [Ho|Ho]; [contradiction|]. unfold sub_read. rewrite S1. cbn [negb].
    destruct (u_script (below s)) as [|[c cl] r] eqn:Es; [exact N0|]. destruct cl; [contradiction|].
    destruct (length c <=? n).
    - cbn [bind]. exists c, (Sub r true false None (u_got (below s)) (u_cb (below s))). split; [|cbn; repeat split; auto; right; exists c, r; split; [reflexivity|now left]]. destruct s as [? ? ? ? ? ? ? ? ? ? ? ? ? ? ? ? []]; cbn in *; subst; reflexivity.
    - exists (firstn n c), (Sub ((skipn n c, false) :: r) true false None (u_got (below s)) (u_cb (below s))). split; [destruct s as [? ? ? ? ? ? ? ? ? ? ? ? ? ? ? ? []]; cbn in *; subst; reflexivity|].
      cbn. sp; auto. + right. exists c, r. split; [reflexivity|right]. now exists (skipn n c). + unfold data. cbn. now rewrite app_assoc, firstn_skipn. }
  destruct H as (c & u' & E & U1 & U2 & U3 & U4 & U5 & U6 & U7). rewrite E. cbn [bind]. cbn [below set_in set_out rc rout rin inbuf]. rewrite U1. cbn [negb].
  destruct (continue_ok _ _ _ Rc L) as (c1 & r1 & Hc1 & Hrel1 & Hl1 & Hid1). rewrite Hc1. cbn [bind].
  destruct (chain_encode_ok _ _ _ c true Hrel1) as (c2 & h2 & r2 & Hc2 & Hrel2 & Hid2 & Hfl2 & _). cbn [app] in Hc2. rewrite Hc2. cbn [bind].
  destruct (Hfl2 eq_refl) as [-> Hl2]. destruct (chain_isok_ok _ _ _ Hrel2) as [K1 K2]. cbn [rc set_in]. rewrite K2, andb_false_r. cbn [bind].
  unfold checkread. cbn [rc set_in]. rewrite K1. eexists _, (fst (pipe lr c true false)). split; [reflexivity|].
  split; [|split; [|split; [|split; [|split; [|split]]]]]; [| |repeat split; cbn; auto|repeat split|reflexivity|exact U6|exact U5].
  - constructor; cbn; auto. now left.
  - exists [(c, true)]. cbn. rewrite !app_nil_r. split; [exact U7|]. destruct (pipe lr c true false); cbn. rewrite app_nil_r. auto.
Qed.
Lemma pull_ok s lr lw n : inv s lr lw -> open_script (u_script (below s)) ->
  exists s' lr', pull n s = Ok s' /\ inv s' lr' lw /\ rstep s s' lr lr' [] /\ wsame s s' /\ same s s' /\ inbuf s' = inbuf s /\ open_script (u_script (below s')) /\ u_cb (below s') = u_cb (below s).
Proof.
  intros H Ho. destruct (pull_gen s lr lw n H (open_quiet n _ Ho)) as (s' & lr' & ?&?&?&?&?&?&Hs&?). exists s', lr'. sp; auto. exact (open_shrinks _ _ Ho Hs).
Qed.
Lemma uread_ok s lr lw n : inv s lr lw -> open_script (u_script (below s)) ->
  exists s' b lr', uread n s = Ok (s', b) /\ inv s' lr' lw /\ wsame s s' /\ same s s' /\ inbuf s' = inbuf s /\ open_script (u_script (below s')) /\ u_cb (below s') = u_cb (below s) /\
    exists rcalls, data (u_script (below s)) = given rcalls ++ data (u_script (below s')) /\ b ++ rout s' = rout s ++ snd (pipes lr rcalls) /\ lr' = fst (pipes lr rcalls).
Proof.
  intros H Ho. unfold uread.
  assert (exists s1 lr1, (if negb (n =? 0) && is_nil (rout s) then pull (Nat.max (min_read s) n) s else Ok s) = Ok s1 /\ inv s1 lr1 lw /\ rstep s s1 lr lr1 [] /\ wsame s s1 /\ same s s1 /\ inbuf s1 = inbuf s /\ open_script (u_script (below s1)) /\ u_cb (below s1) = u_cb (below s)) as (s1 & lr1 & E & I1 & R1 & W1 & S1 & B1 & O1 & C1).
  { destruct (negb (n =? 0) && is_nil (rout s)).
    - now apply pull_ok.
    - exists s, lr. sp; auto using same_refl, wsame_refl, rsame_refl. apply rsame_step, rsame_refl. }
  rewrite E. cbn [bind]. eexists _, _, lr1. split; [reflexivity|].
  split; [|split; [|split; [|split; [|split; [|split]]]]]; [|exact W1|exact S1|exact B1|exact O1|exact C1|].
  - destruct I1 as [F S Ri Rc L W D]. constructor; cbn; auto. destruct L as [L|[L1 L2]]; [now left|]. right. split; [exact L1|]. rewrite L2. apply skipn_nil.
  - destruct R1 as (rcs & A & B & C). exists rcs. cbn. rewrite firstn_skipn. cbn in B. rewrite B1 in B. apply app_inv_head in B. auto.
Qed.
Lemma read_ok s lr lw n : inv s lr lw -> open_script (u_script (below s)) ->
  exists s' b lr', read n s = Ok (s', b) /\ inv s' lr' lw /\ rstep s s' lr lr' b /\ wsame s s' /\ same s s' /\ open_script (u_script (below s')) /\ u_cb (below s') = u_cb (below s).
Proof.
  intros H Ho. unfold read.
  assert (exists s1 lr1, (if length (inbuf s) <? queue_min s then
       let! (s0, b) := uread (queue_min s - length (inbuf s)) s in
       if length (inbuf s0) =? length (inbuf s) then Ok (set_in s0 (inbuf s0 ++ b) (rin s0) (rout s0) (rc s0)) else Fault
     else Ok s) = Ok s1 /\ inv s1 lr1 lw /\ rstep s s1 lr lr1 [] /\ wsame s s1 /\ same s s1 /\ open_script (u_script (below s1)) /\ u_cb (below s1) = u_cb (below s)) as (s1 & lr1 & E & I1 & R1 & W1 & S1 & O1 & C1).
  { destruct (length (inbuf s) <? queue_min s).
    - destruct (uread_ok s lr lw (queue_min s - length (inbuf s)) H Ho) as (s0 & b & lr1 & E & I1 & W1 & S1 & B1 & O1 & C1 & rcs & A & B & C). rewrite E. cbn [bind].
      rewrite B1, Nat.eqb_refl. eexists _, lr1. split; [reflexivity|]. split; [|split; [|split; [|split; [|split]]]]; [| |exact W1|exact S1|exact O1|exact C1].
      + destruct I1 as [F S Ri Rc L W D]. constructor; cbn; auto.
      + exists rcs. cbn. split; [exact A|]. split; [|exact C]. now rewrite <- app_assoc, B.
    - exists s, lr. sp; auto using same_refl, wsame_refl, rsame_refl. apply rsame_step, rsame_refl. }
  rewrite E. cbn [bind].
  destruct (length (inbuf s1) <? queue_min s1).
  { rewrite autoclose_live by apply (i_flags _ _ _ I1). cbn [bind]. exists s1, [], lr1. sp; auto using same_refl, wsame_refl, rsame_refl. }
  destruct (is_nil (inbuf s1)) eqn:En.
  - destruct (uread_ok s1 lr1 lw n I1 O1) as (s2 & b & lr2 & E2 & I2 & W2 & S2 & B2 & O2 & C2 & rcs & A & B & C). rewrite E2. cbn [bind].
    rewrite autoclose_live by apply (i_flags _ _ _ I2). cbn [bind]. destruct (inbuf s1) eqn:Ei; [|discriminate].
    exists s2, b, lr2. split; [reflexivity|]. split; [exact I2|]. split; [|split; [|split; [|split]]].
    + change b with ([] ++ b). eapply rstep_trans; [exact R1|]. exists rcs. rewrite B2, Ei. cbn. auto.
    + destruct W1 as (?&?&?&?), W2 as (?&?&?&?). repeat split; congruence.
    + eapply same_trans; eassumption.
    + exact O2.
    + congruence.
  - cbn [bind]. rewrite autoclose_live by (cbn; apply (i_flags _ _ _ I1)). cbn [bind]. eexists _, _, lr1. split; [reflexivity|].
    split; [|split; [|split; [|split; [|split]]]]; [| |exact W1|exact S1|exact O1|exact C1].
    + destruct I1 as [F S Ri Rc L W D]. constructor; cbn; auto.
    + change (firstn n (inbuf s1)) with ([] ++ firstn n (inbuf s1)). eapply rstep_trans; [exact R1|]. exists []. cbn. rewrite !app_nil_r, app_assoc, firstn_skipn. auto.
Qed.
Lemma select_ok s lr lw rd w : inv s lr lw -> open_script (u_script (below s)) ->
  exists s' lr' lw', select rd w s = Ok s' /\ inv s' lr' lw' /\ rstep s s' lr lr' [] /\ wstep s s' lw lw' [] /\ same s s' /\ open_script (u_script (below s')) /\ u_cb (below s') = u_cb (below s).
Proof.
  intros H Ho. unfold select.
  assert (exists s1 lr1, (if rd && negb (is_nil (rout s)) then pull 0 s else Ok s) = Ok s1 /\ inv s1 lr1 lw /\ rstep s s1 lr lr1 [] /\ wsame s s1 /\ same s s1 /\ open_script (u_script (below s1)) /\ u_cb (below s1) = u_cb (below s)) as (s1 & lr1 & E & I1 & R1 & W1 & S1 & O1 & C1).
  { destruct (rd && negb (is_nil (rout s))).
    - destruct (pull_ok s lr lw 0 H Ho) as (s1 & lr1 & ?&?&?&?&?&?&?&?). exists s1, lr1. auto 10.
    - exists s, lr. sp; auto using same_refl, wsame_refl, rsame_refl. apply rsame_step, rsame_refl. }
  rewrite E. cbn [bind]. destruct (push_ok s1 lr1 lw false I1) as (s2 & lw2 & E2 & I2 & W2 & R2 & S2 & _). rewrite E2. cbn [bind].
  assert (FL : forall s0 l0 b, inv s0 lr1 l0 -> exists s' l', (if b : bool then flush s0 else Ok s0) = Ok s' /\ inv s' lr1 l' /\ wstep s0 s' l0 l' [] /\ rsame s0 s' /\ same s0 s').
  { intros s0 l0 b H0. destruct b.
    - destruct (flush_ok s0 lr1 l0 H0) as (s' & l' & ?&?&?&?&?&_). exists s', l'. auto 10.
    - exists s0, l0. sp; auto using same_refl, wsame_refl, rsame_refl. apply wsame_step, wsame_refl. }
  destruct (FL s2 lw2 (negb (delayed s2)) I2) as (s3 & lw3 & E3 & I3 & W3 & R3 & S3).
  replace (if delayed s2 then Ok s2 else flush s2) with (if negb (delayed s2) then flush s2 else Ok s2) by (destruct (delayed s2); reflexivity).
  rewrite E3. cbn [bind]. destruct (FL s3 lw3 w I3) as (s4 & lw4 & E4 & I4 & W4 & R4 & S4). rewrite E4.
  pose proof (rsame_trans _ _ _ (rsame_trans _ _ _ R2 R3) R4) as R.
  exists s4, lr1, lw4. split; [reflexivity|]. split; [exact I4|]. split; [|split; [|split; [|split]]].
  - change (@nil byte) with (@nil byte ++ []). eapply rstep_trans; [exact R1|]. now apply rsame_step.
  - change (@nil byte) with (@nil byte ++ []). eapply wstep_trans; [apply wsame_step; exact W1|]. change (@nil byte) with (@nil byte ++ []). eapply wstep_trans; [exact W2|].
    change (@nil byte) with (@nil byte ++ []). eapply wstep_trans; [exact W3|exact W4].
  - eapply same_trans; [exact S1|]. eapply same_trans; [exact S2|]. eapply same_trans; eassumption.
  - destruct R as (_&_&_&_&->&_). exact O1.
  - destruct R as (_&_&_&_&_&->). exact C1.
Qed.
Lemma step_ok o s lr lw : plain_op o -> inv s lr lw -> open_script (u_script (below s)) ->
  exists s' b lr' lw', step o s = Ok (s', b) /\ inv s' lr' lw' /\ rstep s s' lr lr' b /\ wstep s s' lw lw' (match o with Write b => b | _ => [] end) /\ same s s' /\ open_script (u_script (below s')).
Proof.
  intros P H Ho. destruct o as [n|b| |rd w| |i E|i E]; try contradiction; cbn [step].
  - destruct (read_ok s lr lw n H Ho) as (s' & b & lr' & E & I & R & W & S & O & _). exists s', b, lr', lw. sp; auto using same_refl, wsame_refl, rsame_refl. now apply wsame_step.
  - destruct (write_ok s lr lw b H) as (s' & lw' & E & I & W & R & S). rewrite E. exists s', [], lr, lw'. sp; auto using same_refl, wsame_refl, rsame_refl; [now apply rsame_step|]. destruct R as (_&_&_&_&->&_). exact Ho.
  - destruct (flush_ok s lr lw H) as (s' & lw' & E & I & W & R & S & _). rewrite E. exists s', [], lr, lw'. sp; auto using same_refl, wsame_refl, rsame_refl; [now apply rsame_step|]. destruct R as (_&_&_&_&->&_). exact Ho.
  - destruct (select_ok s lr lw rd w H Ho) as (s' & lr' & lw' & E & I & R & W & S & O & _). rewrite E. exists s', [], lr', lw'. sp; auto using same_refl, wsame_refl, rsame_refl.
Qed.
Lemma run_plain l : forall s lr lw, Forall plain_op l -> inv s lr lw -> open_script (u_script (below s)) ->
  exists s' b lr' lw', run l s = Ok (s', b) /\ inv s' lr' lw' /\ rstep s s' lr lr' b /\ wstep s s' lw lw' (written l) /\ same s s' /\ open_script (u_script (below s')).
Proof.
  induction l as [|o l IH]; intros s lr lw P H Ho; cbn [run].
  - exists s, [], lr, lw. sp; auto using same_refl, wsame_refl, rsame_refl; [apply rsame_step, rsame_refl|apply wsame_step, wsame_refl].
  - inversion P as [|x y P1 P2 E]; subst. destruct (step_ok o s lr lw P1 H Ho) as (s1 & b1 & lr1 & lw1 & E1 & I1 & R1 & W1 & S1 & O1). rewrite E1. cbn [bind].
    destruct (IH s1 lr1 lw1 P2 I1 O1) as (s2 & b2 & lr2 & lw2 & E2 & I2 & R2 & W2 & S2 & O2). rewrite E2. cbn [bind].
    exists s2, (b1 ++ b2), lr2, lw2. split; [reflexivity|]. split; [exact I2|]. split; [eapply rstep_trans; eassumption|]. split; [cbn; eapply wstep_trans; eassumption|]. split; [eapply same_trans; eassumption|exact O2].
Qed.

(** ** Streams that closed *)
Definition fin_out (l : live) : bytes := let (l1, o1) := pipe l [] true false in o1 ++ snd (pipe l1 [] true true).
Definition cdone (c : chain) : Prop := c_fin c = true /\ c_ok c = true /\ Forall done (c_stages c).
Lemma cdone_encode c b f : cdone c -> chain_encode c b f = Ok (c, b, [], false).
Proof. intros (H1 & H2 & H3). unfold chain_encode. now rewrite H1, H2. Qed.
Lemma cdone_finish c : cdone c -> chain_finish c = Ok (c, [], false).
Proof. intros (H1 & H2 & H3). unfold chain_finish. rewrite H1, H2. cbn. destruct c; cbn in *. now subst. Qed.
Lemma cdone_isok c : cdone c -> chain_isok c = true.
Proof. intros (H1 & H2 & H3). unfold chain_isok. rewrite H2. cbn. now apply done_ok. Qed.
Lemma run_done st : Forall done st -> exists st' r, run_stages st [] false false = Ok (st', [], [], r) /\ Forall done st'.
Proof.
  induction 1 as [|[i E x b] l (H1 & H2 & H3) Hl IH]; cbn in *; [exists [], true; split; [reflexivity|constructor]|].
  subst b. unfold enc_do_encode. rewrite H1, H2. cbn. destruct IH as (st' & r & E1 & E2). rewrite E1. cbn. eexists _, _. split; [reflexivity|]. constructor; [|exact E2]. repeat split; auto.
Qed.
Lemma split_forall (P : stage -> Prop) st i a b : split_at st i = Some (a, b) -> Forall P st -> Forall P a /\ Forall P b.
Proof.
  revert a b. induction st as [|x st IH]; intros a b; cbn; [discriminate|]. intros E H. inversion H as [|y z H1 H2 E']; subst.
  destruct (s_id x =? i); [injection E as <- <-; split; auto|]. destruct (split_at st i) as [[a' b']|]; [|discriminate]. injection E as <- <-.
  destruct (IH _ _ eq_refl H2). auto.
Qed.
Lemma cdone_continue c : cdone c -> exists c' r, continue_encode c [] = Ok (c', [], [], r) /\ cdone c'.
Proof.
  intros (H1 & H2 & H3). unfold continue_encode, do_encode. destruct (c_last c) as [i|].
  - destruct (split_at (c_stages c) i) as [[a b]|] eqn:E.
    + destruct (split_forall done _ _ _ _ E H3) as [Ha Hb]. destruct (run_done b Hb) as (st' & r & E1 & E2). rewrite E1. cbn. eexists _, _. split; [reflexivity|].
      repeat split; auto. cbn. apply Forall_app. auto.
    + eexists _, _. split; [reflexivity|]. repeat split; auto.
  - destruct (run_done _ H3) as (st' & r & E1 & E2). rewrite E1. cbn. eexists _, _. split; [reflexivity|]. repeat split; auto.
Qed.
Record cinv (s : es) : Prop := CInv {
  k_flags : closing s = true /\ closed s = true;
  k_sub : u_ok (below s) = false;
  k_rc : cdone (rc s);
  k_wc : cdone (wc s);
  k_bufs : rout s = [] /\ outbuf s = [] }.
Lemma autoclose_closed s : closed s = true -> maybe_autoclose s = Ok s.
Proof. intro H. unfold maybe_autoclose. rewrite H, andb_false_r. reflexivity. Qed.
(** finish_read of a live and of a finished chain *)
Lemma crel_fin c l : crel c l [] -> exists c1 c2 r1 r2 o1 o2, chain_encode c [] true = Ok (c1, [], o1, r1) /\ chain_finish c1 = Ok (c2, o2, r2) /\ cdone c2 /\ o1 ++ o2 = fin_out l.
Proof.
  intro H. destruct (chain_encode_ok c l [] [] true H) as (c1 & h1 & r1 & E1 & R1 & _ & F1 & _). destruct (F1 eq_refl) as [-> _].
  destruct (chain_finish_ok c1 _ R1) as (c2 & r2 & E2 & A & B & D & _).
  exists c1, c2, r1, r2, (snd (pipe l [] true false)), (snd (pipe (fst (pipe l [] true false)) [] true true)). cbn in E1. sp; auto.
  - repeat split; auto.
  - unfold fin_out. destruct (pipe l [] true false). reflexivity.
Qed.
Lemma close_gen s lw (o : bytes) : closing s = false -> rin s = [] -> crel (wc s) lw (win s) -> (u_ok (below s) = true -> u_room (below s) = None) ->
  (exists c1 c2 r1 r2 o1 o2, chain_encode (rc s) [] true = Ok (c1, [], o1, r1) /\ chain_finish c1 = Ok (c2, o2, r2) /\ cdone c2 /\ o1 ++ o2 = o) ->
  exists s', close s = Ok s' /\ cinv s' /\ inbuf s' = inbuf s ++ rout s ++ o /\ err s' = err s /\ u_err (below s') = u_err (below s) /\ same s s' /\ rin s' = [] /\ u_script (below s') = u_script (below s) /\
    u_got (below s') = u_got (below s) ++ (if u_ok (below s) then snd (pipe lw (outbuf s) true false) ++ snd (pipe (fst (pipe lw (outbuf s) true false)) [] true true) else []).
Proof.
  intros Hc Hri Hw Hu (c1 & c2 & r1 & r2 & o1 & o2 & E1 & E2 & D & Eo).
  unfold close. rewrite Hc. unfold finish_read. cbn [rc rin set_flags inbuf rout]. rewrite Hri, E1. cbn [bind]. rewrite E2. cbn [bind].
  unfold mark_read. cbn [rc set_in]. rewrite (cdone_isok _ D).
  unfold push at 1. cbn [win wc outbuf below set_in set_flags].
  destruct (chain_encode_ok _ _ _ (outbuf s) true Hw) as (w1 & h1 & q1 & F1 & G1 & _ & K1 & _). rewrite F1. cbn [bind].
  destruct (K1 eq_refl) as [-> _]. destruct (chain_finish_ok w1 _ G1) as (w2 & q2 & F2 & A2 & B2 & D2 & _). rewrite F2. cbn [bind].
  assert (DW : cdone w2) by (repeat split; auto).
  unfold mark_write. cbv beta. cbn [wc set_out set_in set_flags]. rewrite (cdone_isok _ DW). cbn [orb bind].
  unfold push. cbn [win wc outbuf below set_in set_flags set_out]. rewrite cdone_encode by exact DW. cbn [bind].
  cbv beta. cbn [wc set_out set_flags]. rewrite (cdone_isok _ DW). cbn [orb bind].
  eexists. split; [reflexivity|]. split; [|].
  - constructor; cbn; auto.
  - cbn. split; [now rewrite Eo|]. split; [reflexivity|]. split; [|split; [repeat split|split; [reflexivity|]]].
    + unfold sub_write. destruct (u_ok (below s)) eqn:Eu; cbn; rewrite ?Eu; cbn; reflexivity.
    + destruct (u_ok (below s)) eqn:Eu; [rewrite (sub_write_all (below s)) by auto; rewrite sub_write_all by (cbn; reflexivity)|unfold sub_write; rewrite Eu; cbn; rewrite Eu; cbn]; cbn; rewrite ?app_nil_r; auto.
Qed.
Lemma inv_close s lr lw : inv s lr lw -> exists s', close s = Ok s' /\ cinv s' /\ inbuf s' = inbuf s ++ rout s ++ fin_out lr /\ err s' = false /\ u_err (below s') = false /\ same s s' /\
    u_got (below s') = u_got (below s) ++ snd (pipe lw (outbuf s) true false) ++ snd (pipe (fst (pipe lw (outbuf s) true false)) [] true true).
Proof.
  intros [F S Ri Rc L W D]. destruct F as (F1 & F2 & F3 & F4 & F5). destruct S as (S1 & S2 & S3).
  destruct (close_gen s lw (fin_out lr) F1 Ri W (fun _ => S3) (crel_fin _ _ Rc)) as (s' & E & I & B & Er & Ue & Sm & _ & _ & G). rewrite S1 in G.
  exists s'. sp; auto; congruence.
Qed.
(** A closed stream only hands out what it has *)
Lemma cinv_pull s n : cinv s -> exists s', pull n s = Ok s' /\ cinv s' /\ inbuf s' = inbuf s /\ u_got (below s') = u_got (below s) /\ same s s'.
Proof.
  intros [[F1 F2] S R W [B1 B2]]. unfold pull.
  assert (E : (if n =? 0 then Ok s else sub_read s n) = Ok s).
  { destruct (n =? 0); [reflexivity|]. unfold sub_read. rewrite S. destruct (u_script (below s)) as [|[c cl] r]; reflexivity. }
  rewrite E. cbn [bind]. rewrite B1, S. destruct (cdone_continue _ R) as (c1 & r1 & E1 & D1). rewrite E1. cbn [bind]. rewrite cdone_encode by exact D1. cbn [bind negb].
  rewrite cdone_finish by exact D1. cbn [bind]. unfold close. cbn [closing set_in]. rewrite F1. cbn [bind]. unfold checkread. cbn [rc set_in]. rewrite (cdone_isok _ D1).
  eexists. split; [reflexivity|]. split; [constructor; cbn; auto|]. repeat split.
Qed.
Lemma cinv_uread s n : cinv s -> exists s', uread n s = Ok (s', []) /\ cinv s' /\ inbuf s' = inbuf s /\ u_got (below s') = u_got (below s) /\ same s s'.
Proof.
  intro H. unfold uread.
  assert (exists s1, (if negb (n =? 0) && is_nil (rout s) then pull (Nat.max (min_read s) n) s else Ok s) = Ok s1 /\ cinv s1 /\ inbuf s1 = inbuf s /\ u_got (below s1) = u_got (below s) /\ same s s1) as (s1 & E & I & B & G & S).
  { destruct (negb (n =? 0) && is_nil (rout s)); [now apply cinv_pull|]. exists s. sp; auto using same_refl. }
  rewrite E. cbn [bind]. pose proof I as [K1 K2 K3 K4 [K5 K6]]. rewrite K5, skipn_nil, firstn_nil. eexists. split; [reflexivity|].
  split; [constructor; cbn; auto|]. sp; auto.
Qed.
Lemma cinv_read s n : cinv s -> exists s' b, read n s = Ok (s', b) /\ cinv s' /\ b ++ inbuf s' = inbuf s /\ u_got (below s') = u_got (below s) /\ same s s' /\ (queue_min s = 0 -> b = firstn n (inbuf s)).
Proof.
  intro H. unfold read.
  assert (exists s1, (if length (inbuf s) <? queue_min s then
       let! (s0, b) := uread (queue_min s - length (inbuf s)) s in
       if length (inbuf s0) =? length (inbuf s) then Ok (set_in s0 (inbuf s0 ++ b) (rin s0) (rout s0) (rc s0)) else Fault
     else Ok s) = Ok s1 /\ cinv s1 /\ inbuf s1 = inbuf s /\ u_got (below s1) = u_got (below s) /\ same s s1) as (s1 & E & I & B & G & S).
  { destruct (length (inbuf s) <? queue_min s); [|exists s; sp; auto using same_refl].
    destruct (cinv_uread s (queue_min s - length (inbuf s)) H) as (s1 & E & I & B & G & S). rewrite E. cbn [bind]. rewrite B, Nat.eqb_refl, app_nil_r.
    pose proof I as [K1 K2 K3 K4 [K5 K6]]. eexists. split; [reflexivity|]. split; [constructor; cbn; auto|]. sp; auto. }
  rewrite E. cbn [bind]. destruct (length (inbuf s1) <? queue_min s1) eqn:Q.
  { rewrite autoclose_closed by apply (k_flags _ I). cbn [bind]. exists s1, []. sp; auto. intro Hq. destruct S as (S1 & _). rewrite S1, Hq in Q. destruct (length (inbuf s1)); discriminate. }
  destruct (is_nil (inbuf s1)) eqn:En.
  - destruct (cinv_uread s1 n I) as (s2 & E2 & I2 & B2 & G2 & S2). rewrite E2. cbn [bind]. rewrite autoclose_closed by apply (k_flags _ I2). cbn [bind].
    exists s2, []. sp; cbn [app]; auto; try congruence; [eapply same_trans; eassumption|]. destruct (inbuf s1); [|discriminate]. rewrite <- B. now rewrite firstn_nil.
  - cbn [bind]. rewrite autoclose_closed by (cbn; apply (k_flags _ I)). cbn [bind]. eexists _, _. split; [reflexivity|].
    pose proof I as [K1 K2 K3 K4 K5]. split; [constructor; cbn; auto|]. cbn. rewrite firstn_skipn. sp; auto. now rewrite B.
Qed.
Lemma cinv_push s f : cinv s -> exists s', push checkwrite f false s = Ok s' /\ cinv s' /\ inbuf s' = inbuf s /\ u_got (below s') = u_got (below s) /\ same s s'.
Proof.
  intros [F S R W [B1 B2]]. unfold push. rewrite cdone_encode by exact W. cbn [bind]. unfold checkwrite. cbn [wc set_out]. rewrite (cdone_isok _ W). cbn [bind].
  eexists. split; [reflexivity|]. cbn. assert (E : sub_write (below s) [] = below s) by (unfold sub_write; now rewrite S). rewrite E. split; [|repeat split].
  constructor; cbn; auto. rewrite B2. destruct f; auto.
Qed.
Lemma cinv_flush s : cinv s -> exists s', flush s = Ok s' /\ cinv s' /\ inbuf s' = inbuf s /\ u_got (below s') = u_got (below s) /\ same s s'.
Proof.
  intro H. unfold flush. destruct (cinv_push s true H) as (s' & E & I & R). rewrite E. cbn [bind]. rewrite autoclose_closed by apply (k_flags _ I). exists s'. auto.
Qed.
Lemma cinv_step o s : steady_op o -> cinv s -> exists s' b, step o s = Ok (s', b) /\ cinv s' /\ b ++ inbuf s' = inbuf s /\ u_got (below s') = u_got (below s) /\ same s s'.
Proof.
  intros P H. destruct o as [n|b| |rd w| |i E|i E]; try contradiction; cbn [step].
  - destruct (cinv_read s n H) as (s' & b & E & I & B & G & S & _). exists s', b. auto.
  - unfold write, isok. destruct (k_flags _ H) as [_ ->]. cbn. exists s, []. sp; auto using same_refl.
  - destruct (cinv_flush s H) as (s' & E & I & R). rewrite E. exists s', []. auto.
  - unfold select. destruct (k_bufs _ H) as [-> _]. cbn [is_nil negb]. rewrite andb_false_r. cbn [bind].
    destruct (cinv_push s false H) as (s1 & E1 & I1 & B1 & G1 & S1). rewrite E1. cbn [bind].
    assert (FL : forall s0 b, cinv s0 -> exists s', (if b : bool then flush s0 else Ok s0) = Ok s' /\ cinv s' /\ inbuf s' = inbuf s0 /\ u_got (below s') = u_got (below s0) /\ same s0 s').
    { intros s0 [|] H0; [now apply cinv_flush|]. exists s0. sp; auto using same_refl. }
    replace (if delayed s1 then Ok s1 else flush s1) with (if negb (delayed s1) then flush s1 else Ok s1) by (destruct (delayed s1); reflexivity).
    destruct (FL s1 (negb (delayed s1)) I1) as (s2 & E2 & I2 & B2 & G2 & S2). rewrite E2. cbn [bind]. destruct (FL s2 w I2) as (s3 & E3 & I3 & B3 & G3 & S3). rewrite E3. cbn [bind].
    exists s3, []. sp; cbn [app]; auto; try congruence. eapply same_trans; [exact S1|]. eapply same_trans; eassumption.
  - unfold close. destruct (k_flags _ H) as [-> _]. exists s, []. sp; auto using same_refl.
Qed.
Lemma cinv_run l : forall s, Forall steady_op l -> cinv s -> exists s' b, run l s = Ok (s', b) /\ cinv s' /\ b ++ inbuf s' = inbuf s /\ u_got (below s') = u_got (below s) /\ same s s'.
Proof.
  induction l as [|o l IH]; intros s P H; cbn [run]; [exists s, []; sp; auto using same_refl|].
  inversion P as [|x y P1 P2 E]; subst. destruct (cinv_step o s P1 H) as (s1 & b1 & E1 & I1 & B1 & G1 & S1). rewrite E1. cbn [bind].
  destruct (IH s1 P2 I1) as (s2 & b2 & E2 & I2 & B2 & G2 & S2). rewrite E2. cbn [bind]. exists s2, (b1 ++ b2). sp; auto; try congruence. + now rewrite <- app_assoc, B2. + eapply same_trans; eassumption.
Qed.

(** ** The stream below ends *)
Definition eof_script (x : items) : Prop := exists pre, open_script pre /\ x = pre ++ [([], true)].
Lemma eof_shrinks x x' : eof_script x -> shrinks x x' -> eof_script x'.
Proof.
  intros (pre & H & ->) [->|(c & r & E & H')]; [now exists pre|]. destruct pre as [|[c0 b0] pre]; cbn in E; [discriminate|]. injection E as -> -> <-.
  inversion H as [|a b H1 H2 E]; subst. destruct H' as [->|[c' ->]]; [now exists pre|]. exists ((c', false) :: pre). split; [constructor; [reflexivity|exact H2]|reflexivity].
Qed.
Lemma eof_cases n x : eof_script x -> quiet n x \/ (n <> 0 /\ x = [([], true)]).
Proof.
  intros (pre & H & ->). destruct H as [|[c b] r H Hr]; cbn in *.
  - destruct n; [left; now left|right; split; [discriminate|reflexivity]].
  - subst b. left. now right.
Qed.
Lemma pull_eof s lr lw n : inv s lr lw -> n <> 0 -> u_script (below s) = [([], true)] ->
  exists s', pull n s = Ok s' /\ cinv s' /\ inbuf s' = inbuf s ++ rout s ++ fin_out lr /\ u_got (below s') = u_got (below s) /\ same s s'.
Proof.
  intros H Hn Hs. pose proof H as [F S Ri Rc L W D]. destruct F as (F1 & F2 & F3 & F4 & F5). destruct S as (S1 & S2 & S3).
  unfold pull. destruct n as [|n]; [contradiction|]. cbn [Nat.eqb]. unfold sub_read. rewrite Hs, S1. cbn [negb]. cbn [length Nat.leb].
  set (u' := Sub [] false (u_err (below s)) (u_room (below s)) (u_got (below s)) false).
  assert (rest : forall s1, closing s1 = false -> rin s1 = [] -> rc s1 = rc s -> rout s1 = rout s -> wc s1 = wc s -> win s1 = win s -> inbuf s1 = inbuf s -> below s1 = u' -> same s s1 ->
    exists s', (let! (c, _, ro, _) := continue_encode (rc s1) (rout s1) in
      let! (c, ri, o, _) := chain_encode c (rin s1) true in
      let! s := (if negb (u_ok (below s1)) then
         let! (c, o2, _) := chain_finish c in
         close (set_in s1 (inbuf s1) ri (ro ++ o ++ o2) c)
       else
         let s := set_in s1 (inbuf s1) ri (ro ++ o) c in
         if is_nil (rout s) && is_nil (inbuf s) && chain_isfinished (rc s) then close s else Ok s) in
      checkread s) = Ok s' /\ cinv s' /\ inbuf s' = inbuf s ++ rout s ++ fin_out lr /\ u_got (below s') = u_got (below s) /\ same s s').
  { intros s1 A1 A2 A3 A4 A5 A6 A7 A8 A9. rewrite A2, A3, A4, A8. cbn [u_ok u' negb].
    destruct (continue_ok _ _ _ Rc L) as (c1 & r1 & Hc1 & Hrel1 & Hl1 & Hid1). rewrite Hc1. cbn [bind].
    destruct (crel_fin _ _ Hrel1) as (c2 & c3 & q1 & q2 & o1 & o2 & E1 & E2 & D2 & Eo). rewrite E1. cbn [bind]. rewrite E2. cbn [bind]. rewrite Eo.
    destruct (close_gen (set_in s1 (inbuf s1) [] (rout s ++ fin_out lr) c3) lw []) as (s' & E & I & B & Er & Ue & Sm & Ri' & _ & G); auto.
    - cbn. rewrite A5, A6. exact W.
    - cbn. rewrite A8. discriminate.
    - exists c3, c3, false, false, [], []. cbn [rc set_in]. rewrite cdone_encode, cdone_finish by exact D2. auto.
    - rewrite E. cbn [bind]. unfold checkread. rewrite (cdone_isok _ (k_rc _ I)). exists s'. sp; auto.
      + rewrite B. cbn. now rewrite A7, app_nil_r.
      + rewrite G. cbn. rewrite A8. cbn. now rewrite app_nil_r.
      + eapply same_trans; [exact A9|]. exact Sm. }
  destruct (u_cb (below s)).
  - unfold close_callback. cbn [closing closed err stop_read stop_write below set_flags]. rewrite autoclose_live by (cbn; exact F4). cbn [bind closing closed err stop_read stop_write below set_flags].
    unfold maybe_autoclose. cbn [stop_read stop_write outbuf inbuf closed set_flags]. rewrite F2. cbn [andb negb].
    destruct (is_nil (outbuf s)) eqn:Eo; [destruct (is_nil (inbuf s)) eqn:Ei|]; cbn [andb bind].
    + match goal with |- context [close ?x] => destruct (close_gen x lw (fin_out lr)) as (s' & E & I & B & Er & Ue & Sm & Ri' & _ & G) end; auto.
      { apply crel_fin. exact Rc. }
      rewrite E. cbn [bind]. rewrite Ri'. cbn [app].
      assert (CI : cinv (set_in s' (inbuf s') [] (rout s') (rc s'))) by (destruct I as [K1 K2 K3 K4 K5]; constructor; cbn; auto).
      cbn [rc rout rin below set_in inbuf]. destruct I as [[K0 K1] K2 K3 K4 [K5 K6]]. rewrite K5, K2.
      destruct (cdone_continue _ K3) as (c1 & r1 & E1 & D1). rewrite E1. cbn [bind]. rewrite cdone_encode by exact D1. cbn [bind negb].
      rewrite cdone_finish by exact D1. cbn [bind]. unfold close. cbn [closing set_in]. rewrite K0. cbn [bind]. unfold checkread. cbn [rc set_in]. rewrite (cdone_isok _ D1).
      eexists. split; [reflexivity|]. split; [constructor; cbn; auto|]. cbn. rewrite B, G. cbn. rewrite app_nil_r. auto.
    + apply rest; cbn; auto. * now rewrite Ri. * repeat split.
    + apply rest; cbn; auto. * now rewrite Ri. * repeat split.
  - cbn [bind]. apply rest; cbn; auto. + now rewrite Ri. + repeat split.
Qed.
(** ** Runs on a stream that ends *)
Definition rend (s s' : es) (lr : live) (got : bytes) : Prop := exists rcalls,
  data (u_script (below s)) = given rcalls /\ got ++ inbuf s' = inbuf s ++ rout s ++ snd (pipes lr rcalls) ++ fin_out (fst (pipes lr rcalls)).
Definition wend (s s' : es) (lw : live) (acc : bytes) : Prop := exists wcalls lost,
  given wcalls ++ lost = outbuf s ++ acc /\ u_got (below s') = u_got (below s) ++ snd (pipes lw wcalls).
Definition outcome (s s' : es) (lr lw : live) (got acc : bytes) : Prop :=
  (exists lr' lw', inv s' lr' lw' /\ eof_script (u_script (below s')) /\ rstep s s' lr lr' got /\ wstep s s' lw lw' acc) \/
  (cinv s' /\ rend s s' lr got /\ wend s s' lw acc).
Lemma rend_trans s0 s1 s2 l0 l1 a b : rstep s0 s1 l0 l1 a -> rend s1 s2 l1 b -> rend s0 s2 l0 (a ++ b).
Proof.
  intros (c1 & A1 & B1 & ->) (c2 & A2 & B2). exists (c1 ++ c2). rewrite pipes_app. destruct (pipes l0 c1) as [q o]. cbn in *. destruct (pipes q c2) as [q2 o2]. cbn in *. split.
  - unfold given in *. now rewrite map_app, concat_app, <- A2, <- A1.
  - rewrite <- app_assoc, B2, !app_assoc. rewrite <- (app_assoc a), B1, !app_assoc. reflexivity.
Qed.
Lemma wend_trans s0 s1 s2 l0 l1 a b : wstep s0 s1 l0 l1 a -> wend s1 s2 l1 b -> wend s0 s2 l0 (a ++ b).
Proof.
  intros (c1 & A1 & B1 & ->) (c2 & lost & A2 & B2). exists (c1 ++ c2), lost. rewrite pipes_app. destruct (pipes l0 c1) as [q o]. cbn in *. destruct (pipes q c2) as [q2 o2]. cbn in *. split.
  - unfold given in *. rewrite map_app, concat_app, <- app_assoc, A2, app_assoc, A1, app_assoc. reflexivity.
  - now rewrite B2, B1, app_assoc.
Qed.
Lemma data_app a b : data (a ++ b) = data a ++ data b.
Proof. unfold data. now rewrite map_app, concat_app. Qed.
Lemma read_eof s lr lw n : inv s lr lw -> eof_script (u_script (below s)) -> queue_min s = 0 ->
  exists s' b, read n s = Ok (s', b) /\ same s s' /\ outcome s s' lr lw b [].
Proof.
  intros H He Hq. unfold read. rewrite Hq. cbn [Nat.ltb Nat.leb]. replace (length (inbuf s) <? 0) with false by (symmetry; apply Nat.ltb_ge; lia). cbn [bind]. rewrite Hq. replace (length (inbuf s) <? 0) with false by (symmetry; apply Nat.ltb_ge; lia).
  destruct (is_nil (inbuf s)) eqn:Ei.
  - destruct (inbuf s) eqn:Ein; [|discriminate]. unfold uread.
    destruct (negb (n =? 0) && is_nil (rout s)) eqn:Ep.
    + apply andb_true_iff in Ep as [Ep Er]. apply negb_true_iff, Nat.eqb_neq in Ep. destruct (rout s) eqn:Ero; [|discriminate].
      destruct (eof_cases (Nat.max (min_read s) n) _ He) as [Q|[_ Q]].
      * destruct (pull_gen s lr lw _ H Q) as (s1 & lr1 & E & I & R & W & S & B & Sh & C). rewrite E. cbn [bind]. rewrite autoclose_live by (cbn; apply (i_flags _ _ _ I)). cbn [bind].
        eexists _, _. split; [reflexivity|]. split; [exact S|]. left. exists lr1, lw. sp.
        -- destruct I as [F S' Ri Rc L W' D]. constructor; cbn; auto. destruct L as [L|[L1 L2]]; [now left|]. right. split; [exact L1|]. rewrite L2. apply skipn_nil.
        -- cbn. eapply eof_shrinks; eassumption.
        -- destruct R as (rcs & A & B' & C'). exists rcs. cbn. rewrite B, Ein in *. cbn in *. rewrite firstn_skipn. auto.
        -- apply wsame_step. exact W.
      * destruct (pull_eof s lr lw (Nat.max (min_read s) n) H ltac:(lia) Q) as (s1 & E & I & B & G & S). rewrite E. cbn [bind].
        destruct (k_bufs _ I) as [K5 K6]. rewrite K5, skipn_nil, firstn_nil. rewrite autoclose_closed by (cbn; apply (k_flags _ I)). cbn [bind].
        eexists _, _. split; [reflexivity|]. split; [exact S|]. right. sp.
        -- destruct I as [A1 A2 A3 A4 A5]. constructor; cbn; auto.
        -- exists []. cbn. rewrite Q. split; [reflexivity|]. exact B.
        -- exists [], (outbuf s). cbn. rewrite !app_nil_r. auto.
    + cbn [bind]. rewrite autoclose_live by (cbn; apply (i_flags _ _ _ H)). cbn [bind]. eexists _, _. split; [reflexivity|]. split; [repeat split|]. left. exists lr, lw. sp.
      * destruct H as [F S Ri Rc L W D]. constructor; cbn; auto. destruct L as [L|[L1 L2]]; [now left|]. right. split; [exact L1|]. rewrite L2. apply skipn_nil.
      * exact He.
      * exists []. cbn. rewrite !app_nil_r, Ein. cbn. rewrite firstn_skipn. auto.
      * apply wsame_step. repeat split.
  - cbn [bind]. rewrite autoclose_live by (cbn; apply (i_flags _ _ _ H)). cbn [bind]. eexists _, _. split; [reflexivity|]. split; [repeat split|]. left. exists lr, lw. sp.
    + destruct H as [F S Ri Rc L W D]. constructor; cbn; auto.
    + exact He.
    + exists []. cbn. rewrite !app_nil_r, app_assoc, firstn_skipn. auto.
    + apply wsame_step. repeat split.
Qed.
Lemma select_eof s lr lw rd w : inv s lr lw -> eof_script (u_script (below s)) -> exists s', select rd w s = Ok s' /\ same s s' /\ outcome s s' lr lw [] [].
Proof.
  intros H He. unfold select.
  assert (exists s1 lr1, (if rd && negb (is_nil (rout s)) then pull 0 s else Ok s) = Ok s1 /\ inv s1 lr1 lw /\ rstep s s1 lr lr1 [] /\ wsame s s1 /\ same s s1 /\ eof_script (u_script (below s1))) as (s1 & lr1 & E & I1 & R1 & W1 & S1 & O1).
  { destruct (rd && negb (is_nil (rout s))).
    - destruct (pull_gen s lr lw 0 H (or_introl eq_refl)) as (s1 & lr1 & ?&?&?&?&?&?&Sh&?). exists s1, lr1. sp; auto. eapply eof_shrinks; eassumption.
    - exists s, lr. sp; auto using same_refl, wsame_refl. apply rsame_step, rsame_refl. }
  rewrite E. cbn [bind]. destruct (push_ok s1 lr1 lw false I1) as (s2 & lw2 & E2 & I2 & W2 & R2 & S2 & _). rewrite E2. cbn [bind].
  assert (FL : forall s0 l0 b, inv s0 lr1 l0 -> exists s' l', (if b : bool then flush s0 else Ok s0) = Ok s' /\ inv s' lr1 l' /\ wstep s0 s' l0 l' [] /\ rsame s0 s' /\ same s0 s').
  { intros s0 l0 b H0. destruct b.
    - destruct (flush_ok s0 lr1 l0 H0) as (s' & l' & ?&?&?&?&?&_). exists s', l'. auto 10.
    - exists s0, l0. sp; auto using same_refl, rsame_refl. apply wsame_step, wsame_refl. }
  destruct (FL s2 lw2 (negb (delayed s2)) I2) as (s3 & lw3 & E3 & I3 & W3 & R3 & S3).
  replace (if delayed s2 then Ok s2 else flush s2) with (if negb (delayed s2) then flush s2 else Ok s2) by (destruct (delayed s2); reflexivity).
  rewrite E3. cbn [bind]. destruct (FL s3 lw3 w I3) as (s4 & lw4 & E4 & I4 & W4 & R4 & S4). rewrite E4.
  pose proof (rsame_trans _ _ _ (rsame_trans _ _ _ R2 R3) R4) as R.
  exists s4. split; [reflexivity|]. split; [eapply same_trans; [exact S1|]; eapply same_trans; [exact S2|]; eapply same_trans; eassumption|]. left. exists lr1, lw4. sp.
  - exact I4.
  - destruct R as (_&_&_&_&->&_). exact O1.
  - change (@nil byte) with (@nil byte ++ []). eapply rstep_trans; [exact R1|]. now apply rsame_step.
  - change (@nil byte) with (@nil byte ++ []). eapply wstep_trans; [apply wsame_step; exact W1|]. change (@nil byte) with (@nil byte ++ []). eapply wstep_trans; [exact W2|].
    change (@nil byte) with (@nil byte ++ []). eapply wstep_trans; [exact W3|exact W4].
Qed.
Lemma step_eof o s lr lw : plain_op o -> inv s lr lw -> eof_script (u_script (below s)) -> queue_min s = 0 ->
  exists s' b, step o s = Ok (s', b) /\ same s s' /\ outcome s s' lr lw b (match o with Write b => b | _ => [] end).
Proof.
  intros P H He Hq. destruct o as [n|b| |rd w| |i E|i E]; try contradiction; cbn [step].
  - now apply read_eof.
  - destruct (write_ok s lr lw b H) as (s' & lw' & E & I & W & R & S). rewrite E. exists s', []. sp; auto. left. exists lr, lw'. sp; auto; [|now apply rsame_step]. destruct R as (_&_&_&_&->&_). exact He.
  - destruct (flush_ok s lr lw H) as (s' & lw' & E & I & W & R & S & _). rewrite E. exists s', []. sp; auto. left. exists lr, lw'. sp; auto; [|now apply rsame_step]. destruct R as (_&_&_&_&->&_). exact He.
  - destruct (select_eof s lr lw rd w H He) as (s' & E & S & O). rewrite E. exists s', []. auto.
Qed.
Lemma run_eof l : forall s lr lw, Forall plain_op l -> inv s lr lw -> eof_script (u_script (below s)) -> queue_min s = 0 ->
  exists s' b, run l s = Ok (s', b) /\ same s s' /\ outcome s s' lr lw b (written l).
Proof.
  induction l as [|o l IH]; intros s lr lw P H He Hq; cbn [run].
  - exists s, []. sp; auto using same_refl. left. exists lr, lw. sp; auto; [apply rsame_step, rsame_refl|apply wsame_step, wsame_refl].
  - inversion P as [|x y P1 P2 E]; subst. destruct (step_eof o s lr lw P1 H He Hq) as (s1 & b1 & E1 & S1 & O1). rewrite E1. cbn [bind].
    change (written (o :: l)) with ((match o with Write b => b | _ => [] end) ++ written l).
    destruct O1 as [(lr1 & lw1 & I1 & He1 & R1 & W1)|(C1 & R1 & W1)].
    + destruct (IH s1 lr1 lw1 P2 I1 He1) as (s2 & b2 & E2 & S2 & O2). { destruct S1 as (-> & _). exact Hq. }
      rewrite E2. cbn [bind]. exists s2, (b1 ++ b2). sp; auto; [eapply same_trans; eassumption|].
      destruct O2 as [(lr2 & lw2 & I2 & He2 & R2 & W2)|(C2 & R2 & W2)].
      * left. exists lr2, lw2. sp; auto; [eapply rstep_trans; eassumption|eapply wstep_trans; eassumption].
      * right. sp; auto; [eapply rend_trans; eassumption|eapply wend_trans; eassumption].
    + assert (P2' : Forall steady_op l). { eapply Forall_impl; [|exact P2]. intros []; cbn; auto. }
      destruct (cinv_run l s1 P2' C1) as (s2 & b2 & E2 & I2 & B2 & G2 & S2). rewrite E2. cbn [bind]. exists s2, (b1 ++ b2). sp; auto; [eapply same_trans; eassumption|].
      right. sp; auto.
      * destruct R1 as (rcs & A & B). exists rcs. split; [exact A|]. now rewrite <- app_assoc, B2.
      * destruct W1 as (wcs & lost & A & B). exists wcs, (lost ++ written l). split; [now rewrite app_assoc, A, app_assoc|]. congruence.
Qed.

(** ** Appending to the read chain *)
Lemma rel_app_gen st l h E M (I : works_like E M) i s : w_held I s = [] -> rel st l h -> rel (st ++ [Stage i E (Est true false (w_st I s)) []]) (l ++ [existT _ M s]) h.
Proof.
  intros Hs. induction 1 as [|i' E' M' I' s' r l buf Hr IH]; cbn.
  - pose proof (rel_cons i E M I s [] [] [] rel_nil) as R. rewrite Hs in R. exact R.
  - apply rel_cons. exact IH.
Qed.
Lemma split_at_app st : forall i a y, split_at st i = Some (a, []) -> split_at (st ++ [y]) i = Some (a, [y]).
Proof.
  induction st as [|x st IH]; intros i a y; cbn; [discriminate|].
  destruct (s_id x =? i).
  - intro H. injection H as <- ->. reflexivity.
  - destruct (split_at st i) as [[a' b']|] eqn:E; [|discriminate]. intro H. injection H as <- ->. now rewrite (IH i a' y E).
Qed.
Lemma continue_append c l ro i E M (I : works_like E M) : (forall s, w_held I s = []) -> crel c l [] -> last_ok c ro -> ro <> [] -> ~ In i (map s_id (c_stages c)) ->
  exists c' r, continue_encode (chain_append c i E) ro = Ok (c', [], snd (pipe (fresh [M]) ro false false), r) /\ crel c' (l ++ fst (pipe (fresh [M]) ro false false)) [].
Proof.
  intros Hh (Ho & Hf & Hr & Hn) HL Hro Hi.
  assert (HL' : c_last c = last_id (c_stages c) None) by (destruct HL as [HL|[_ HL]]; [exact HL|contradiction]). clear HL.
  destruct (enc_ok E M I (M_init M) ro false) as [ret Hret]. destruct (w_init I) as [Ei Eh]. rewrite Ei, Eh in Hret. cbn [app] in Hret.
  destruct (call_run M (M_init M) ro false false) as [s' o] eqn:Ec.
  assert (Ep : pipe (fresh [M]) ro false false = ([existT _ M s'], o)). { cbn. rewrite Ec. reflexivity. }
  rewrite Ep. cbn [fst snd].
  assert (Er : run_stages [Stage i E (est_init E) []] ro false false = Ok ([Stage i E (Est true false (w_st I s')) []], [], o, ret && true && true)).
  { cbn [run_stages s_enc s_st s_id s_buf]. unfold est_init. rewrite Hret. cbn. rewrite app_nil_r, Hh. reflexivity. }
  unfold continue_encode, do_encode. cbn [c_last chain_append c_stages c_ok c_fin]. rewrite HL'.
  assert (ND : NoDup (map s_id (c_stages c) ++ [i])). { apply NoDup_app_intro; [exact Hn|repeat constructor; auto|]. intros x Hx [<-|[]]. contradiction. }
  unfold last_id at 1. destruct (rev (c_stages c)) as [|x r] eqn:Erev.
  - assert (Es : c_stages c = []) by (rewrite <- (rev_involutive (c_stages c)), Erev; reflexivity). rewrite Es. cbn [app]. rewrite Er. cbn [bind].
    eexists _, _. split; [reflexivity|]. rewrite Es in Hr. inversion Hr as [El|]; subst. repeat split; cbn; auto.
    + apply (rel_app_gen [] [] [] E M I i s' (Hh s')). constructor.
    + repeat constructor. auto.
  - assert (Es : c_stages c = rev r ++ [x]) by (rewrite <- (rev_involutive (c_stages c)), Erev; reflexivity).
    pose proof (split_at_last _ _ _ Es Hn) as Sp. rewrite (split_at_app _ _ _ _ Sp). rewrite Er. cbn [bind].
    eexists _, _. split; [reflexivity|]. repeat split; cbn; auto.
    + apply rel_app_gen; [apply Hh|exact Hr].
    + rewrite map_app. exact ND.
Qed.
Lemma pull_append s lr lw i E M (I : works_like E M) : (forall x, w_held I x = []) -> inv s lr lw -> rout s <> [] -> ~ In i (map s_id (c_stages (rc s))) ->
  exists s', pull 0 (set_in s (inbuf s) (rin s) (rout s) (chain_append (rc s) i E)) = Ok s' /\
    let (lm, om) := pipe (fresh [M]) (rout s) false false in
    inv s' (fst (pipe (lr ++ lm) [] true false)) lw /\ rout s' = om ++ snd (pipe (lr ++ lm) [] true false) /\ inbuf s' = inbuf s /\ wsame s s' /\ same s s' /\ below s' = below s.
Proof.
  intros Hh [F S Ri Rc L W D] Hro Hi. destruct F as (F1 & F2 & F3 & F4 & F5). destruct S as (S1 & S2 & S3).
  unfold pull. cbn [Nat.eqb bind]. cbn [below set_in rc rout rin inbuf]. rewrite S1. cbn [negb].
  destruct (continue_append _ _ (rout s) i E M I Hh Rc L Hro Hi) as (c1 & r1 & E1 & R1). rewrite E1. cbn [bind]. rewrite Ri.
  destruct (pipe (fresh [M]) (rout s) false false) as [lm om]. cbn [fst snd] in *.
  destruct (chain_encode_ok _ _ _ [] true R1) as (c2 & h2 & r2 & E2 & R2 & _ & K2 & _). cbn [app] in E2. rewrite E2. cbn [bind]. destruct (K2 eq_refl) as [-> L2].
  destruct (chain_isok_ok _ _ _ R2) as [O1 O2]. cbn [rc set_in]. rewrite O2, andb_false_r. cbn [bind]. unfold checkread. cbn [rc set_in]. rewrite O1.
  eexists. split; [reflexivity|]. split; [constructor; cbn; auto; now left|]. repeat split; auto.
Qed.
Lemma start_inv er mr ew mw script qm mn dl au : like er mr -> like ew mw -> inv (start script None qm mn dl au (chain_of er) (chain_of ew)) (fresh mr) (fresh mw).
Proof.
  intros Hr Hw.
  destruct (build_rel er mr Hr chain_empty [] [] 0 empty_rel) as [R1 L1]; [intros x []|]. destruct (build_rel ew mw Hw chain_empty [] [] 0 empty_rel) as [R2 _]; [intros x []|].
  constructor; cbn; auto. right. auto.
Qed.
(** ** Feeding a chain *)
Lemma chain_feed_ok calls : forall c l h, crel c l h -> exists c' h', chain_feed c h calls = Ok (c', h', snd (pipes l calls)) /\ crel c' (fst (pipes l calls)) h'.
Proof.
  induction calls as [|[b f] calls IH]; intros c l h H; cbn [chain_feed].
  - exists c, h. auto.
  - destruct (chain_encode_ok c l h b f H) as (c1 & h1 & r1 & E1 & R1 & _). rewrite E1. cbn [bind]. destruct (IH _ _ _ R1) as (c2 & h2 & E2 & R2). rewrite E2. cbn [bind].
    exists c2, h2. cbn. destruct (pipe l b f false) as [l1 o1]. cbn in *. destruct (pipes l1 calls). auto.
Qed.
