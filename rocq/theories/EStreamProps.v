(** C69, C70: encoder chains and encoder streams. *)
From Coq Require Import Lia.
From Verif Require Import Base BaseFacts EncoderModel EStreamModel EStreamSpec EStreamProofs EStreamInst HexModel HexSpec HexProofs CryptModel Base64Model Base64Spec.
Local Open Scope nat_scope.

Lemma finished_fin ms calls b : finished_output ms (calls ++ [(b, true)]) =
  snd (pipes (fresh ms) calls) ++ snd (pipe (fst (pipes (fresh ms) calls)) b true false) ++ snd (pipe (fst (pipe (fst (pipes (fresh ms) calls)) b true false)) [] true true).
Proof.
  unfold finished_output. rewrite pipes_app. destruct (pipes (fresh ms) calls) as [l o]. cbn. destruct (pipe l b true false) as [l1 o1]. cbn. now rewrite app_nil_r, <- app_assoc.
Qed.
Lemma fin_out_finished ms calls : snd (pipes (fresh ms) calls) ++ fin_out (fst (pipes (fresh ms) calls)) = finished_output ms (calls ++ [([], true)]).
Proof. rewrite finished_fin. f_equal. unfold fin_out. destruct (pipe (fst (pipes (fresh ms) calls)) [] true false). reflexivity. Qed.

Lemma chain_feed_app a : forall b c h, chain_feed c h (a ++ b) = let! (c, h, o) := chain_feed c h a in let! (c, h, o') := chain_feed c h b in Ok (c, h, o ++ o').
Proof.
  induction a as [|[x f] a IH]; intros b c h; cbn; [destruct (chain_feed c h b) as [[[? ?] ?]| |]; reflexivity|].
  destruct (chain_encode c (h ++ x) f) as [[[[c1 h1] o1] r1]| |]; cbn; [|reflexivity|reflexivity]. rewrite IH. destruct (chain_feed c1 h1 a) as [[[c2 h2] o2]| |]; cbn; [|reflexivity|reflexivity].
  destruct (chain_feed c2 h2 b) as [[[c3 h3] o3]| |]; cbn; [|reflexivity|reflexivity]. now rewrite app_assoc.
Qed.

(** ** C69 *)
(** A chain of encoders that work like machines gives, for any history of calls, what the
    machines give when the output of each is the input of the next. *)
Theorem C69_chain es ms calls : like es ms -> exists c rest, chain_feed (chain_of es) [] calls = Ok (c, rest, output ms calls).
Proof.
  intro H. destruct (build_rel es ms H chain_empty [] [] 0 empty_rel) as [R _]; [intros x []|].
  destruct (chain_feed_ok calls _ _ _ R) as (c & h & E & _). eauto.
Qed.
Print Assumptions C69_chain.
(** After a flush nothing is left in the input, and finish() gives the rest. *)
Theorem C69_finish es ms calls : like es ms -> exists c c' o r,
  chain_feed (chain_of es) [] (calls ++ [([], true)]) = Ok (c, [], output ms (calls ++ [([], true)])) /\
  chain_finish c = Ok (c', o, r) /\ output ms (calls ++ [([], true)]) ++ o = finished_output ms (calls ++ [([], true)]) /\
  chain_isok c' = true /\ chain_isfinished c' = true.
Proof.
  intro H. destruct (build_rel es ms H chain_empty [] [] 0 empty_rel) as [R _]; [intros x []|]. cbn [app] in R.
  destruct (chain_feed_ok calls _ _ _ R) as (c0 & h0 & E0 & R0).
  destruct (chain_encode_ok c0 _ h0 [] true R0) as (c1 & h1 & r1 & E1 & R1 & _ & K1 & _). destruct (K1 eq_refl) as [-> _].
  destruct (chain_finish_ok c1 _ R1) as (c2 & r2 & E2 & A & B & D & _).
  exists c1, c2, (snd (pipe (fst (pipe (fst (pipes (fresh ms) calls)) [] true false)) [] true true)), r2. sp.
  - rewrite chain_feed_app. unfold chain_of. rewrite E0. cbn [bind chain_feed]. rewrite E1. cbn [bind]. unfold output. rewrite pipes_app. destruct (pipes (fresh ms) calls) as [l o]. cbn. destruct (pipe l [] true false). reflexivity.
  - exact E2.
  - unfold output. rewrite finished_fin, pipes_app. destruct (pipes (fresh ms) calls) as [l o]. cbn. destruct (pipe l [] true false). cbn. now rewrite app_nil_r, <- app_assoc.
  - apply cdone_isok. repeat split; auto.
  - unfold chain_isfinished. now rewrite A.
Qed.
Print Assumptions C69_finish.
(** If a flush changes nothing for them, the whole output is the text sent through one after
    the other, however it is cut and flushed. *)
Theorem C69_through es ms calls : like es ms -> Forall steady ms -> exists c c' o r,
  chain_feed (chain_of es) [] calls = Ok (c, [], output ms calls) /\ chain_finish c = Ok (c', o, r) /\ output ms calls ++ o = through ms (given calls).
Proof.
  intros H Hs. destruct (build_rel es ms H chain_empty [] [] 0 empty_rel) as [R _]; [intros x []|]. cbn [app] in R.
  destruct (chain_feed_ok calls _ _ _ R) as (c0 & h0 & E0 & R0).
  assert (h0 = []) as ->.
  { assert (Q : Forall steady (map M_of (fst (pipes (fresh ms) calls)))).
    { rewrite pipes_steady by (now rewrite fresh_machines). rewrite pipe_machines, fresh_machines. exact Hs. }
    destruct R0 as (_ & _ & Rl & _). revert Q Rl. generalize (fst (pipes (fresh ms) calls)) (c_stages c0). intros l st Q Rl. destruct Rl as [|i E M I s r l buf Rl]; [reflexivity|].
    inversion Q as [|x y Q1 Q2 E']; subst. pose proof (w_flushed I s) as F. cbn in Q1. rewrite (Q1 s) in F. exact F. }
  destruct (chain_finish_ok c0 _ R0) as (c2 & r2 & E2 & _). exists c0, c2, (snd (pipe (fst (pipes (fresh ms) calls)) [] true true)), r2. sp; auto.
  rewrite <- finished_through by exact Hs. unfold finished_output, output. destruct (pipes (fresh ms) calls). reflexivity.
Qed.
Print Assumptions C69_through.
(** Without flushes the output depends on the bytes only, not on how they are cut. *)
Theorem C69_chunks es ms calls calls' c rest out c' rest' out' : like es ms ->
  Forall (fun x => snd x = false) calls -> Forall (fun x => snd x = false) calls' -> given calls = given calls' ->
  chain_feed (chain_of es) [] calls = Ok (c, rest, out) -> chain_feed (chain_of es) [] calls' = Ok (c', rest', out') -> out = out'.
Proof.
  intros H F F' G E E'. destruct (C69_chain es ms calls H) as (? & ? & Q). destruct (C69_chain es ms calls' H) as (? & ? & Q'). rewrite Q in E. rewrite Q' in E'.
  injection E as <- <- <-. injection E' as <- <- <-. unfold output. rewrite !pipes_unflushed by assumption. now rewrite G.
Qed.
Print Assumptions C69_chunks.
(** Encoders that work like machines: hex, xor, base 64, counter mode *)
Theorem C69_machines u key n keycrypt K c0 : key <> [] -> 0 < n -> (forall b, length b = n -> keycrypt b = Some (K b)) -> (forall b, length b = n -> length (K b) = n) -> length c0 = n ->
  like [HexEncoder u; XOREncoder key; Base64Encoder; CounterModeEncoder keycrypt c0] [hex_machine u; xor_machine key; b64_machine; ctr_machine K n c0] /\
  Forall steady [hex_machine u; xor_machine key; b64_machine].
Proof.
  intros Hk Hn HK HL Hc. split.
  - unfold like. apply Forall2_cons; [now exists (hex_like u)|]. apply Forall2_cons; [now exists (xor_like key Hk)|]. apply Forall2_cons; [now exists b64_like|].
    apply Forall2_cons; [now exists (ctr_like keycrypt K n Hn HK HL c0 Hc)|constructor].
  - repeat constructor; auto using hex_steady, xor_steady, b64_steady.
Qed.
Print Assumptions C69_machines.
Lemma b64_total_from l : forall k, length l <= k -> total b64_machine l = b64 l.
Proof.
  intro k; revert l; induction k as [|k IH]; intros l Hl; [destruct l; [reflexivity|cbn in Hl; lia]|].
  destruct l as [|a [|b [|c r]]]; try reflexivity.
  assert (H : length r <= k) by (cbn in Hl; lia). specialize (IH r H). unfold total in *. cbn [bytes_run M_byte b64_machine M_init] in *. destruct (bytes_run b64_machine P0 r) as [s o]. cbn [b64]. rewrite <- IH. reflexivity.
Qed.
(** The hex digits of the base 64 text of all bytes, however they are given and flushed *)
Theorem C69_hex_of_base64 u calls : exists c c' o out r,
  chain_feed (chain_of [Base64Encoder; HexEncoder u]) [] calls = Ok (c, [], out) /\ chain_finish c = Ok (c', o, r) /\
  out ++ o = hex_text (digits u) (b64 (given calls)).
Proof.
  assert (L : like [Base64Encoder; HexEncoder u] [b64_machine; hex_machine u]) by (unfold like; apply Forall2_cons; [now exists b64_like|]; apply Forall2_cons; [now exists (hex_like u)|constructor]).
  destruct (C69_through _ _ calls L) as (c & c' & o & r & E1 & E2 & E3); [repeat constructor; auto using hex_steady, b64_steady|].
  exists c, c', o, (output [b64_machine; hex_machine u] calls), r. sp; auto. rewrite E3. unfold through. cbn [fold_left]. rewrite (b64_total_from (given calls) (length (given calls)) (Nat.le_refl _)).
  unfold total. change (M_init (hex_machine u)) with tt. rewrite EStreamInst.hex_run, hex_encode_loop_spec. apply app_nil_r.
Qed.
Print Assumptions C69_hex_of_base64.
Example C69_example : chain_feed (chain_of [Base64Encoder; HexEncoder false]) [] [(B "a", true); (B "bc", false)] = 
  (let! (c, r, o) := chain_feed (chain_of [Base64Encoder; HexEncoder false]) [] [(B "abc", false)] in Ok (c, r, B "59574a6a")).
Proof. vm_compute. reflexivity. Qed.

Lemma run_app a : forall b s, run (a ++ b) s = let! (s, x) := run a s in let! (s, y) := run b s in Ok (s, x ++ y).
Proof.
  induction a as [|o a IH]; intros b s0; cbn; [destruct (run b s0) as [[? ?]| |]; reflexivity|]. destruct (step o s0) as [[s1 x]| |]; cbn; [|reflexivity|reflexivity]. rewrite IH.
  destruct (run a s1) as [[s2 y]| |]; cbn; [|reflexivity|reflexivity]. destruct (run b s2) as [[s3 z]| |]; cbn; [|reflexivity|reflexivity]. now rewrite app_assoc.
Qed.
(** ** C70 *)
(** Before the stream closes: reads give, in order, the decoding of what the stream below
    gave, and the stream below gets the encoding of what was written, but for what is still
    buffered. *)
Theorem C70_live er mr ew mw script qm mn dl au ops : like er mr -> like ew mw -> open_script script -> Forall plain_op ops ->
  exists s got rcalls wcalls, run ops (start script None qm mn dl au (chain_of er) (chain_of ew)) = Ok (s, got) /\ isok s = true /\
    data script = given rcalls ++ data (u_script (below s)) /\ got ++ inbuf s ++ rout s = output mr rcalls /\
    written ops = given wcalls ++ outbuf s /\ u_got (below s) = output mw wcalls /\ (dl = false -> outbuf s = []).
Proof.
  intros Hr Hw Ho Hp. pose proof (start_inv er mr ew mw script qm mn dl au Hr Hw) as H.
  destruct (run_plain ops _ _ _ Hp H Ho) as (s & got & lr & lw & E & I & (rcs & A & B & C) & (wcs & A' & B' & C') & S & _).
  exists s, got, rcs, wcs. cbn in *. sp; auto.
  - unfold isok. destruct (i_flags _ _ _ I) as (_ & -> & -> & _). destruct (i_sub _ _ _ I) as (_ & -> & _). reflexivity.
  - intro Hd. destruct (i_out _ _ _ I) as [Q|Q]; [|exact Q]. destruct S as (_ & _ & S3 & _). cbn in S3. congruence.
Qed.
Print Assumptions C70_live.
(** flush() passes on everything written, with a flush of the encoders. *)
Theorem C70_flush er mr ew mw script qm mn dl au ops : like er mr -> like ew mw -> open_script script -> Forall plain_op ops ->
  exists s got wcalls w, run (ops ++ [Flush]) (start script None qm mn dl au (chain_of er) (chain_of ew)) = Ok (s, got) /\ outbuf s = [] /\ win s = [] /\
    written ops = given wcalls ++ w /\ u_got (below s) = output mw (wcalls ++ [(w, true)]).
Proof.
  intros Hr Hw Ho Hp. pose proof (start_inv er mr ew mw script qm mn dl au Hr Hw) as H.
  destruct (run_plain ops _ _ _ Hp H Ho) as (s & got & lr & lw & E & I & _ & (wcs & A' & B' & C') & S & _).
  rewrite run_app, E. cbn [bind run step]. unfold flush.
  destruct I as [F Sb Ri Rc L W D]. destruct Sb as (S1 & S2 & S3). destruct F as (F1 & F2 & F3 & F4 & F5).
  unfold push. destruct (chain_encode_ok _ _ _ (outbuf s) true W) as (c' & h' & r & He & Hc & _ & Hfl & _). rewrite He. cbn [bind]. destruct (Hfl eq_refl) as [-> _].
  unfold checkwrite. cbn [wc set_out]. rewrite (proj1 (chain_isok_ok _ _ _ Hc)). cbn [bind]. rewrite autoclose_live by (cbn; exact F4). cbn [bind].
  eexists _, _, wcs, (outbuf s). split; [reflexivity|]. cbn. rewrite sub_write_all by assumption. cbn. cbn in A', B'. rewrite app_nil_r. sp; auto.
  rewrite B'. unfold output. rewrite pipes_app. subst lw. destruct (pipes (fresh mw) wcs) as [l o]. cbn. destruct (pipe l (outbuf s) true false). cbn. now rewrite app_nil_r.
Qed.
Print Assumptions C70_flush.
(** close(): the stream below gets everything written, encoded and finished; all that was
    taken from it stays readable, decoded and finished, whatever is done after. *)
Theorem C70_close er mr ew mw script qm mn dl au ops more : like er mr -> like ew mw -> open_script script -> Forall plain_op ops -> Forall steady_op more ->
  exists s got rcalls wcalls w, run (ops ++ Close :: more) (start script None qm mn dl au (chain_of er) (chain_of ew)) = Ok (s, got) /\ isok s = false /\
    (exists rest, data script = given rcalls ++ rest) /\ got ++ inbuf s = finished_output mr (rcalls ++ [([], true)]) /\
    written ops = given wcalls ++ w /\ u_got (below s) = finished_output mw (wcalls ++ [(w, true)]).
Proof.
  intros Hr Hw Ho Hp Hm. pose proof (start_inv er mr ew mw script qm mn dl au Hr Hw) as H.
  destruct (run_plain ops _ _ _ Hp H Ho) as (s & got & lr & lw & E & I & (rcs & A & B & C) & (wcs & A' & B' & C') & S & _). rewrite run_app, E. cbn [bind].
  destruct (inv_close s lr lw I) as (s1 & E1 & I1 & B1 & _ & _ & _ & G1). cbn [run step]. rewrite E1. cbn [bind].
  destruct (cinv_run more s1 Hm I1) as (s2 & got2 & E2 & I2 & B2 & G2 & _). rewrite E2. cbn [bind]. cbn in *.
  exists s2, (got ++ got2), rcs, wcs, (outbuf s). sp; auto.
  - unfold isok. now rewrite (proj2 (k_flags _ I2)).
  - eauto.
  - rewrite <- app_assoc, B2, B1, !app_assoc. rewrite <- (app_assoc got), B. subst lr. apply fin_out_finished.
  - rewrite finished_fin, G2, G1, B'. subst lw. reflexivity.
Qed.
Print Assumptions C70_close.
(** If the stream below ends in a read that gives nothing: what was read and what is left
    readable is the decoding of all it gave, finished. *)
Theorem C70_eof er mr ew mw pre mn dl au ops : like er mr -> like ew mw -> open_script pre -> Forall plain_op ops ->
  exists s got, run ops (start (pre ++ [([], true)]) None 0 mn dl au (chain_of er) (chain_of ew)) = Ok (s, got) /\
   ((isok s = true /\ exists rcalls rest wcalls, data pre = given rcalls ++ rest /\ got ++ inbuf s ++ rout s = output mr rcalls /\
       written ops = given wcalls ++ outbuf s /\ u_got (below s) = output mw wcalls) \/
    (isok s = false /\ exists rcalls wcalls lost, data pre = given rcalls /\ got ++ inbuf s = finished_output mr (rcalls ++ [([], true)]) /\
       written ops = given wcalls ++ lost /\ u_got (below s) = output mw wcalls /\
       (forall n, exists s', step (Read n) s = Ok (s', firstn n (inbuf s)) /\ inbuf s' = skipn n (inbuf s)))).
Proof.
  intros Hr Hw Ho Hp. pose proof (start_inv er mr ew mw (pre ++ [([], true)]) 0 mn dl au Hr Hw) as H.
  destruct (run_eof ops _ _ _ Hp H) as (s & got & E & S & O); [now exists pre|reflexivity|]. exists s, got. split; [exact E|].
  assert (Dp : data (pre ++ [([], true)]) = data pre) by (rewrite data_app; cbn; apply app_nil_r).
  destruct O as [(lr & lw & I & _ & (rcs & A & B & C) & (wcs & A' & B' & C'))|(I & (rcs & A & B) & (wcs & lost & A' & B'))]; cbn in *.
  - left. split.
    + unfold isok. destruct (i_flags _ _ _ I) as (_ & -> & -> & _). destruct (i_sub _ _ _ I) as (_ & -> & _). reflexivity.
    + exists rcs, (data (u_script (below s))), wcs. sp; auto. rewrite <- Dp. exact A.
  - right. split; [unfold isok; now rewrite (proj2 (k_flags _ I))|]. exists rcs, wcs, lost. sp; auto.
    + rewrite <- Dp. exact A.
    + rewrite B. apply fin_out_finished.
    + intro n. destruct (cinv_read s n I) as (s' & b & E1 & I1 & B1 & G1 & S1 & F1). exists s'. destruct S as (S0 & _). cbn in S0. specialize (F1 S0). subst b. split; [exact E1|].
      rewrite <- (firstn_skipn n (inbuf s)) in B1 at 2. now apply app_inv_head in B1.
Qed.
Print Assumptions C70_eof.
(** An encoder appended to the read chain while decoded bytes wait: once select() was asked
    for readability they pass through it, and so does all that is read after. *)
Theorem C70_append er mr ew mw script mn dl au ops i E M (W : works_like E M) w more s got : like er mr -> like ew mw -> open_script script -> Forall plain_op ops -> Forall plain_op more ->
  (forall x, w_held W x = []) ->
  run ops (start script None 0 mn dl au (chain_of er) (chain_of ew)) = Ok (s, got) -> rout s <> [] -> ~ In i (map s_id (c_stages (rc s))) ->
  exists rcalls rcalls' s' got', got ++ inbuf s ++ rout s = output mr rcalls /\
    run (AppendR i E :: Select true w :: more) s = Ok (s', got') /\
    got' ++ inbuf s' ++ rout s' = inbuf s ++
      (let (lm, om) := pipe (fresh [M]) (rout s) false false in om ++ snd (pipes (fst (pipes (fresh mr) rcalls) ++ lm) rcalls')).
Proof.
  intros Hr Hw Ho Hp Hm Hh Hrun Hro Hi. pose proof (start_inv er mr ew mw script 0 mn dl au Hr Hw) as H.
  destruct (run_plain ops _ _ _ Hp H Ho) as (s0 & got0 & lr & lw & E0 & I & (rcs & A & B & C) & (wcs & A' & B' & C') & S & O). rewrite E0 in Hrun. injection Hrun as -> ->.
  cbn in A, B.
  destruct (pull_append s lr lw i E M W Hh I Hro Hi) as (s1 & E1 & Q). destruct (pipe (fresh [M]) (rout s) false false) as [lm om] eqn:Ep. destruct Q as (I1 & R1 & B1 & W1 & S1 & U1).
  assert (En : exists s2 lr2 lw2, select true w (set_in s (inbuf s) (rin s) (rout s) (chain_append (rc s) i E)) = Ok s2 /\ inv s2 lr2 lw2 /\ lr2 = fst (pipe (lr ++ lm) [] true false) /\
     inbuf s2 = inbuf s /\ rout s2 = om ++ snd (pipe (lr ++ lm) [] true false) /\ open_script (u_script (below s2))).
  { unfold select. cbn [rout set_in]. destruct (rout s) as [|x y] eqn:Er; [contradiction|]. cbn [is_nil negb andb]. rewrite <- Er. rewrite Er. rewrite E1. cbn [bind].
    destruct (push_ok s1 _ lw false I1) as (s2 & lw2 & E2 & I2 & W2 & R2 & S2 & _). rewrite E2. cbn [bind].
    assert (FL : forall a l0 (b : bool), inv a (fst (pipe (lr ++ lm) [] true false)) l0 -> exists s' l', (if b then flush a else Ok a) = Ok s' /\ inv s' (fst (pipe (lr ++ lm) [] true false)) l' /\ rsame a s').
    { intros a l0 b Ha. destruct b; [|exists a, l0; sp; auto using rsame_refl]. destruct (flush_ok a _ l0 Ha) as (s' & l' & ?&?&?&?&_). exists s', l'. auto. }
    replace (if delayed s2 then Ok s2 else flush s2) with (if negb (delayed s2) then flush s2 else Ok s2) by (destruct (delayed s2); reflexivity).
    destruct (FL s2 lw2 (negb (delayed s2)) I2) as (s3 & lw3 & E3 & I3 & R3). rewrite E3. cbn [bind]. destruct (FL s3 lw3 w I3) as (s4 & lw4 & E4 & I4 & R4). rewrite E4.
    pose proof (rsame_trans _ _ _ (rsame_trans _ _ _ R2 R3) R4) as (Q1 & Q2 & Q3 & Q4 & Q5 & Q6).
    exists s4, (fst (pipe (lr ++ lm) [] true false)), lw4. sp; auto; try congruence. }
  destruct En as (s2 & lr2 & lw2 & E2 & I2 & El2 & B2 & R2 & O2).
  destruct (run_plain more s2 lr2 lw2 Hm I2 O2) as (s3 & got3 & lr3 & lw3 & E3 & I3 & (rcs3 & A3 & B3 & C3) & _).
  exists rcs, (([], true) :: rcs3), s3, got3. split; [exact B|]. split.
  - cbn [run step bind]. rewrite E2. cbn [bind]. rewrite E3. reflexivity.
  - rewrite B3, B2, R2. subst lr lr2. cbn [pipes]. destruct (pipe (fst (pipes (fresh mr) rcs) ++ lm) [] true false) as [l5 o5]. cbn [fst snd]. destruct (pipes l5 rcs3) as [l6 o6]. cbn [snd]. now rewrite !app_assoc.
Qed.
Print Assumptions C70_append.

(** ** Refuted *)
Definition es0 script room qm r := start script room qm 0 false true (chain_of r) (chain_of [HexEncoder false]).
(** The stream below takes only part of what is written: the rest is lost, though write()
    took it and flush() and close() follow. *)
Theorem C70_full_refuted : exists s, run [Write (B "abc"); Flush; Close] (es0 [] (Some 4) 0 []) = Ok (s, []) /\ u_got (below s) = B "6162".
Proof. eexists. split; vm_compute; reflexivity. Qed.
(** The stream below gives its last bytes in the read in which it closes: they are lost. *)
Theorem C70_last_bytes_refuted : exists s, run [Read 9; Read 9; Read 9] (es0 [(B "abc", true)] None 0 [HexEncoder false]) = Ok (s, []) /\ inbuf s = [] /\ rout s = [] /\ isok s = false.
Proof. eexists. vm_compute. auto. Qed.
(** With queuemin(), the end of the stream below leaves undefined bytes to be read. *)
Theorem C70_queuemin_refuted : run [Read 9; Read 9] (es0 [(B "a", false); ([], true)] None 1 [Base64Encoder]) = Fault.
Proof. vm_compute. reflexivity. Qed.
(** The read that meets the end returns nothing, and isok() is false, while bytes wait. *)
Theorem C70_isok_refuted : exists s, run [Read 9; Read 9] (es0 [(B "a", false); ([], true)] None 0 [Base64Encoder]) = Ok (s, B "Y") /\ isok s = false /\ inbuf s = B "Q==".
Proof. eexists. vm_compute. auto. Qed.
(** Without select() before, bytes that wait do not pass through an appended encoder. *)
Theorem C70_bypass_refuted : exists s, run [Read 1; AppendR 9 (HexEncoder false); Read 9; Read 9] (es0 [(B "ab", false)] None 0 [HexEncoder false]) = Ok (s, B "613632") /\
  through [hex_machine false; hex_machine false] (B "b") = B "3632".
Proof. eexists. vm_compute. auto. Qed.
(** An appended encoder that keeps bytes in its input loses those that wait. *)
Theorem C70_held_refuted : exists s, run [Read 1; AppendR 9 (CounterModeEncoder Some (B "0123")); Select true false; Flush; Read 9; Close] (es0 [(B "a", false)] None 0 [HexEncoder false]) = Ok (s, B "6") /\ inbuf s = [] /\ rout s = [].
Proof. eexists. vm_compute. auto. Qed.
Example C70_example : exists s, run [Write (B "hi"); Read 3; Read 9; Flush; Read 9; Read 9; Read 9]
   (start [(B "ab", false); (B "c", false); ([], true)] None 0 0 true false (chain_of [Base64Encoder]) (chain_of [HexEncoder false])) = Ok (s, B "YWJj") /\ u_got (below s) = B "6869".
Proof. eexists. vm_compute. auto. Qed.
