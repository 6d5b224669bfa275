(** The client and the whole system. *)
From Verif Require Import Base BaseFacts Ctype TclModel TclSpec TclProofs KeyModel KeySpec KeyProofs UrlModel TreeProofs TempModel TempSpec TempProofs IniModel IniSpec IniProofs IniProofs2 IniProofs3 IntFmtModel RemoteModel RemoteSpec RemoteProofs RemoteProofs2 RemoteProofs3 RemoteProofs4.
Local Open Scope char_scope.
Local Open Scope list_scope.

(** * What the client does with a message *)
Definition payload (m : msg) : bytes := words (ma m) ++ (if mt m then [" "] else []).
Definition reads (x : client) (c' : conn) (m : msg) : Prop := readcmd (cconn x) = Ok (c', Command (mc m), payload m).
Lemma two_args_both a b : nul_free a -> nul_free b -> elem_cont SP b = false -> two_args (words [a; b] ++ []) = Ok (Some a, Some b).
Proof.
  intros Ha Hb Cb. unfold two_args. pose proof (next_word _ use_space eq_refl a [b] false Ha ltac:(discriminate)) as H1. cbn iota in H1. rewrite H1. cbn [bind].
  pose proof (next_word _ use_space eq_refl b [] false Hb (fun _ _ => Cb)) as H2. cbn iota in H2. rewrite H2. reflexivity.
Qed.
Lemma two_args_one a : nul_free a -> elem_cont SP a = false -> two_args (words [a] ++ []) = Ok (Some a, None).
Proof.
  intros Ha Ca. unfold two_args. pose proof (next_word _ use_space eq_refl a [] false Ha (fun _ _ => Ca)) as H1. cbn iota in H1. rewrite H1. reflexivity.
Qed.
Lemma got_hello x c' : reads x c' hmsg -> conncallback x = Ok (greet 19 (with_conn c' x), []).
Proof.
  intros E. unfold conncallback. rewrite E. cbn [bind]. change (mc hmsg) with HELLO. cbn iota. assert (D : wvtcl_decode nasty_space true (payload hmsg) = Ok [B "UniConf Server ready."; B "19"]) by (vm_compute; reflexivity). rewrite D. cbn [bind].
  assert (A : atoi (B "19") = Ok 19%Z) by (vm_compute; reflexivity). rewrite A. reflexivity.
Qed.
Lemma got_note x c' n : fitnk n -> reads x c' (nmsg n) -> conncallback x = Ok (with_conn c' x, [n]).
Proof.
  destruct n as [k v]. intros (P & N & Fv) E. cbn [fst snd] in *. assert (F : fit_key k) by (split; [left; exact P|exact N]). destruct (fk k F) as (C & Nk & Ck). unfold conncallback. rewrite E. cbn [bind nmsg mc]. unfold payload, nmsg. cbn [ma mt fst snd].
  destruct v as [v|]; [rewrite two_args_both by (auto using fit_cont; apply Fv)|rewrite two_args_one by auto]; cbn [bind]; rewrite parse_print by exact C; reflexivity.
Qed.
Lemma got_ok x c' : reads x c' okm -> conncallback x = Ok (reply true (result_key x) (result x) (with_conn c' x), []).
Proof. intros E. unfold conncallback. rewrite E. reflexivity. Qed.
Lemma got_fail x c' : reads x c' failm -> conncallback x = Ok (reply false [] (result x) (with_conn c' x), []).
Proof. intros E. unfold conncallback. rewrite E. reflexivity. Qed.
Lemma got_pair x c' o k v : o = ONEVAL \/ o = CHILD -> fit_key k -> fit_value v -> reads x c' (M o [printable k; v]) -> conncallback x = Ok (reply true k (Some v) (with_conn c' x), []).
Proof.
  intros Ho F Fv E. destruct (fk k F) as (C & Nk & Ck). unfold conncallback. rewrite E. cbn [bind M mc]. unfold payload. cbn [ma mt M]. destruct Ho as [-> | ->]; rewrite two_args_both by (auto using fit_cont; apply Fv); cbn [bind]; rewrite parse_print by exact C; reflexivity.
Qed.
Lemma got_val x c' e : fite e -> reads x c' (vmsg e) -> conncallback x = Ok (add_value (fst e) (snd e) (with_conn c' x), []).
Proof.
  destruct e as [k v]. cbn [fst snd]. intros (P & N & Fv) E. cbn [fst snd] in *. assert (F : fit_key k) by (split; [left; exact P|exact N]). destruct (fk k F) as (C & Nk & Ck). unfold conncallback. rewrite E. cbn [bind vmsg M mc]. unfold payload, vmsg. cbn [ma mt M fst snd].
  rewrite two_args_both by (auto using fit_cont; apply Fv). cbn [bind]. rewrite parse_print by exact C. reflexivity.
Qed.

(** * The invariant *)
(** A reply of which a part has been read: the call, what it will return, what is
    still to come, the values collected. *)
Inductive Await : call -> answer -> list msg -> list (key * bytes) -> Prop :=
| Aw_none k rl : Await (CGet k) (AVal None) [failm] rl
| Aw_get k v rl : fit_key k -> fit_value v -> Await (CGet k) (AVal (Some v)) [M ONEVAL [printable k; v]] rl
| Aw_has k b rl : fit_key k -> Await (CHas k) (ABool b) [M CHILD [printable k; if b : bool then B "TRUE" else B "FALSE"]] rl
| Aw_nolist k r rl : Await (CList k r) (AList []) [failm] rl
| Aw_list k r done todo : Forall fite todo -> Await (CList k r) (AList (done ++ todo)) (map vmsg todo ++ [okm]) done
| Aw_ok c rl : c = CCommit \/ c = CRefresh -> Await c (ABool true) [okm] rl.
Definition notes (i : item) : list notif := match i with INote x => [x] | _ => [] end.
Definition reps (i : item) : list msg := match i with IRep m => [m] | _ => [] end.
Definition sets_only (cs : list call) : Prop := Forall (fun c => answered c = false) cs.
(** The client, requests on their way, replies on their way, answers the client has
    and answers given at the daemon. *)
Inductive Phase (x : client) (cs : list call) (rs : list msg) (got given : list answer) : Prop :=
| P_idle : current x = None -> sets_only cs -> rs = [] -> got = given -> Phase x cs rs got given
| P_asked c cs0 : current x = Some c -> busy x = true -> result_list x = [] -> answered c = true -> sets_only cs0 -> cs = cs0 ++ [c] -> rs = [] -> got = given -> Phase x cs rs got given
| P_told c a : current x = Some c -> busy x = true -> answered c = true -> cs = [] -> given = got ++ [a] -> Await c a rs (result_list x) -> Phase x cs rs got given.
Definition fit_item (i : item) : Prop := match i with INote x => fitnk x | _ => True end.
Definition Inv2 (lin : list event) (l : list step) (s : sys) (cs : list call) (its : list item) : Prop :=
    sgen (srv s) = fst (fst (direct lin tinit)) /\ good (sgen (srv s)) /\ theirs lin = others l /\
    Wire (sconn (srv s)) (up s) (map req cs) /\ Forall fit_call cs /\ calls s = mine lin ++ cs /\
    Wire (cconn (cli s)) (down s) (map imsg its) /\ Forall fit_item its /\ snd (fst (direct lin tinit)) = deltas s ++ flat_map notes its /\
    Phase (cli s) cs (flat_map reps its) (answers s) (snd (direct lin tinit)) /\
    length (snd (direct lin tinit)) = length (filter answered (mine lin)).
Definition Inv (lin : list event) (l : list step) (s : sys) : Prop := exists cs its, Inv2 lin l s cs its.
(** What a step gets done *)
Definition progress (o : step) (s : sys) (cs : list call) (its : list item) (s' : sys) (cs' : list call) (its' : list item) : Prop :=
  match o with
  | Up n => cs' = cs /\ its' = its /\ up s' = skipn n (up s)
  | Down n => cs' = cs /\ its' = its /\ up s' = up s /\ down s' = skipn n (down s)
  | Serve => up s = [] -> cs' = tl cs /\ up s' = []
  | Poll => down s = [] -> cs' = cs /\ its' = tl its /\ up s' = up s /\ down s' = []
  | _ => True
  end.
Lemma direct_app a : forall b g, direct (a ++ b) g = let '(g1, n1, a1) := direct a g in let '(g2, n2, a2) := direct b g1 in (g2, n1 ++ n2, a1 ++ a2).
Proof.
  induction a as [|e a IH]; intros b g; cbn [direct app]; [destruct (direct b g) as [[? ?] ?]; reflexivity|]. destruct (local (as_call e) g) as [[g1 n1] a1]. rewrite IH. destruct (direct a g1) as [[g2 n2] a2]. destruct (direct b g2) as [[g3 n3] a3].
  rewrite <- app_assoc. destruct a1; reflexivity.
Qed.
Lemma direct_snoc lin e g : direct (lin ++ [e]) g = let '(g1, n1, a1) := direct lin g in let '(g2, n2, a2) := local (as_call e) g1 in (g2, n1 ++ n2, a1 ++ match a2 with Some a => [a] | None => [] end).
Proof.
  rewrite direct_app. destruct (direct lin g) as [[g1 n1] a1]. cbn [direct]. destruct (local (as_call e) g1) as [[g2 n2] a2]. rewrite app_nil_r. reflexivity.
Qed.
Lemma mine_app a b : mine (a ++ b) = mine a ++ mine b.
Proof. induction a as [|[c|k v] a IH]; cbn [mine app]; [reflexivity|rewrite IH; reflexivity|exact IH]. Qed.
Lemma theirs_app a b : theirs (a ++ b) = theirs a ++ theirs b.
Proof. induction a as [|[c|k v] a IH]; cbn [theirs app]; [reflexivity|exact IH|rewrite IH; reflexivity]. Qed.
Lemma others_app a b : others (a ++ b) = others a ++ others b.
Proof. induction a as [|o a IH]; cbn [others app]; [reflexivity|]. destruct o; cbn; rewrite ?IH; reflexivity. Qed.
Lemma Inv_init : Inv [] [] init.
Proof.
  exists [], [IHello]. unfold Inv2. cbn [direct fst snd init srv sgen sconn up down cli calls answers deltas mine theirs others flat_map app filter length map imsg notes reps].
  split; [reflexivity|]. split; [split; exact I|]. split; [reflexivity|]. split; [exists []; repeat split; [left; reflexivity|left; reflexivity|constructor]|]. split; [constructor|]. split; [reflexivity|].
  split; [|split; [repeat constructor|split; [reflexivity|split; [|reflexivity]]]].
  - exists []. split; [left; reflexivity|]. split; [exact hello_ok|]. split; [left; reflexivity|]. constructor; [|constructor]. unfold whole, hmsg. cbn [ma M]. repeat constructor; intros H; cbn in H; intuition discriminate.
  - apply P_idle; try reflexivity. constructor.
Qed.
Lemma key_same k : canonical k -> key_eq k k = true.
Proof. intros C. apply key_eq_spec; [apply canonical_nul, C..|]. clear C. induction k; constructor; [reflexivity|assumption]. Qed.
Lemma rep_await c g : fit_call c -> answered c = true -> good g -> exists a, snd (local c g) = Some a /\ Await c a (rep c g) [] /\ snd (fst (local c g)) = [] /\ fst (fst (local c g)) = g /\ its c g = map IRep (rep c g).
Proof.
  intros F A G. destruct c as [k|k v|l|k|k r| |]; try discriminate; cbn [local rep fst snd its fit_call] in *.
  - destruct (tget g k) as [v|] eqn:E; eexists; repeat split; [apply Aw_get; [exact F|exact (tget_fit g k v G E)]|apply Aw_none].
  - eexists. repeat split. apply (Aw_has k (thaschildren g k)), F.
  - destruct F as [F P]. destruct (tget g k) as [v|] eqn:E; eexists; repeat split.
    + apply (Aw_list k r [] (listing g k r)). apply listing_fit, G.
    + rewrite (tget_find g k P E r). apply Aw_nolist.
  - eexists. repeat split. apply Aw_ok. auto.
  - eexists. repeat split. apply Aw_ok. auto.
Qed.
Lemma map_reps l : flat_map reps (map IRep l) = l /\ flat_map notes (map IRep l) = [].
Proof. induction l as [|m l [IH1 IH2]]; [auto|]. cbn. rewrite IH1, IH2. auto. Qed.
Lemma map_notes l : flat_map reps (map INote l) = [] /\ flat_map notes (map INote l) = l.
Proof. induction l as [|m l [IH1 IH2]]; [auto|]. cbn. rewrite IH1, IH2. auto. Qed.
Lemma wire_conn_ok x c d ms : Wire c d ms -> Wire (cconn (with_conn c x)) d ms.
Proof. auto. Qed.
Lemma phase_conn x x' cs rs a b : current x' = current x -> busy x' = busy x -> result_list x' = result_list x -> Phase x cs rs a b -> Phase x' cs rs a b.
Proof.
  intros E1 E2 E3 [H1 H2 H3 H4|c cs0 H1 H2 H3 H4 H5 H6 H7 H8|c a0 H1 H2 H3 H4 H5 H6].
  - apply P_idle; congruence || assumption.
  - eapply P_asked; rewrite ?E1, ?E2, ?E3; eassumption.
  - eapply P_told; rewrite ?E1, ?E2, ?E3; eassumption.
Qed.

Lemma step_ok lin l s o cs its : Inv2 lin l s cs its -> fit_step o ->
  exists s' lin' cs' its', do_step o s = Ok s' /\ progress o s cs its s' cs' its' /\ Inv2 (lin ++ lin') (l ++ [o]) s' cs' its'.
Proof.
  intros (Hg & G & Ht & Wu & Fc & Hc & Wd & Fi & Hn & Ph & Hl) F. destruct o as [c|n|n| | |k v]; cbn [do_step fit_step] in *.
  - (* a call *)
    destruct (current (cli s)) as [c0|] eqn:Ecur.
    + exists s, [], cs, its. split; [reflexivity|]. split; [exact I|]. rewrite app_nil_r. unfold Inv2. rewrite others_app. cbn [others]. rewrite app_nil_r. auto 20.
    + destruct (request_ok c (cli s) F) as [-> Wh]. cbn [bind]. eexists _, [], (cs ++ [c]), its. split; [reflexivity|]. split; [exact I|]. rewrite app_nil_r. unfold Inv2. cbn [srv cli up down calls answers deltas]. rewrite others_app. cbn [others]. rewrite app_nil_r.
      split; [exact Hg|]. split; [exact G|]. split; [exact Ht|]. split; [rewrite map_app; apply wire_send; [exact Wu|repeat constructor; exact Wh]|]. split; [apply Forall_app; auto|]. split; [rewrite Hc, app_assoc; reflexivity|].
      split; [destruct (answered c); exact Wd|]. split; [exact Fi|]. split; [exact Hn|]. split; [|exact Hl].
      destruct Ph as [H1 H2 H3 H4|c0 cs0 H1|c0 a0 H1]; [|congruence|congruence]. destruct (answered c) eqn:A.
      * apply (P_asked _ _ _ _ _ c cs); auto.
      * apply P_idle; auto. apply Forall_app. auto.
  - (* bytes arrive at the daemon *)
    eexists _, [], cs, its. split; [reflexivity|]. split; [repeat split|]. rewrite app_nil_r. unfold Inv2. cbn [srv cli up down calls answers deltas sconn sgen]. rewrite others_app. cbn [others]. rewrite app_nil_r.
    split; [exact Hg|]. split; [exact G|]. split; [exact Ht|]. split; [apply wire_arrive, Wu|]. auto 20.
  - (* bytes arrive at the client *)
    eexists _, [], cs, its. split; [reflexivity|]. split; [repeat split|]. rewrite app_nil_r. unfold Inv2. cbn [srv cli up down calls answers deltas sconn sgen]. rewrite others_app. cbn [others]. rewrite app_nil_r.
    split; [exact Hg|]. split; [exact G|]. split; [exact Ht|]. split; [exact Wu|]. split; [exact Fc|]. split; [exact Hc|]. split; [apply wire_conn_ok, wire_arrive, Wd|]. split; [exact Fi|]. split; [exact Hn|]. split; [|exact Hl].
    eapply phase_conn; [..|exact Ph]; reflexivity.
  - (* the daemon reads *)
    destruct (serve_ok (srv s) (up s) cs Wu Fc G) as [(c' & -> & W' & Hu)|(c' & c & r & Ecs & -> & W' & G' & Wh & Fit)]; cbn [bind].
    + eexists _, [], cs, its. split; [reflexivity|]. split; [intros U; rewrite (Hu U); split; [reflexivity|exact U]|]. rewrite app_nil_r. unfold Inv2. cbn [srv cli up down calls answers deltas sconn sgen]. rewrite others_app. cbn [others]. rewrite !app_nil_r. auto 20.
    + eexists _, [Mine c], r, (its ++ RemoteProofs4.its c (sgen (srv s))). split; [reflexivity|]. split; [intros U; rewrite Ecs; split; [reflexivity|exact U]|]. unfold Inv2. cbn [srv cli up down calls answers deltas sconn sgen]. rewrite others_app, theirs_app, mine_app. cbn [others theirs mine]. rewrite !app_nil_r.
      rewrite direct_snoc. cbn [as_call]. pose proof Fc as Fc1. rewrite Ecs in Fc1. pose proof (Forall_inv Fc1) as Fc0. apply Forall_inv_tail in Fc1. destruct (direct lin tinit) as [[g1 n1] a1] eqn:Ed. cbn [fst snd] in *. rewrite <- Hg.
      destruct (local c (sgen (srv s))) as [[g2 n2] a2] eqn:El. cbn [fst snd] in *. split; [reflexivity|]. split; [exact G'|]. split; [exact Ht|]. split; [exact W'|]. split; [exact Fc1|]. split; [rewrite Hc, Ecs, <- app_assoc; reflexivity|].
      rewrite map_app. split; [apply wire_send; assumption|]. split; [apply Forall_app; auto|]. rewrite !flat_map_app. destruct (answered c) eqn:A.
      * destruct (rep_await c (sgen (srv s)) Fc0 A G) as (a & Ea & Aw & En & Eg & Ei). rewrite El in Ea, En, Eg. cbn [fst snd] in Ea, En, Eg. subst a2 n2 g2. rewrite Ei. destruct (map_reps (rep c (sgen (srv s)))) as [-> ->]. rewrite !app_nil_r. split; [exact Hn|].
        split; [|rewrite filter_app, !app_length, Hl; cbn; rewrite A; reflexivity].
        destruct Ph as [H1 H2 H3 H4|c0 cs0 H1 H2 H3 H4 H5 H6 H7 H8|c0 a0 H1 H2 H3 H4 H5 H6].
        -- exfalso. rewrite Ecs in H2. apply Forall_inv in H2. congruence.
        -- destruct cs0 as [|y cs0].
           ++ rewrite Ecs in H6. injection H6 as -> ->. rewrite H7. cbn [app]. apply (P_told _ _ _ _ _ c0 a); auto; [rewrite H8; reflexivity|]. rewrite H3. exact Aw.
           ++ exfalso. rewrite Ecs in H6. injection H6 as -> _. apply Forall_inv in H5. congruence.
        -- congruence.
      * assert (Es : exists k v, c = CSet k v) by (destruct c; try discriminate; [eauto|contradiction Fc0]). destruct Es as (k & v & ->). cbn [local] in El. injection El as <- <- <-. cbn [RemoteProofs4.its]. destruct (map_notes (snd (tset (sgen (srv s)) k v))) as [-> ->]. rewrite !app_nil_r.
        split; [rewrite Hn, app_assoc; reflexivity|]. split; [|rewrite filter_app, app_length, Hl; cbn; lia].
        destruct Ph as [H1 H2 H3 H4|c0 cs0 H1 H2 H3 H4 H5 H6 H7 H8|c0 a0 H1 H2 H3 H4 H5 H6].
        -- apply P_idle; auto. rewrite Ecs in H2. exact (Forall_inv_tail H2).
        -- destruct cs0 as [|y cs0]; rewrite Ecs in H6; injection H6 as E6 E7; [subst c0; discriminate|]. apply (P_asked _ _ _ _ _ c0 cs0); auto. exact (Forall_inv_tail H5).
        -- congruence.
  - (* the client reads *)
    destruct (readcmd_wire _ _ _ Wd) as [(c' & E & W' & Hd)|(c' & m & ms & E & Em & W')].
    + assert (Ec : conncallback (cli s) = Ok (with_conn c' (cli s), [])) by (unfold conncallback; rewrite E; reflexivity). rewrite Ec. cbn [bind].
      assert (Ex : (match current (with_conn c' (cli s)) with Some c => if busy (with_conn c' (cli s)) then (with_conn c' (cli s), []) else (leave (with_conn c' (cli s)), [finish c (with_conn c' (cli s))]) | None => (with_conn c' (cli s), []) end) = (with_conn c' (cli s), [])).
      { cbn [current busy with_conn]. destruct Ph as [H1 H2 H3 H4|c0 cs0 H1 H2 H3 H4 H5 H6 H7 H8|c0 a0 H1 H2 H3 H4 H5 H6]; rewrite H1, ?H2; reflexivity. }
      rewrite Ex. eexists _, [], cs, its. split; [reflexivity|]. split; [intros U; split; [reflexivity|]; split; [apply Hd, map_eq_nil in U; rewrite U; reflexivity|]; split; [reflexivity|exact U]|]. rewrite app_nil_r. unfold Inv2. cbn [srv cli up down calls answers deltas sconn sgen]. rewrite others_app. cbn [others]. rewrite !app_nil_r.
      repeat (split; [assumption|]). split; [|exact Hl]. eapply phase_conn; [..|exact Ph]; reflexivity.
    + destruct its as [|i its]; [discriminate|]. cbn [map] in Em. injection Em as Em Er. subst m ms. change (reads (cli s) c' (imsg i)) in E. pose proof (Forall_inv Fi) as Fi0. apply Forall_inv_tail in Fi. cbn [flat_map] in Hn, Ph.
      assert (Hx : exists x' n a, conncallback (cli s) = Ok (x', n) /\ notes i = n /\
         (match current x' with Some c => if busy x' then (x', []) else (leave x', [finish c x']) | None => (x', []) end) = (fst a, snd a) /\ cconn (fst a) = c' /\
         Phase (fst a) cs (flat_map reps its) (answers s ++ snd a) (snd (direct lin tinit))).
      { destruct i as [|x|m]; cbn [imsg fit_item notes reps app] in *.
        - exists (greet 19 (with_conn c' (cli s))), [], (greet 19 (with_conn c' (cli s)), []). split; [apply got_hello, E|]. split; [reflexivity|]. cbn [fst snd]. rewrite app_nil_r. split; [|split; [reflexivity|]].
          + destruct Ph as [H1 H2 H3 H4|c0 cs0 H1 H2 H3 H4 H5 H6 H7 H8|c0 a0 H1 H2 H3 H4 H5 H6]; cbn [current busy greet with_conn]; rewrite H1, ?H2; reflexivity.
          + eapply phase_conn; [..|exact Ph]; reflexivity.
        - exists (with_conn c' (cli s)), [x], (with_conn c' (cli s), []). split; [apply got_note; assumption|]. split; [reflexivity|]. cbn [fst snd]. rewrite app_nil_r. split; [|split; [reflexivity|]].
          + destruct Ph as [H1 H2 H3 H4|c0 cs0 H1 H2 H3 H4 H5 H6 H7 H8|c0 a0 H1 H2 H3 H4 H5 H6]; cbn [current busy with_conn]; rewrite H1, ?H2; reflexivity.
          + eapply phase_conn; [..|exact Ph]; reflexivity.
        - destruct Ph as [H1 H2 H3 H4|c0 cs0 H1 H2 H3 H4 H5 H6 H7 H8|c0 a0 H1 H2 H3 H4 H5 H6]; [discriminate|discriminate|].
          match goal with |- ?G => assert (Done : forall x', current x' = Some c0 -> busy x' = false -> cconn x' = c' -> flat_map reps its = [] -> finish c0 x' = a0 -> conncallback (cli s) = Ok (x', []) -> G) end.
          { intros x' E1 E2 E3 E4 E5 E6. exists x', [], (leave x', [a0]). split; [exact E6|]. split; [reflexivity|]. rewrite E1, E2, E5. split; [reflexivity|]. split; [exact E3|]. apply P_idle; [reflexivity|rewrite H4; constructor|exact E4|symmetry; exact H5]. }
          inversion H6 as [k rl K1 K2 K3 K4|k v rl Fk Fv K1 K2 K3 K4|k b rl Fk K1 K2 K3 K4|k r rl K1 K2 K3 K4|k r done todo Ft K1 K2 K3 K4|c rl Hr K1 K2 K3 K4]; subst.
          + try match goal with H : [] = flat_map reps its |- _ => rewrite <- H in Done end. apply (Done (reply false [] (result (cli s)) (with_conn c' (cli s)))); auto using got_fail.
          + try match goal with H : [] = flat_map reps its |- _ => rewrite <- H in Done end. apply (Done (reply true k (Some v) (with_conn c' (cli s)))); auto.
            * cbn [finish reply with_conn success result_key result]. rewrite key_same by apply Fk. reflexivity.
            * apply (got_pair _ _ ONEVAL); auto.
          + try match goal with H : [] = flat_map reps its |- _ => rewrite <- H in Done end. apply (Done (reply true k (Some (if b then B "TRUE" else B "FALSE")) (with_conn c' (cli s)))); auto.
            * cbn [finish reply with_conn success result_key result]. rewrite key_same by apply Fk. destruct b; reflexivity.
            * apply (got_pair _ _ CHILD); auto. split; [destruct b; intros Hx; cbn in Hx; intuition discriminate|]. intros y Hy. exfalso. destruct b; destruct y as [|? [|? [|? [|? [|? y]]]]]; try discriminate; destruct y; discriminate.
          + try match goal with H : [] = flat_map reps its |- _ => rewrite <- H in Done end. apply (Done (reply false [] (result (cli s)) (with_conn c' (cli s)))); auto using got_fail.
          + destruct todo as [|e todo]; cbn [map app] in K3.
            * injection K3 as <- Kr. symmetry in Kr. apply (Done (reply true (result_key (cli s)) (result (cli s)) (with_conn c' (cli s)))); auto using got_ok. cbn [finish reply with_conn success result_list]. rewrite app_nil_r. reflexivity.
            * injection K3 as <- Kr. pose proof (Forall_inv Ft) as Fe. apply Forall_inv_tail in Ft. exists (add_value (fst e) (snd e) (with_conn c' (cli s))), [], (add_value (fst e) (snd e) (with_conn c' (cli s)), []).
              split; [apply got_val; assumption|]. split; [reflexivity|]. cbn [fst snd current busy add_value with_conn]. rewrite H1, H2. split; [reflexivity|]. split; [reflexivity|]. rewrite app_nil_r.
              apply (P_told _ _ _ _ _ (CList k r) (AList (result_list (cli s) ++ e :: todo))); auto. cbn [result_list add_value with_conn current]. rewrite H1. cbn iota.
              rewrite <- Kr. replace (result_list (cli s) ++ e :: todo) with ((result_list (cli s) ++ [(fst e, snd e)]) ++ todo) by (rewrite <- app_assoc; destruct e; reflexivity). apply Aw_list, Ft.
          + try match goal with H : [] = flat_map reps its |- _ => rewrite <- H in Done end. apply (Done (reply true (result_key (cli s)) (result (cli s)) (with_conn c' (cli s)))); auto using got_ok. destruct Hr as [-> | ->]; reflexivity. }
      destruct Hx as (x' & n & a & -> & En & Ea & Cx & Ph'). cbn [bind]. rewrite Ea. eexists _, [], cs, its. split; [reflexivity|]. split; [intros U; repeat split; exact U|]. rewrite app_nil_r. unfold Inv2. cbn [srv cli up down calls answers deltas sconn sgen]. rewrite others_app. cbn [others]. rewrite !app_nil_r.
      split; [exact Hg|]. split; [exact G|]. split; [exact Ht|]. split; [exact Wu|]. split; [exact Fc|]. split; [exact Hc|]. split; [rewrite Cx; exact W'|]. split; [exact Fi|]. split; [rewrite Hn, <- En, app_assoc; reflexivity|]. auto.
  - (* somebody else sets a key *)
    destruct F as [[C N] Fv]. destruct (assign_ok (sgen (srv s)) k v G C N Fv) as (-> & G' & Fn). cbn [bind]. eexists _, [Theirs k v], cs, (its ++ map INote (snd (tset (sgen (srv s)) k v))). split; [reflexivity|]. split; [exact I|]. unfold Inv2. cbn [srv cli up down calls answers deltas sconn sgen].
    rewrite others_app, theirs_app, mine_app. cbn [others theirs mine]. rewrite !app_nil_r, direct_snoc. cbn [as_call local]. destruct (direct lin tinit) as [[g1 n1] a1] eqn:Ed. cbn [fst snd] in *. rewrite <- Hg. cbn [fst snd]. rewrite app_nil_r.
    split; [reflexivity|]. split; [exact G'|]. split; [rewrite Ht; reflexivity|]. split; [exact Wu|]. split; [exact Fc|]. split; [exact Hc|]. rewrite map_app, !flat_map_app. destruct (map_notes (snd (tset (sgen (srv s)) k v))) as [-> ->]. rewrite app_nil_r.
    split; [rewrite map_map; cbn [imsg]; apply wire_send; [exact Wd|]; apply Forall_map; eapply Forall_impl; [|exact Fn]; apply nmsg_whole|]. split; [apply Forall_app; split; [exact Fi|]; apply Forall_map; exact Fn|]. split; [rewrite Hn, app_assoc; reflexivity|]. auto.
Qed.

(** * Runs *)
Lemma run_app l : forall l' s, run (l ++ l') s = let! s := run l s in run l' s.
Proof. induction l as [|o l IH]; intros l' s; cbn [run app]; [reflexivity|]. destruct (do_step o s) as [s1| |]; cbn [bind]; [apply IH|reflexivity|reflexivity]. Qed.
Lemma run_ok l : forall lin l0 s, Inv lin l0 s -> Forall fit_step l -> exists s' lin', run l s = Ok s' /\ Inv (lin ++ lin') (l0 ++ l) s'.
Proof.
  induction l as [|o l IH]; intros lin l0 s H F.
  - exists s, []. rewrite !app_nil_r. auto.
  - destruct H as (cs & its & H). destruct (step_ok lin l0 s o cs its H (Forall_inv F)) as (s1 & lin1 & cs1 & its1 & E & _ & H1). cbn [run]. rewrite E. cbn [bind].
    destruct (IH (lin ++ lin1) (l0 ++ [o]) s1 (ex_intro _ cs1 (ex_intro _ its1 H1)) (Forall_inv_tail F)) as (s2 & lin2 & E2 & H2). exists s2, (lin1 ++ lin2). split; [exact E2|]. rewrite <- !app_assoc in H2. exact H2.
Qed.
Lemma Inv_explains lin l s : Inv lin l s -> explains lin l s.
Proof.
  intros (cs & its & Hg & G & Ht & Wu & Fc & Hc & Wd & Fi & Hn & Ph & Hl). unfold explains. destruct (direct lin tinit) as [[g n] a]. cbn [fst snd] in *. split; [exact Hg|]. split; [exact Ht|]. split; [exists cs; exact Hc|].
  split; [|split; [exists (flat_map notes its); exact Hn|]].
  - destruct Ph as [H1 H2 H3 H4|c0 cs0 H1 H2 H3 H4 H5 H6 H7 H8|c0 a0 H1 H2 H3 H4 H5 H6]; [exists []; rewrite app_nil_r; auto|exists []; rewrite app_nil_r; auto|exists [a0]; exact H5].
  - intros Hi. destruct Ph as [H1 H2 H3 H4|c0 cs0 H1 H2 H3 H4 H5 H6 H7 H8|c0 a0 H1 H2 H3 H4 H5 H6]; [|congruence|congruence].
    rewrite H4, Hl, Hc, filter_app. assert (filter answered cs = []) as ->; [|rewrite app_nil_r; reflexivity]. clear - H2. induction H2 as [|c cs E _ IH]; [reflexivity|]. cbn. rewrite E. exact IH.
Qed.
(** Everything under way is delivered. *)
Lemma calm_fit l : Forall calm l -> Forall fit_step l.
Proof. apply Forall_impl. intros []; cbn; tauto. Qed.
Lemma serve_all : forall n lin l s cs its, Inv2 lin l s cs its -> up s = [] -> length cs <= n ->
  exists s' lin' its', run (repeat Serve n) s = Ok s' /\ Inv2 lin' (l ++ repeat Serve n) s' [] its' /\ up s' = [].
Proof.
  induction n as [|n IH]; intros lin l s cs its H U L.
  - destruct cs; [|cbn in L; lia]. exists s, lin, its. rewrite app_nil_r. auto.
  - destruct (step_ok lin l s Serve cs its H I) as (s1 & lin1 & cs1 & its1 & E & P & H1). destruct (P U) as [-> U1]. cbn [repeat run]. rewrite E. cbn [bind].
    destruct (IH _ _ s1 (tl cs) its1 H1 U1 ltac:(destruct cs; cbn in *; lia)) as (s2 & lin2 & its2 & E2 & H2 & U2). exists s2, lin2, its2. rewrite <- app_assoc in H2. auto.
Qed.
Lemma poll_all : forall n lin l s its, Inv2 lin l s [] its -> up s = [] -> down s = [] -> length its <= n ->
  exists s' lin', run (repeat Poll n) s = Ok s' /\ Inv2 lin' (l ++ repeat Poll n) s' [] [] /\ up s' = [] /\ down s' = [].
Proof.
  induction n as [|n IH]; intros lin l s its H U D L.
  - destruct its; [|cbn in L; lia]. exists s, lin. rewrite app_nil_r. auto.
  - destruct (step_ok lin l s Poll [] its H I) as (s1 & lin1 & cs1 & its1 & E & P & H1). destruct (P D) as (-> & -> & U1 & D1). rewrite U in U1. cbn [repeat run]. rewrite E. cbn [bind].
    destruct (IH _ _ s1 (tl its) H1 U1 D1 ltac:(destruct its; cbn in *; lia)) as (s2 & lin2 & E2 & H2 & U2 & D2). exists s2, lin2. rewrite <- app_assoc in H2. auto.
Qed.
Lemma drain lin l s : Inv lin l s -> exists l' s' lin', Forall calm l' /\ run l' s = Ok s' /\ Inv2 lin' (l ++ l') s' [] [] /\ up s' = [] /\ down s' = [].
Proof.
  intros (cs & its & H). destruct (step_ok lin l s (Up (length (up s))) cs its H I) as (s1 & lin1 & cs1 & its1 & E1 & (-> & -> & U1) & H1). rewrite skipn_all in U1.
  destruct (serve_all (length cs) _ _ s1 cs its H1 U1 (Nat.le_refl _)) as (s2 & lin2 & its2 & E2 & H2 & U2).
  destruct (step_ok _ _ s2 (Down (length (down s2))) [] its2 H2 I) as (s3 & lin3 & cs3 & its3 & E3 & (-> & -> & U3 & D3) & H3). rewrite skipn_all in D3. rewrite U2 in U3.
  destruct (poll_all (length its2) _ _ s3 its2 H3 U3 D3 (Nat.le_refl _)) as (s4 & lin4 & E4 & H4 & U4 & D4).
  exists (Up (length (up s)) :: repeat Serve (length cs) ++ Down (length (down s2)) :: repeat Poll (length its2)), s4, lin4. split; [|split; [|split; [|auto]]].
  - constructor; [exact I|]. apply Forall_app. split; [apply Forall_forall; intros o Ho; apply repeat_spec in Ho; rewrite Ho; exact I|]. constructor; [exact I|]. apply Forall_forall. intros o Ho. apply repeat_spec in Ho. rewrite Ho. exact I.
  - cbn [run]. rewrite E1. cbn [bind]. rewrite run_app, E2. cbn [bind run]. rewrite E3. cbn [bind]. exact E4.
  - rewrite <- !app_assoc in H4. cbn [app] in H4. exact H4.
Qed.
