From Verif Require Import Base BaseFacts Ctype DecSpec UrlModel IniModel IntFmtModel HttpModel HttpSpec HttpProofs HttpProofs2.
From Coq Require Import ZifyBool ZifyNat.
Local Open Scope nat_scope.

Lemma sent_app a b : sent_in (a ++ b) = sent_in a ++ sent_in b.
Proof. apply flat_map_app. Qed.
Lemma seen_app a b : seen_in (a ++ b) = seen_in a ++ seen_in b.
Proof. apply flat_map_app. Qed.
Lemma users_app a b : users (a ++ b) = users a ++ users b.
Proof. unfold users. rewrite map_app, filter_app, map_app. reflexivity. Qed.

Section Server.
  Variable w : world.
  Variable a : answers.
  Hypothesis G : good_server w a.

  Definition answer (x : nat * req) : response := fst (a (fst x) (snd x)).
  Definition closes (x : nat * req) : bool := snd (a (fst x) (snd x)).
  Definition txt (x : nat * req) : bytes := text (head (snd x)) (answer x).
  (** The bytes the server sends for some requests, and whether it has then closed *)
  Fixpoint supply (c : bool) (l : list (nat * req)) : bytes :=
    match l with [] => [] | x :: r => if c then [] else txt x ++ supply (closes x) r end.
  Fixpoint ended (c : bool) (l : list (nat * req)) : bool :=
    match l with [] => c | x :: r => if c then true else ended (closes x) r end.
  Lemma supply_closed l : supply true l = [].
  Proof. destruct l; reflexivity. Qed.
  Lemma ended_closed l : ended true l = true.
  Proof. destruct l; reflexivity. Qed.
  Lemma supply_snoc l x c : supply c (l ++ [x]) = supply c l ++ (if ended c l then [] else txt x).
  Proof.
    revert c. induction l as [|y l IH]; intros c; cbn [app supply ended].
    - destruct c; [reflexivity|]. rewrite app_nil_r. reflexivity.
    - destruct c; [reflexivity|]. rewrite IH, app_assoc. reflexivity.
  Qed.
  Lemma ended_snoc l x c : ended c (l ++ [x]) = (if ended c l then true else closes x).
  Proof. revert c. induction l as [|y l IH]; intros c; cbn [app ended]; [destruct c; reflexivity|]. destruct c; [reflexivity|apply IH]. Qed.

  (** ** Tests of pipelining *)
  Definition ntest (x : nat * req) : Prop := test (snd x) = false.
  Definition tinv (n : nat) (last : bool) (u : list (nat * req)) : Prop :=
    match n with
    | O => last = false /\ (Forall ntest u \/ exists x y r, u = x :: y :: r /\ test (snd x) = true /\ Forall ntest (y :: r))
    | S O => exists l x r, u = l ++ x :: r /\ test (snd x) = true /\ Forall ntest l /\ Forall ntest r /\ (last = true -> l <> [])
    | _ => Forall ntest u
    end.
  Lemma tinv_snoc n last u x : tinv n last u -> ntest x -> tinv n last (u ++ [x]).
  Proof.
    intros H X. destruct n as [|[|n]]; cbn [tinv] in *.
    - destruct H as [H1 [H|(y & z & r & -> & T & H)]]; (split; [exact H1|]).
      + left. apply Forall_app. auto.
      + right. exists y, z, (r ++ [x]). split; [reflexivity|]. split; [exact T|]. change (z :: r ++ [x]) with ((z :: r) ++ [x]). apply Forall_app. auto.
    - destruct H as (l & y & r & -> & T & L & R & N). exists l, y, (r ++ [x]). rewrite <- app_assoc. repeat split; auto. apply Forall_app. auto.
    - apply Forall_app. auto.
  Qed.
  Lemma tinv_other n last last' u x : tinv n last (x :: u) -> ntest x -> last' = false -> tinv n last' u.
  Proof.
    intros H X L'. destruct n as [|[|n]]; cbn [tinv] in *.
    - destruct H as [H1 [H|(y & z & r & E & T & H)]]; (split; [exact L'|]).
      + left. apply Forall_inv_tail in H. exact H.
      + injection E as -> ->. unfold ntest in X. congruence.
    - destruct H as (l & y & r & E & T & L & R & N). destruct l as [|z l].
      + injection E as -> ->. unfold ntest in X. congruence.
      + injection E as -> ->. exists l, y, r. repeat split; auto. apply Forall_inv_tail in L. exact L. congruence.
    - apply Forall_inv_tail in H. exact H.
  Qed.
  Lemma tinv_test n last u x : tinv n last (x :: u) -> test (snd x) = true ->
    (n = 0 /\ last = false /\ u <> [] /\ Forall ntest u) \/ (n = 1 /\ last = false /\ Forall ntest u).
  Proof.
    intros H X. destruct n as [|[|n]]; cbn [tinv] in *.
    - destruct H as [H1 [H|(y & z & r & E & T & H)]].
      + apply Forall_inv in H. unfold ntest in H. congruence.
      + injection E as -> ->. left. repeat split; auto. discriminate.
    - destruct H as (l & y & r & E & T & L & R & N). destruct l as [|z l].
      + injection E as -> ->. right. repeat split; auto. destruct last; [exfalso; apply N; reflexivity|reflexivity].
      + injection E as -> ->. apply Forall_inv in L. unfold ntest in L. congruence.
    - apply Forall_inv in H. unfold ntest in H. congruence.
  Qed.
  Lemma tinv_last n u x : tinv n true (x :: u) -> ntest x.
  Proof.
    intros H. destruct n as [|[|n]]; cbn [tinv] in *.
    - destruct H as [H _]. discriminate.
    - destruct H as (l & y & r & E & T & L & R & N). destruct l as [|z l]; [exfalso; apply N; reflexivity|]. injection E as -> ->. apply Forall_inv in L. exact L.
    - apply Forall_inv in H. exact H.
  Qed.

  (** ** The requests in the queue, and the bytes for them *)
  Definition same_tests (t : bytes) : Prop := forall i q, test q = true -> status_line (fst (a i q)) = t.
  Definition goodq (x : nat * req) : Prop := test (snd x) = true -> head (snd x) = true.
  (** [c]: the server closed before the first request of [urls]; [P]: the bytes that were read
      since; [D]: the requests that are done *)
  Definition Q0 (P : bytes) (c : bool) (D : list (nat * req)) (adds : list bool) (s : hst) : Prop :=
    ok s = true /\ failed s = false /\
    P ++ (inbuf s ++ wire s) = supply c (urls s) /\ fin s = ended c (urls s) /\
    sent_in (log s) = D ++ urls s /\ map fst (D ++ urls s) = seq 1 (count s) /\
    users (D ++ urls s) ++ map head (waiting s) = adds /\ Forall (fun q => test q = false) (waiting s) /\ Forall goodq (urls s) /\
    tests s <= length D /\
    (tests s <> 0 -> forall t, same_tests t -> test_resp s = t) /\
    ((exists x, In x (urls s) /\ test (snd x) = true) \/ tests s <> 0 -> pipelining w = true).
  Definition Q P c D adds s : Prop := Q0 P c D adds s /\ tinv (tests s) (last_test s) (urls s).
  Lemma Q_net P c D adds s P' i' w' : Q P c D adds s -> P' ++ (i' ++ w') = P ++ (inbuf s ++ wire s) -> Q P' c D adds (set_net s i' w' (fin s)).
  Proof. intros ((H1 & H2 & H3 & H) & T) E. split; [|exact T]. split; [exact H1|]. split; [exact H2|]. split; [cbn; rewrite E; exact H3|exact H]. Qed.
  Lemma Q_log P c D adds s e : sent_in [e] = [] -> Q P c D adds s -> Q P c D adds (add_log s e).
  Proof.
    intros E ((H1 & H2 & H3 & H4 & H5 & H) & T). split; [|exact T]. split; [exact H1|]. split; [exact H2|]. split; [exact H3|]. split; [exact H4|]. split; [|exact H].
    cbn [add_log log urls]. rewrite sent_app, E, app_nil_r. exact H5.
  Qed.

  Definition core (s : hst) := (cur s, resp s, encoding s, remaining s, trailer s, (tests s, last_test s, test_resp s, ok s, failed s)).
  Lemma core_eq s s' : core s' = core s -> cur s' = cur s /\ resp s' = resp s /\ encoding s' = encoding s /\ remaining s' = remaining s /\ trailer s' = trailer s /\
    tests s' = tests s /\ last_test s' = last_test s /\ test_resp s' = test_resp s /\ ok s' = ok s /\ failed s' = failed s.
  Proof. unfold core. intros E. injection E. tauto. Qed.
  Definition push (s : hst) (q : req) : hst := let s := send_request w s q in set_urls s (urls s ++ [(count s, q)]) (waiting s) (cur s).
  Lemma serve_eq i q : serve w i q = (txt (i, q), closes (i, q)).
  Proof. destruct G as (H & _). apply H. Qed.
  Lemma push_ok P c D adds s q : Q0 P c D (adds ++ map head (waiting s)) s -> (test q = true -> head q = true) ->
    (test q = true -> pipelining w = true) ->
    Q0 P c D (adds ++ (if test q then [] else [head q]) ++ map head (waiting s)) (push s q) /\ core (push s q) = core s /\ seen_in (log (push s q)) = seen_in (log s) /\
    urls (push s q) = urls s ++ [(S (count s), q)] /\ waiting (push s q) = waiting s /\ count (push s q) = S (count s).
  Proof.
    intros (H1 & H2 & H3 & H4 & H5 & H6 & H7 & H8 & H9 & H11 & H12 & H13) T1 T2. unfold push, send_request. cbn [set_count ok]. rewrite H1.
    cbn [count set_count]. rewrite serve_eq. cbn [set_count add_log fin].
    assert (E7 : users (D ++ urls s ++ [(S (count s), q)]) ++ map head (waiting s) = adds ++ (if test q then [] else [head q]) ++ map head (waiting s)).
    { apply app_inv_tail in H7. rewrite !app_assoc. f_equal. rewrite users_app, H7. f_equal. unfold users. cbn. destruct (test q); reflexivity. }
    assert (E6 : map fst (D ++ urls s ++ [(S (count s), q)]) = seq 1 (S (count s))).
    { rewrite app_assoc, map_app, H6, seq_S. reflexivity. }
    assert (E13 : (exists x, In x (urls s ++ [(S (count s), q)]) /\ test (snd x) = true) \/ tests s <> 0 -> pipelining w = true).
    { intros [(x & Hx & Tx)|N]; [|auto]. apply in_app_iff in Hx. destruct Hx as [Hx|[<-|[]]]; [apply H13; left; eauto|apply T2, Tx]. }
    assert (E9 : Forall goodq (urls s ++ [(S (count s), q)])) by (apply Forall_app; split; [exact H9|constructor; [exact T1|constructor]]).
    destruct (fin s) eqn:F.
    - split.
      + split; [exact H1|]. split; [exact H2|]. cbn -[users map seq txt closes]. rewrite supply_snoc, ended_snoc, <- H4, !app_nil_r. split; [exact H3|]. split; [exact F|].
        split; [rewrite sent_app, H5, <- app_assoc; reflexivity|]. repeat split; auto.
      + repeat split; try reflexivity. cbn. rewrite seen_app. cbn. apply app_nil_r.
    - split.
      + split; [exact H1|]. split; [exact H2|]. cbn -[users map seq txt closes]. rewrite supply_snoc, ended_snoc, <- H4. split; [rewrite <- H3, !app_assoc; reflexivity|]. split; [reflexivity|].
        split; [rewrite sent_app, H5, <- app_assoc; reflexivity|]. repeat split; auto.
      + repeat split; try reflexivity. cbn. rewrite seen_app. cbn. apply app_nil_r.
  Qed.
  Lemma start_push s : start_test w s = push s (Req true true).
  Proof. reflexivity. Qed.
  Lemma seq_nil_count D (u : list (nat * req)) n : map fst (D ++ u) = seq 1 n -> n = 0 -> D = [] /\ u = [].
  Proof. intros H ->. destruct D; [destruct u; [auto|]|]; discriminate H. Qed.

  Lemma next_ok P c D adds s : Q P c D adds s -> Q P c D adds (request_next w s) /\ core (request_next w s) = core s /\ seen_in (log (request_next w s)) = seen_in (log s) /\
    exists v, urls (request_next w s) = urls s ++ v.
  Proof.
    intros H. unfold request_next. destruct (waiting s) as [|q r] eqn:W; [split; [exact H|]; repeat split; exists []; symmetry; apply app_nil_r|].
    destruct ((max w <=? count s) || negb (pipelining w) && negb match urls s with [] => true | _ :: _ => false end) eqn:C; [split; [exact H|]; repeat split; exists []; symmetry; apply app_nil_r|]. clear C.
    destruct H as [H T10]. pose proof H as (H1 & H2 & H3 & H4 & H5 & H6 & H7 & H8 & H9 & H11 & H12 & H13). rewrite W in H7, H8. pose proof (Forall_inv H8) as Tq. cbn beta in Tq. apply Forall_inv_tail in H8.
    set (s1 := set_urls s (urls s) r (cur s)).
    assert (Q1 : Q0 P c D (users (D ++ urls s) ++ map head (waiting s1)) s1) by (repeat split; assumption).
    destruct (pipelining w && (count s1 =? 0) && (1 <? max w)) eqn:E.
    - rewrite start_push. destruct (count s1 =? 0) eqn:Z; [|rewrite Bool.andb_false_r in E; discriminate]. apply Nat.eqb_eq in Z.
      destruct (seq_nil_count _ _ _ H6 Z) as [D0 U0]. assert (N0 : tests s = 0) by (rewrite D0 in H11; cbn in H11; lia).
      assert (L0 : last_test s = false) by (rewrite N0 in T10; apply T10).
      assert (Pw : pipelining w = true) by (destruct (pipelining w); [reflexivity|discriminate]).
      destruct (push_ok P c D _ s1 (Req true true) Q1) as (Q2 & C2 & S2 & U2 & W2 & _); [reflexivity|auto|].
      set (s2 := push s1 (Req true true)) in *. cbn [test app] in Q2. rewrite <- W2 in Q2.
      destruct (push_ok P c D _ s2 q Q2) as (Q3 & C3 & S3 & U3 & W3 & _); [congruence|congruence|]. fold (push s2 q).
      set (s3 := push s2 q) in *. rewrite Tq, W2 in Q3. destruct (core_eq _ _ (eq_trans C3 C2)) as (_ & _ & _ & _ & _ & E1 & E2 & _).
      split; [split; [rewrite <- H7; exact Q3|]|].
      + rewrite E1, E2, U3, U2. cbn [tests last_test urls s1 set_urls]. rewrite N0, L0, U0. cbn [app tinv]. split; [reflexivity|]. right. do 3 eexists. split; [reflexivity|]. split; [reflexivity|]. constructor; [exact Tq|constructor].
      + split; [exact (eq_trans C3 C2)|]. split; [exact (eq_trans S3 S2)|]. rewrite U3, U2. cbn [urls s1 set_urls]. rewrite <- app_assoc. eauto.
    - destruct (push_ok P c D _ s1 q Q1) as (Q3 & C3 & S3 & U3 & W3 & _); [congruence|congruence|]. fold (push s1 q).
      set (s3 := push s1 q) in *. rewrite Tq in Q3. destruct (core_eq _ _ C3) as (_ & _ & _ & _ & _ & E1 & E2 & _).
      split; [split; [rewrite <- H7; exact Q3|]|].
      + rewrite E1, E2, U3. apply tinv_snoc; [exact T10|exact Tq].
      + split; [exact C3|]. split; [exact S3|]. rewrite U3. eauto.
  Qed.

  (** ** A request is done *)
  Lemma push_commute s q r e m t n l x : push (set_tests (set_rx s r e m t) n l x) q = set_tests (set_rx (push s q) r e m t) n l x.
  Proof. unfold push, send_request. cbn [set_tests set_rx set_count ok count]. destruct (ok s); [|reflexivity]. destruct (serve w (S (count s)) q) as [b c]. cbn. destruct (fin s); reflexivity. Qed.
  Lemma answered_app D u : answered a D = D -> answered a (D ++ u) = if existsb closes D then D else D ++ answered a u.
  Proof.
    induction D as [|[i q] D IH]; cbn [answered existsb app]; intros H; [reflexivity|]. unfold closes at 1. cbn [fst snd].
    destruct (snd (a i q)) eqn:E; cbn [orb].
    - injection H as H. rewrite <- H. reflexivity.
    - injection H as H. rewrite IH by exact H. destruct (existsb closes D); reflexivity.
  Qed.
  Lemma answered_snoc D x : answered a D = D -> existsb closes D = false -> answered a (D ++ [x]) = D ++ [x].
  Proof. intros H E. rewrite answered_app, E by exact H. destruct x as [i q]. cbn. destruct (snd (a i q)); reflexivity. Qed.
  Lemma closes_snoc D x : existsb closes D = false -> existsb closes (D ++ [x]) = closes x.
  Proof. intros E. rewrite existsb_app, E. cbn. apply Bool.orb_false_r. Qed.
  Definition popped (s : hst) n l t i : hst := set_urls (add_log (set_tests (set_rx s [] Unknown 0 false) n l t) (Done i)) (tl (urls s)) (waiting s) NoCur.
  Lemma pop_ok D adds s x r n l t i : Q0 (txt x) false D adds s -> urls s = x :: r -> n <= S (length D) ->
    (n <> 0 -> forall t', same_tests t' -> t = t') -> (n <> 0 -> pipelining w = true) -> Q0 [] (closes x) (D ++ [x]) adds (popped s n l t i).
  Proof.
    intros (H1 & H2 & H3 & H4 & H5 & H6 & H7 & H8 & H9 & H11 & H12 & H13) U N1 N2 N3. rewrite U in *. cbn [supply ended] in H3, H4. apply app_inv_head in H3.
    unfold Q0, popped. cbn -[users map seq closes txt supply ended]. rewrite U. cbn [tl]. rewrite sent_app, H5. cbn [sent_in flat_map]. rewrite app_nil_r, <- app_assoc. cbn [app].
    split; [exact H1|]. split; [exact H2|]. split; [exact H3|]. split; [exact H4|]. split; [reflexivity|]. split; [exact H6|]. split; [exact H7|]. split; [exact H8|].
    split; [apply Forall_inv_tail in H9; exact H9|]. split; [rewrite app_length; cbn; lia|]. split; [exact N2|].
    intros [(y & Y1 & Y2)|N]; [|auto]. apply H13. left. exists y. split; [right; exact Y1|exact Y2].
  Qed.
  Definition Start (D : list (nat * req)) (adds : list bool) (s : hst) : Prop :=
    Q [] (existsb closes D) D adds s /\ answered a D = D /\ cur s = NoCur /\ resp s = [] /\ encoding s = Unknown /\ remaining s = 0%Z /\ trailer s = false /\
    seen_in (log s) = flat_map (wanted a) D.
  Lemma done_ok D adds s x r : Q (txt x) false D adds s -> answered a D = D -> existsb closes D = false -> urls s = x :: r -> cur s = First ->
    resp s = status_line (answer x) -> seen_in (log s) ++ [SDone (fst x)] = flat_map (wanted a) (D ++ [x]) -> exists s', done_url w s = Ok s' /\ Start (D ++ [x]) adds s'.
  Proof.
    intros [H T] A C U Cu R Se. destruct x as [i q].
    assert (K : forall s1, Q0 (txt (i, q)) false D adds s1 -> forall u n l t, urls s1 = (i, q) :: u -> seen_in (log s1) = seen_in (log s) ->  n <= S (length D) ->
      (n <> 0 -> forall t', same_tests t' -> t = t') -> (n <> 0 -> pipelining w = true) -> tinv n l u -> exists s', Ok (request_next w (popped s1 n l t i)) = Ok s' /\ Start (D ++ [(i, q)]) adds s').
    { intros s1 H1 u n l t U1 S1 N1 N2 N3 T1. eexists. split; [reflexivity|]. pose proof (pop_ok D adds s1 (i, q) u n l t i H1 U1 N1 N2 N3) as H2.
      assert (Q2 : Q [] (closes (i, q)) (D ++ [(i, q)]) adds (popped s1 n l t i)) by (split; [exact H2|]; cbn -[tinv]; rewrite U1; exact T1).
      destruct (next_ok _ _ _ _ _ Q2) as (Q3 & C3 & S3 & _). destruct (core_eq _ _ C3) as (E1 & E2 & E3 & E4 & E5 & _).
      unfold Start. rewrite closes_snoc by exact C. split; [exact Q3|]. split; [apply answered_snoc; assumption|].
      rewrite E1, E2, E3, E4, E5, S3. repeat split. cbn [popped set_urls add_log log]. rewrite seen_app. cbn [set_tests set_rx log]. rewrite S1. exact Se. }
    unfold done_url. rewrite Cu, U. cbv zeta. pose proof H as (H1 & H2 & H3 & H4 & H5 & H6 & H7 & H8 & H9 & H11 & H12 & H13). destruct (test q) eqn:Tq.
    - rewrite U in T. assert (Pw : pipelining w = true) by (apply H13; left; exists (i, q); split; [rewrite U; left; reflexivity|exact Tq]).
      assert (Rt : forall t, same_tests t -> resp s = t) by (intros t St; rewrite R; apply St, Tq).
      destruct (tinv_test _ _ _ _ T Tq) as [(N & _ & Nr & Fr)|(N & _ & Fr)]; cbn [tests set_tests set_rx]; rewrite N.
      + change (1 =? 1) with true. cbv iota. rewrite start_push. 
        match goal with |- context [push ?z (Req true true)] => change z with (set_tests (set_rx s [] Unknown 0%Z false) 1 true (test_resp s)) end. rewrite !push_commute.
        assert (Hw : Q0 (txt (i, q)) false D (users (D ++ urls s) ++ map head (waiting s)) s) by (rewrite H7; exact H).
        destruct (push_ok _ _ _ _ s (Req true true) Hw) as (Q2 & C2 & S2 & U2 & W2 & _); [reflexivity|auto|]. cbn [test app] in Q2. rewrite H7 in Q2.
        apply (K (push s (Req true true)) Q2 (r ++ [(S (count s), Req true true)]) 1 true (resp s)); [rewrite U2, U; reflexivity|exact S2|lia|intros _; exact Rt|intros _; exact Pw|].
        cbn [tinv]. exists r, (S (count s), Req true true), []. repeat split; auto.
      + change (2 =? 1) with false. cbv iota. cbn [test_resp set_tests]. assert (Et : eqs (test_resp s) (resp s) = true).
        { apply eqs_spec. destruct G as (_ & _ & _ & _ & G5). destruct (G5 Pw) as (t & Gt). assert (St : same_tests t) by (intros j p Tp; specialize (Gt j p); rewrite Tp in Gt; exact Gt). rewrite (Rt t St). apply H12; [rewrite N; discriminate|exact St]. }
        match goal with |- context [eqs ?x ?y] => change (eqs x y) with (eqs (test_resp s) (resp s)) end. rewrite Et. apply (K s H r 2 true (resp s) U eq_refl); [destruct D; cbn in *; lia|intros _; exact Rt|intros _; exact Pw|]. cbn [tinv]. exact Fr.
    - apply (K s H r (tests s) false (test_resp s) U eq_refl); [lia|exact H12|intros N; apply H13; right; exact N|]. rewrite U in T. apply (tinv_other _ _ false _ _ T); [exact Tq|reflexivity].
  Qed.

  (** ** Closing *)
  Definition Fin (adds : list bool) (s : hst) : Prop :=
    ok s = false /\ failed s = false /\ seen_in (log s) = flat_map (wanted a) (answered a (sent_in (log s))) /\ map fst (sent_in (log s)) = seq 1 (length (sent_in (log s))) /\
    exists v, users (sent_in (log s)) ++ v = adds.
  Lemma numbers D u n : map fst (D ++ u : list (nat * req)) = seq 1 n -> map fst (D ++ u) = seq 1 (length (D ++ u)).
  Proof. intros H. rewrite H. f_equal. rewrite <- (map_length fst), H, seq_length. reflexivity. Qed.
  Lemma close_idle s : failed s = false -> cur s = NoCur -> exists b, close w s = Ok (set_urls (set_ok s b false false) (urls s) [] NoCur).
  Proof. intros F C. unfold close. cbn [failed set_ok]. rewrite F. cbn [andb bind cur set_ok set_urls]. rewrite C. eexists. reflexivity. Qed.
  Lemma closed_start D adds s : Start D adds s -> existsb closes D = true -> exists s', below_closed w s = Ok s' /\ Fin adds s' /\ inbuf s' = inbuf s /\ inbuf s = [].
  Proof.
    intros (((H1 & H2 & H3 & H4 & H5 & H6 & H7 & _) & _) & A & C & _ & _ & _ & _ & S) E. rewrite E, supply_closed in H3. cbn [app] in H3. apply app_eq_nil in H3. destruct H3 as [I _].
    unfold below_closed. rewrite I. destruct (close_idle s H2 C) as (b & ->). cbn [bind].
    destruct (close_idle (set_urls (set_ok s b false false) (urls s) [] NoCur) eq_refl eq_refl) as (b' & ->). eexists. split; [reflexivity|].
    split; [|auto]. unfold Fin. cbn [set_urls set_ok ok failed log]. split; [reflexivity|]. split; [reflexivity|]. rewrite H5, answered_app, E by exact A. split; [exact S|]. split; [exact (numbers _ _ _ H6)|]. eexists. exact H7.
  Qed.
  Lemma getline_end s l : quiet l -> ok s = true -> inbuf s = [] -> wire s = [] -> fin s = true -> getline w s l = Ok (s, None) \/
    getline w s l = let! s := (let! (s, b) := (let! s := below_closed w s in Ok (s, [])) in Ok (set_net s (inbuf s ++ b) (wire s) (fin s))) in (if negb (ok s) then Ok (take_line s) else Ok (s, None)).
  Proof.
    intros Q O I W F. destruct l as [|x l]; cbn [getline]; rewrite O, I; cbn [split_at negb]; [left; reflexivity|].
    destruct (quiet_cons _ _ Q) as [(k & ->) _]. unfold uread. rewrite W, F. destruct k as [|k].
    - left. cbn. rewrite O. cbn. destruct s; cbn in *; subst; reflexivity.
    - right. destruct (below_closed w s) as [s'| |]; [|reflexivity|reflexivity]. reflexivity.
  Qed.

  (** ** Receiving *)
  Definition post (x : nat * req) (hs : list (bytes * bytes)) (d : bytes) : list seen :=
    let (i, q) := x in if test q then [SDone i] else map (fun h => SHeader i (fst h) (snd h)) hs ++ map (SByte i) d ++ [SDone i].
  Definition Mid (D : list (nat * req)) (adds : list bool) (s : hst) : Prop :=
    exists P rest x r pre hs d, existsb closes D = false /\ answered a D = D /\ txt x = P ++ rest /\ Q P false D adds s /\ urls s = x :: r /\
      resp s = status_line (answer x) /\ wanted a x = pre ++ post x hs d /\ seen_in (log s) = flat_map (wanted a) D ++ pre /\
      todo (head (snd x)) (closes x) (cur s) (encoding s) (remaining s) (trailer s) rest hs d /\ (cur s = First -> head (snd x) = false).
  Lemma bytes_left P rest D adds s x r : txt x = P ++ rest -> Q P false D adds s -> urls s = x :: r -> inbuf s ++ wire s = rest ++ supply (closes x) r.
  Proof. intros E ((_ & _ & H & _) & _) U. rewrite U in H. cbn [supply] in H. rewrite E, <- app_assoc in H. apply app_inv_head in H. exact H. Qed.
  Lemma out_Q P c D adds s e : (forall i, sent_in [e i] = []) -> Q P c D adds s -> Q P c D adds (out_log s e).
  Proof. intros E H. unfold out_log. destruct (urls s) as [|[i q] r]; [exact H|]. destruct (test q); [exact H|]. apply Q_log; [apply E|exact H]. Qed.
  Lemma out_core s e : core (out_log s e) = core s /\ urls (out_log s e) = urls s /\ waiting (out_log s e) = waiting s.
  Proof. unfold out_log. destruct (urls s) as [|[i q] r] eqn:U; [auto|]. destruct (test q); [auto|]. auto. Qed.
  Lemma out_seen s e x r : urls s = x :: r -> seen_in (log (out_log s e)) = seen_in (log s) ++ (if test (snd x) then [] else see (e (fst x))).
  Proof. intros U. unfold out_log. rewrite U. destruct x as [i q]. cbn [fst snd]. destruct (test q); [symmetry; apply app_nil_r|]. cbn [add_log log]. rewrite seen_app. cbn. rewrite app_nil_r. reflexivity. Qed.
  Lemma mid_net D adds s i' w' : Mid D adds s -> i' ++ w' = inbuf s ++ wire s -> Mid D adds (set_net s i' w' (fin s)).
  Proof.
    intros (P & rest & x & r & pre & hs & d & Dc & A & Tx & HQ & H) E. exists P, rest, x, r, pre, hs, d. split; [exact Dc|]. split; [exact A|]. split; [exact Tx|]. split; [|exact H].
    apply (Q_net _ _ _ _ _ P i' w' HQ). rewrite E. reflexivity.
  Qed.
  Lemma txt_eq x : txt x = line (status_line (answer x)) ++ flines (all_fields (answer x)) ++ crlf ++ (if head (snd x) then [] else body_text (what (answer x))).
  Proof. reflexivity. Qed.
  Lemma good_answer x : good_response (answer x).
  Proof. destruct G as (_ & H & _). apply H. Qed.
  Lemma wanted_eq x : wanted a x = (if test (snd x) then [] else [SStatus (fst x) (version (answer x)) (value (code (answer x)))]) ++
    post x (pairs (all_fields (answer x))) (if head (snd x) then [] else body_data (what (answer x))).
  Proof. destruct x as [i q]. unfold wanted, post, answer, pairs. cbn [fst snd]. destruct (test q); [reflexivity|]. rewrite map_map. reflexivity. Qed.

  (** The first line of a response *)
  Lemma first_line D adds s x r i' w' : Start D adds s -> existsb closes D = false -> urls s = x :: r ->
    i' ++ w' = flines (all_fields (answer x)) ++ crlf ++ (if head (snd x) then [] else body_text (what (answer x))) ++ supply (closes x) r ->
    exists s', header_line w (set_net s i' w' (fin s)) (status_line (answer x) ++ [cr]) = Ok s' /\ Mid D adds s'.
  Proof.
    intros (HQ & A & C & R & E & M & T & S) Dc U N. pose proof (good_answer x) as Ga. rewrite Dc in HQ. pose proof HQ as ((H1 & H2 & H3 & H4 & H5 & H6 & H7 & H8 & H9 & H11 & H12 & H13) & Ti).
    unfold header_line. rewrite trim_status by exact Ga.
    set (s1 := set_keep (set_rx (set_net s i' w' (fin s)) (status_line (answer x)) Unknown 0 false) (negb (prefix (B "HTTP/1.0") (status_line (answer x))))).
    assert (RL : response_line w (set_net s i' w' (fin s)) (status_line (answer x)) = Ok (s1, false)).
    { unfold response_line. cbn [resp set_net]. rewrite R. cbv zeta. cbn [set_net encoding remaining trailer]. rewrite E, M, T. fold s1.
      change (last_test s1) with (last_test s). change (test_resp s1) with (test_resp s). destruct (last_test s) eqn:L; [|reflexivity].
      assert (Nx : ntest x) by (rewrite U in Ti; exact (tinv_last _ _ _ Ti)).
      assert (Nt : tests s <> 0) by (intros Z; rewrite Z in Ti; destruct Ti as [Ti _]; discriminate).
      destruct G as (_ & _ & _ & _ & G5). destruct (G5 (H13 (or_intror Nt))) as (t & Gt). assert (St : same_tests t) by (intros j p Tp; specialize (Gt j p); rewrite Tp in Gt; exact Gt).
      specialize (Gt (fst x) (snd x)). rewrite Nx in Gt. destruct Gt as [Gt1 Gt2]. rewrite (H12 Nt t St). cbn [andb].
      destruct (eqs (status_line (answer x)) t) eqn:Eq; [apply eqs_spec in Eq; contradiction|].
      destruct (status_cons (answer x)) as (c0 & l0 & Es0). pose proof (status_split _ Ga) as Sp. rewrite Es0 in Sp |- *. rewrite Sp, (status_code _ Ga). cbn [bind]. change (fst (a (fst x) (snd x))) with (answer x) in Gt2. apply Z.eqb_neq in Gt2. rewrite Gt2. reflexivity. }
    rewrite RL. cbn [bind]. change (urls s1) with (urls s). rewrite U. rewrite status_field. cbn [bind]. destruct (status_cons (answer x)) as (c & l & Es). 
    replace (match status_line (answer x) with [] => header_end w s1 | _ :: _ => header_out s1 (status_line (answer x)) end) with (header_out s1 (status_line (answer x))) by (rewrite Es; reflexivity). rewrite status_out by exact Ga.
    eexists. split; [reflexivity|]. set (e := fun i => Status i (version (answer x)) (value (code (answer x)))).
    destruct (out_core s1 e) as (C1 & U1 & W1). destruct (core_eq _ _ C1) as (X1 & X2 & X3 & X4 & X5 & _).
    exists (line (status_line (answer x))), (flines (all_fields (answer x)) ++ crlf ++ (if head (snd x) then [] else body_text (what (answer x)))), x, r,
      (if test (snd x) then [] else see (e (fst x))), (pairs (all_fields (answer x))), (if head (snd x) then [] else body_data (what (answer x))).
    split; [exact Dc|]. split; [exact A|]. split; [apply txt_eq|]. split.
    { apply out_Q; [reflexivity|]. apply (Q_net [] false D adds s (line (status_line (answer x))) i' w') in HQ; [exact HQ|]. rewrite H3, U. cbn [supply]. rewrite txt_eq, N, <- !app_assoc. reflexivity. }
    split; [rewrite U1; exact U|]. split; [rewrite X2; reflexivity|]. split; [rewrite wanted_eq; reflexivity|]. split; [rewrite (out_seen s1 e x r U); change (log s1) with (log s); rewrite S; reflexivity|].
    rewrite X1, X3, X4, X5. change (cur s1) with (cur s). rewrite C. split; [|discriminate].
    apply todo_response; [exact Ga|]. intros Hd t Wt. destruct G as (_ & _ & G3 & _). exact (G3 _ _ t Hd Wt).
  Qed.
  Definition Inv (adds : list bool) (s : hst) : Prop := (exists D, Start D adds s) \/ (exists D, Mid D adds s).
  Lemma exec_start D adds s l : quiet l -> Start D adds s -> exists s', execute w s l = Ok s' /\ (Inv adds s' \/ Fin adds s').
  Proof.
    intros Ql H. pose proof H as (HQ & A & C & R & E & M & T & S). pose proof HQ as ((H1 & H2 & H3 & H4 & _) & _). unfold execute. rewrite C.
    destruct (existsb closes D) eqn:Dc.
    - rewrite supply_closed in H3. rewrite ended_closed in H4. apply app_eq_nil in H3. destruct H3 as [_ H3]. apply app_eq_nil in H3. destruct H3 as [I W].
      destruct (getline_end s l Ql H1 I W H4) as [->| ->]; cbn [bind].
      + exists s. split; [reflexivity|]. left. left. exists D. exact H.
      + destruct (closed_start D adds s H Dc) as (s' & -> & F & I1 & _). exists s'. split; [|right; exact F]. pose proof F as (O & _). assert (I2 : inbuf s' = []) by congruence. clear - O I2. destruct s'; cbn in *; subst; reflexivity.
    - destruct (urls s) as [|x r] eqn:U.
      + cbn [supply ended] in H3, H4. apply app_eq_nil in H3. destruct H3 as [_ H3]. apply app_eq_nil in H3. destruct H3 as [I W].
        rewrite getline_nothing by assumption. cbn [bind]. exists s. split; [reflexivity|]. left. left. exists D. exact H.
      + cbn [supply app] in H3. pose proof (good_answer x) as Ga. rewrite txt_eq, <- !app_assoc in H3.
        destruct (getline_line w s l (status_line (answer x)) _ Ql H1 (status_in_line _ Ga) H3) as (i' & w' & [[-> N]|[-> N]]); cbn [bind].
        * eexists. split; [reflexivity|]. left. left. exists D. split; [rewrite Dc|].
          { apply (Q_net [] false D adds s [] i' w' HQ). cbn [app]. rewrite H3, N. reflexivity. }
          repeat split; assumption.
        * destruct (first_line D adds s x r i' w' H Dc U N) as (s' & -> & Ms). exists s'. split; [reflexivity|]. left. right. exists D. exact Ms.
  Qed.

  Lemma hl_field s f s2 : resp s <> [] -> urls s <> [] -> good_field f -> header_field s (fline f) = Ok s2 -> header_line w s (field_text f ++ [cr]) = Ok (out_log s2 (fun i => Header i (name f) (content f))).
  Proof.
    intros R U F E. unfold header_line. rewrite trim_field by exact F. unfold response_line. destruct (resp s) as [|c0 l0]; [congruence|]. cbn [bind]. destruct (urls s) as [|c1 l1]; [congruence|]. rewrite E. cbn [bind].
    destruct (field_cons f F) as (c & l & Ef). rewrite Ef. rewrite <- Ef. apply field_out. exact F.
  Qed.
  Lemma hl_blank s : resp s <> [] -> urls s <> [] -> header_line w s [cr] = header_end w s.
  Proof. intros R U. unfold header_line. change (trim_string [cr]) with (@nil ascii). unfold response_line. destruct (resp s); [congruence|]. cbn [bind]. destruct (urls s); [congruence|]. reflexivity. Qed.
  Lemma app_prefix (d X b Y : bytes) : d ++ X = b ++ Y -> length b <= length d -> exists d2, d = b ++ d2 /\ Y = d2 ++ X.
  Proof.
    revert d. induction b as [|c b IH]; intros d E L; [exists d; cbn in E; auto|]. destruct d as [|e d]; cbn in *; [lia|]. injection E as -> E.
    destruct (IH d E) as (d2 & -> & ->); [lia|]. exists d2. auto.
  Qed.
  Lemma portion_le n : portion (Z.of_nat n) <= n.
  Proof. unfold portion. destruct (Z.of_nat n >? 1024)%Z eqn:E; [|lia]. rewrite Z.gtb_ltb in E. apply Z.ltb_lt in E. lia. Qed.
  Lemma portion_zero n : n = 0 -> portion (Z.of_nat n) = 0.
  Proof. intros ->. reflexivity. Qed.
  Lemma post_bytes i q b d : test q = false -> post (i, q) [] (b ++ d) = map (SByte i) b ++ post (i, q) [] d.
  Proof. intros T. unfold post. rewrite T. cbn [map app]. rewrite map_app, <- app_assoc. reflexivity. Qed.
  Lemma data_out s1 x r b : urls s1 = x :: r -> ntest x -> seen_in (log (out_log s1 (fun i => Data i b))) = seen_in (log s1) ++ map (SByte (fst x)) b.
  Proof. intros U N. rewrite (out_seen s1 _ x r U), N. reflexivity. Qed.
  Lemma wanted_done D x pre : wanted a x = pre ++ [SDone (fst x)] -> (flat_map (wanted a) D ++ pre) ++ [SDone (fst x)] = flat_map (wanted a) (D ++ [x]).
  Proof. intros E. rewrite flat_map_app. cbn [flat_map]. rewrite app_nil_r, E, <- app_assoc. reflexivity. Qed.
  (** The end of an unsized body *)
  Lemma closed_infinity D adds s x r pre : Q (txt x) false D adds s -> answered a D = D -> existsb closes D = false -> urls s = x :: r -> cur s = First -> ntest x -> closes x = true ->
    wanted a x = pre ++ [SDone (fst x)] -> seen_in (log s) = flat_map (wanted a) D ++ pre -> inbuf s = [] -> exists s', below_closed w s = Ok s' /\ Fin adds s'.
  Proof.
    intros ((H1 & H2 & _ & _ & H5 & H6 & H7 & _) & _) A Dc U C N Cl We S I. unfold below_closed. rewrite I. destruct x as [i q]. unfold ntest in N. cbn [snd] in N.
    set (b1 := broken s || pipe_failure w s).
    assert (E : close w s = Ok (popped (set_urls (set_ok s b1 false false) (urls s) [] First) (tests s) false (test_resp s) i)).
    { unfold close. cbn [failed set_ok]. fold b1. rewrite H2. cbn [andb bind cur set_ok set_urls]. rewrite C. unfold done_url. cbn [cur set_urls urls set_ok]. rewrite U. cbn [set_rx set_tests test_resp]. rewrite N. reflexivity. }
    rewrite E. cbn [bind]. set (s1 := popped _ _ _ _ _). destruct (close_idle s1 eq_refl eq_refl) as (b' & ->). eexists. split; [reflexivity|].
    split; [reflexivity|]. split; [reflexivity|]. change (log (set_urls (set_ok s1 b' false false) (urls s1) [] NoCur)) with (log s ++ [Done i]).
    rewrite seen_app, sent_app. change (sent_in [Done i]) with (@nil (nat * req)). rewrite app_nil_r, H5, S. split; [|split; [exact (numbers _ _ _ H6)|eexists; exact H7]].
    rewrite U, answered_app, Dc by exact A. cbn [answered]. unfold closes in Cl. cbn [fst snd] in Cl. rewrite Cl. exact (wanted_done D (i, q) pre We).
  Qed.
  Lemma no_http10 v r : firstn 3 v <> B "1.0" -> prefix (B "HTTP/1.0") (B "HTTP/" ++ v ++ " "%char :: r) = false.
  Proof.
    assert (H : forall p l, prefix p l = true -> firstn (length p) l = p).
    { intros p. induction p as [|c p IH]; intros [|d l]; cbn [prefix firstn length]; intros E; try discriminate; [reflexivity|reflexivity|]. apply andb_prop in E. destruct E as [E1 E2]. apply Ascii.eqb_eq in E1. rewrite IH by exact E2. congruence. }
    intros N. destruct (prefix (B "HTTP/1.0") (B "HTTP/" ++ v ++ " "%char :: r)) eqn:E; [|reflexivity]. exfalso. apply H in E.
    destruct v as [|v0 [|v1 [|v2 v]]]; cbn in E; try discriminate E; injection E; intros; subst; try discriminate. apply N. reflexivity.
  Qed.
  Lemma exec_mid_nocur D adds s l : quiet l -> Mid D adds s -> cur s = NoCur -> exists s', execute w s l = Ok s' /\ (Inv adds s' \/ Fin adds s').
  Proof.
    intros Ql HM C. pose proof HM as (P & rest & x & r & pre & hs & d & Dc & A & Tx & HQ & U & R & We & S & Td & _). pose proof (bytes_left _ _ _ _ _ _ _ Tx HQ U) as Bl. pose proof HQ as ((H1 & _) & _).
    unfold execute. rewrite C in Td |- *. assert (Rn : resp s <> []) by (rewrite R; discriminate). assert (Un : urls s <> []) by (rewrite U; discriminate).
    destruct (todo_nocur _ _ _ _ _ _ _ _ Td) as [(f & rest' & hs' & -> & -> & F & e' & m' & Hf & Td')|(rest' & -> & -> & K)].
    - rewrite <- app_assoc in Bl. destruct (getline_line w s l (field_text f) _ Ql H1 (proj1 F) Bl) as (i' & w' & [[-> N]|[-> N]]); cbn [bind].
      + eexists. split; [reflexivity|]. left. right. exists D. apply mid_net; [exact HM|]. rewrite N, Bl. reflexivity.
      + set (s1 := set_net s i' w' (fin s)). destruct (Hf s1 eq_refl eq_refl eq_refl) as (k & E). rewrite (hl_field s1 f _ Rn Un F E). eexists. split; [reflexivity|]. left. right.
        set (s2 := set_keep _ _). set (e := fun i => Header i (name f) (content f)). destruct (out_core s2 e) as (C2 & U2 & _). destruct (core_eq _ _ C2) as (X1 & X2 & X3 & X4 & X5 & _).
        exists D, (P ++ line (field_text f)), rest', x, r, (pre ++ (if test (snd x) then [] else see (e (fst x)))), hs', d.
        split; [exact Dc|]. split; [exact A|]. split; [rewrite Tx, <- app_assoc; reflexivity|]. split.
        { apply out_Q; [reflexivity|]. apply (Q_net _ _ _ _ _ (P ++ line (field_text f)) i' w') in HQ; [exact HQ|]. rewrite N, Bl, <- !app_assoc. reflexivity. }
        split; [rewrite U2; exact U|]. split; [rewrite X2; exact R|]. split.
        { rewrite We, <- app_assoc. f_equal. destruct x as [i q]. unfold post. cbn [fst snd]. destruct (test q); reflexivity. }
        split; [rewrite (out_seen s2 e x r U); change (log s2) with (log s); rewrite S, app_assoc; reflexivity|].
        rewrite X1, X3, X4, X5. change (cur s2) with (cur s). rewrite C. split; [exact Td'|discriminate].
    - change (crlf ++ rest') with (line [] ++ rest') in Bl. rewrite <- app_assoc in Bl. assert (L0 : in_line []) by (split; intros []).
      destruct (getline_line w s l [] _ Ql H1 L0 Bl) as (i' & w' & [[-> N]|[-> N]]); cbn [bind].
      + eexists. split; [reflexivity|]. left. right. exists D. apply mid_net; [exact HM|]. rewrite N, Bl. reflexivity.
      + set (s1 := set_net s i' w' (fin s)). change ([] ++ [cr]) with [cr]. rewrite (hl_blank s1 Rn Un). unfold header_end. cbv zeta.
        set (e2 := match encoding s1 with Unknown => Infinity | e => e end).
        set (s2 := set_urls (set_rx s1 (resp s1) e2 (remaining s1) false) (urls s1) (waiting s1) First).
        assert (Q2 : Q (P ++ crlf) false D adds s2).
        { apply (Q_net _ _ _ _ _ (P ++ crlf) i' w') in HQ; [exact HQ|]. rewrite N, Bl, <- !app_assoc. reflexivity. }
        assert (Hd : cur_head s2 = head (snd x)) by (unfold cur_head; change (urls s2) with (urls s); rewrite U; destruct x; reflexivity). rewrite Hd.
        destruct K as [(Hh & -> & ->)|(Hh & Td')]; rewrite Hh.
        * change (resp s2) with (resp s). rewrite R.
          assert (V : prefix (B "HTTP/1.0") (status_line (answer x)) = false).
          { destruct G as (_ & _ & _ & G4 & _). specialize (G4 (fst x) (snd x) Hh). change (fst (a (fst x) (snd x))) with (answer x) in G4.
            apply no_http10. exact G4. }
          rewrite V. rewrite app_nil_r in Tx. rewrite <- Tx in Q2. destruct (done_ok D adds s2 x r Q2 A Dc U eq_refl R) as (s3 & -> & S3).
          { change (log s2) with (log s). rewrite S. apply wanted_done. rewrite We. f_equal. destruct x as [i q]. unfold post. cbn. destruct (test q); reflexivity. }
          exists s3. split; [reflexivity|]. left. left. exists (D ++ [x]). exact S3.
        * exists s2. split; [reflexivity|]. left. right. exists D, (P ++ crlf), rest', x, r, pre, [], d. split; [exact Dc|]. split; [exact A|]. split; [rewrite <- app_assoc; exact Tx|]. split; [exact Q2|]. split; [exact U|]. split; [exact R|]. split; [exact We|]. split; [exact S|]. split; [|intros _; exact Hh].
          assert (Ee : encoding s2 = match encoding s with Unknown => Infinity | e => e end) by (change (encoding s2) with e2; unfold e2; change (encoding s1) with (encoding s); destruct (encoding s); reflexivity).
          rewrite Ee. revert Td'. generalize (encoding s). intros ee Td'. destruct ee; exact Td'.
  Qed.

  Lemma exec_mid_first D adds s l : quiet l -> Mid D adds s -> cur s = First -> exists s', execute w s l = Ok s' /\ (Inv adds s' \/ Fin adds s').
  Proof.
    intros Ql HM C. pose proof HM as (P & rest & x & r & pre & hs & d & Dc & A & Tx & HQ & U & R & We & S & Td & Hh).
    specialize (Hh C). pose proof (bytes_left _ _ _ _ _ _ _ Tx HQ U) as Bl. pose proof HQ as ((H1 & _ & _ & H4 & _ & _ & _ & _ & H9 & _) & _).
    assert (Nx : ntest x) by (rewrite U in H9; apply Forall_inv in H9; unfold ntest; destruct (test (snd x)) eqn:E; [rewrite (H9 E) in Hh; discriminate|reflexivity]).
    unfold execute. rewrite C. assert (Ct : cur_test s = false) by (unfold cur_test; rewrite U; destruct x; exact Nx). rewrite Ct. rewrite C in Td.
    assert (L0 : in_line []) by (split; intros []).
    (* a line of the chunked encoding *)
    assert (LN : forall t rest' i' w', rest = line t ++ rest' -> i' ++ w' = rest' ++ supply (closes x) r -> Q (P ++ line t) false D adds (set_net s i' w' (fin s)) /\ txt x = (P ++ line t) ++ rest').
    { intros t rest' i' w' -> N. split; [|rewrite Tx, <- app_assoc; reflexivity]. apply (Q_net _ _ _ _ _ (P ++ line t) i' w' HQ). rewrite N, Bl, <- !app_assoc. reflexivity. }
    assert (DN : forall b d2 Y i' w', rest = b ++ Y -> d = b ++ d2 -> i' ++ w' = Y ++ supply (closes x) r -> forall m, let s2 := out_log (set_rx (set_net s i' w' (fin s)) (resp s) (encoding s) m (trailer s)) (fun i => Data i b) in
      hs = [] -> Q (P ++ b) false D adds s2 /\ txt x = (P ++ b) ++ Y /\ urls s2 = x :: r /\ resp s2 = status_line (answer x) /\ wanted a x = (pre ++ map (SByte (fst x)) b) ++ post x [] d2 /\
        seen_in (log s2) = flat_map (wanted a) D ++ (pre ++ map (SByte (fst x)) b) /\ cur s2 = First /\ encoding s2 = encoding s /\ remaining s2 = m /\ trailer s2 = trailer s).
    { intros b d2 Y i' w' -> -> N m s2 ->. set (s1 := set_rx (set_net s i' w' (fin s)) (resp s) (encoding s) m (trailer s)) in s2. destruct (out_core s1 (fun i => Data i b)) as (C2 & U2 & _). destruct (core_eq _ _ C2) as (X1 & X2 & X3 & X4 & X5 & _).
      unfold s2. split; [|split; [rewrite Tx, <- app_assoc; reflexivity|]].
      { apply out_Q; [reflexivity|]. apply (Q_net _ _ _ _ _ (P ++ b) i' w') in HQ; [exact HQ|]. rewrite N, Bl, <- !app_assoc. reflexivity. }
      rewrite U2, X1, X2, X3, X4, X5. split; [exact U|]. split; [exact R|]. split.
      { rewrite We, <- app_assoc. f_equal. destruct x as [i q]. apply post_bytes. exact Nx. }
      split; [|repeat split; exact C]. rewrite (data_out s1 x r b U Nx). change (log s1) with (log s). rewrite S, app_assoc. reflexivity. }
    destruct (todo_first _ _ _ _ _ _ _ _ Td) as [-> K].
    destruct K as [(E & M & -> & B)|[(E & -> & Cl)|[(E & M & T & K)|[(E & T & b0 & rest' & d' & Nb & M & B & -> & -> & Td')|(E & M & T & -> & K)]]]]; rewrite E; cbn [post_head].
    - (* a sized body *)
      rewrite M. destruct (read_some w s (portion (Z.of_nat (length d))) l Ql) as (b & i' & w' & Bb & Lb & ->).
      { rewrite Bl. destruct d as [|c d]; [right; right; reflexivity|left; discriminate]. }
      cbn [bind]. change (ok (set_net s i' w' (fin s))) with (ok s). rewrite H1. cbn [negb]. pose proof (portion_le (length d)) as Pl.
      rewrite Bl in Bb. destruct (app_prefix _ _ _ _ Bb) as (d2 & Ed & N); [lia|].
      change (cur (set_rx (set_net s i' w' (fin s)) (resp (set_net s i' w' (fin s))) (encoding (set_net s i' w' (fin s))) (size_of (remaining (set_net s i' w' (fin s)) - Z.of_nat (length b))) (trailer (set_net s i' w' (fin s))))) with (cur s). rewrite C.
      change (remaining (set_net s i' w' (fin s))) with (remaining s). rewrite M.
      assert (Sz : size_of (Z.of_nat (length d) - Z.of_nat (length b)) = Z.of_nat (length d2)).
      { rewrite Ed, app_length. unfold size_of. rewrite Z.mod_small; [lia|]. rewrite Ed, app_length in M. rewrite M in B. lia. }
      rewrite Sz. destruct (DN b d2 d2 i' w' Ed Ed N (Z.of_nat (length d2)) eq_refl) as (Q2 & T2 & U2 & R2 & W2 & S2 & X1 & X3 & X4 & X5).
      change (resp (set_net s i' w' (fin s))) with (resp s). change (encoding (set_net s i' w' (fin s))) with (encoding s). change (trailer (set_net s i' w' (fin s))) with (trailer s).
      set (s2 := out_log _ _) in *. rewrite X3, E, X4, X1. destruct d2 as [|c d2].
      + change (Z.of_nat (length (@nil ascii)) =? 0)%Z with true. cbv iota. rewrite app_nil_r in T2. rewrite <- T2 in Q2. destruct (done_ok D adds s2 x r Q2 A Dc U2 X1 R2) as (s3 & -> & S3).
        { rewrite S2. apply wanted_done. rewrite W2. f_equal. destruct x as [i q]. unfold post, ntest in *. cbn [snd] in Nx. rewrite Nx. reflexivity. }
        exists s3. split; [reflexivity|]. left. left. exists (D ++ [x]). exact S3.
      + replace (Z.of_nat (length (c :: d2)) =? 0)%Z with false by (symmetry; apply Z.eqb_neq; cbn [length]; lia). exists s2. split; [reflexivity|]. left. right.
        exists D, (P ++ b), (c :: d2), x, r, (pre ++ map (SByte (fst x)) b), [], (c :: d2). split; [exact Dc|]. split; [exact A|]. split; [exact T2|]. split; [exact Q2|]. split; [exact U2|]. split; [exact R2|]. split; [exact W2|]. split; [exact S2|].
        rewrite X1, X3, X4, X5, E. split; [|auto]. apply T_body. rewrite Ed, app_length in M. rewrite M in B. lia.
    - (* until the end *)
      rewrite U in H4. cbn [ended] in H4. rewrite Cl in Bl, H4. rewrite ended_closed in H4. rewrite supply_closed, app_nil_r in Bl. destruct d as [|c d].
      + apply app_eq_nil in Bl. destruct Bl as [I W]. rewrite app_nil_r in Tx. destruct (read_end w s 1023 l Ql I W H4) as [->| ->].
        * cbn [bind]. rewrite H1. cbn [negb]. rewrite C. eexists. split; [reflexivity|]. left. right.
          destruct (DN [] [] [] (inbuf s) (wire s) eq_refl eq_refl) with (m := remaining s) as (Q2 & T2 & U2 & R2 & W2 & S2 & X1 & X3 & X4 & X5); [rewrite I, W, Cl, supply_closed; reflexivity|reflexivity|].
          replace (set_rx (set_net s (inbuf s) (wire s) (fin s)) (resp s) (encoding s) (remaining s) (trailer s)) with s in * by (destruct s; reflexivity).
          set (s2 := out_log s _) in *. exists D, (P ++ []), [], x, r, (pre ++ map (SByte (fst x)) []), [], []. split; [exact Dc|]. split; [exact A|]. split; [exact T2|]. split; [exact Q2|]. split; [exact U2|]. split; [exact R2|]. split; [exact W2|]. split; [exact S2|].
          rewrite X1, X3, X4, X5, E. split; [|auto]. apply T_inf. exact Cl.
        * rewrite <- Tx in HQ. assert (Wd : wanted a x = pre ++ [SDone (fst x)]) by (rewrite We; f_equal; destruct x as [i q]; unfold post, ntest in *; cbn [snd] in Nx; rewrite Nx; reflexivity).
          destruct (closed_infinity D adds s x r pre HQ A Dc U C Nx Cl Wd S I) as (s' & -> & F). cbn [bind]. pose proof F as (O & _). rewrite O. cbn [negb]. exists s'. auto.
      + destruct (read_some w s 1024 l Ql) as (b & i' & w' & Bb & Lb & ->); [left; rewrite Bl; discriminate|]. cbn [bind]. change (ok (set_net s i' w' (fin s))) with (ok s). rewrite H1. cbn [negb].
        change (cur (set_net s i' w' (fin s))) with (cur s). rewrite C. rewrite Bl in Bb. eexists. split; [reflexivity|]. left. right.
        destruct (DN b (i' ++ w') (i' ++ w') i' w' Bb Bb) with (m := remaining s) as (Q2 & T2 & U2 & R2 & W2 & S2 & X1 & X3 & X4 & X5); [rewrite Cl, supply_closed, app_nil_r; reflexivity|reflexivity|].
        change (set_rx (set_net s i' w' (fin s)) (resp s) (encoding s) (remaining s) (trailer s)) with (set_net s i' w' (fin s)) in *.
        set (s2 := out_log _ _) in *. exists D, (P ++ b), (i' ++ w'), x, r, (pre ++ map (SByte (fst x)) b), [], (i' ++ w'). split; [exact Dc|]. split; [exact A|]. split; [exact T2|]. split; [exact Q2|]. split; [exact U2|]. split; [exact R2|]. split; [exact W2|]. split; [exact S2|].
        rewrite X1, X3, X4, X5, E. split; [|auto]. apply T_inf. exact Cl.
    - (* a line before a chunk *)
      rewrite M. change (0 =? 0)%Z with true. cbv iota.
      destruct K as (rest' & [[-> Td']|(c & rest2 & -> & Gc & Td')]).
      + change (crlf ++ rest') with (line [] ++ rest') in *. rewrite <- app_assoc in Bl.
        destruct (getline_line w s l [] _ Ql H1 L0 Bl) as (i' & w' & [[-> N]|[-> N]]); cbn [bind].
        * eexists. split; [reflexivity|]. left. right. exists D. apply mid_net; [exact HM|]. rewrite N, Bl. reflexivity.
        * change (trailer (set_net s i' w' (fin s))) with (trailer s). rewrite T. change (trim_string ([] ++ [cr])) with (@nil ascii). cbv iota. eexists. split; [reflexivity|]. left. right.
          destruct (LN [] rest' i' w' eq_refl N) as [Q2 T2]. exists D, (P ++ line []), rest', x, r, pre, [], d. split; [exact Dc|]. split; [exact A|]. split; [exact T2|]. split; [exact Q2|]. split; [exact U|]. split; [exact R|]. split; [exact We|]. split; [exact S|].
          cbn [set_net cur encoding remaining trailer]. rewrite C, E, M, T. split; [exact Td'|auto].
      + rewrite <- app_assoc in Bl. destruct (getline_line w s l _ _ Ql H1 (size_in_line c Gc) Bl) as (i' & w' & [[-> N]|[-> N]]); cbn [bind].
        * eexists. split; [reflexivity|]. left. right. exists D. apply mid_net; [exact HM|]. rewrite N, Bl. reflexivity.
        * change (trailer (set_net s i' w' (fin s))) with (trailer s). rewrite T. destruct (size_line c Gc) as (y & z & -> & ->). cbv zeta iota. eexists. split; [reflexivity|]. left. right.
          destruct (LN _ rest2 i' w' eq_refl N) as [Q2 T2]. exists D, (P ++ line (size c ++ ext c)), rest2, x, r, pre, [], d. split; [exact Dc|]. split; [exact A|]. split; [exact T2|]. split; [exact Q2|]. split; [exact U|]. split; [exact R|]. split; [exact We|]. split; [exact S|].
          cbn [set_net set_rx cur encoding remaining trailer]. rewrite C. split; [exact Td'|auto].
    - (* within a chunk *)
      rewrite M. replace (Z.of_nat (length b0) =? 0)%Z with false by (symmetry; apply Z.eqb_neq; destruct b0; [congruence|cbn [length]; lia]).
      destruct (read_some w s (portion (Z.of_nat (length b0))) l Ql) as (b & i' & w' & Bb & Lb & ->).
      { left. rewrite Bl. destruct b0; [congruence|discriminate]. }
      cbn [bind]. change (ok (set_net s i' w' (fin s))) with (ok s). rewrite H1. cbn [negb]. pose proof (portion_le (length b0)) as Pl.
      rewrite Bl, <- app_assoc in Bb. destruct (app_prefix _ _ _ _ Bb) as (b2 & Ed & N); [lia|]. rewrite app_assoc in N.
      change (cur (set_rx (set_net s i' w' (fin s)) (resp (set_net s i' w' (fin s))) (encoding (set_net s i' w' (fin s))) (size_of (remaining (set_net s i' w' (fin s)) - Z.of_nat (length b))) (trailer (set_net s i' w' (fin s))))) with (cur s). rewrite C.
      change (remaining (set_net s i' w' (fin s))) with (remaining s). rewrite M.
      assert (Sz : size_of (Z.of_nat (length b0) - Z.of_nat (length b)) = Z.of_nat (length b2)).
      { rewrite Ed, app_length. unfold size_of. rewrite Z.mod_small; [lia|]. rewrite Ed, app_length in M. rewrite M in B. lia. }
      rewrite Sz. destruct (DN b (b2 ++ d') (b2 ++ rest') i' w') with (m := Z.of_nat (length b2)) as (Q2 & T2 & U2 & R2 & W2 & S2 & X1 & X3 & X4 & X5); [rewrite Ed, <- app_assoc; reflexivity|rewrite Ed, <- app_assoc; reflexivity|exact N|reflexivity|].
      change (resp (set_net s i' w' (fin s))) with (resp s). change (encoding (set_net s i' w' (fin s))) with (encoding s). change (trailer (set_net s i' w' (fin s))) with (trailer s).
      set (s2 := out_log _ _) in *. exists s2. split; [reflexivity|]. left. right.
      exists D, (P ++ b), (b2 ++ rest'), x, r, (pre ++ map (SByte (fst x)) b), [], (b2 ++ d'). split; [exact Dc|]. split; [exact A|]. split; [exact T2|]. split; [exact Q2|]. split; [exact U2|]. split; [exact R2|]. split; [exact W2|]. split; [exact S2|].
      rewrite X1, X3, X4, X5, E, T. split; [|auto]. destruct b2 as [|y b2]; [exact Td'|]. apply T_data; [discriminate| |exact Td']. rewrite Ed, app_length in M. rewrite M in B. lia.
    - (* the trailer *)
      rewrite M. change (0 =? 0)%Z with true. cbv iota. destruct K as [(t & rest' & -> & Lt & Bt & Td')| ->].
      + rewrite <- app_assoc in Bl. destruct (getline_line w s l _ _ Ql H1 Lt Bl) as (i' & w' & [[-> N]|[-> N]]); cbn [bind].
        * eexists. split; [reflexivity|]. left. right. exists D. apply mid_net; [exact HM|]. rewrite N, Bl. reflexivity.
        * change (trailer (set_net s i' w' (fin s))) with (trailer s). rewrite T. destruct (trim_not_blank t Bt) as (y & z & ->). eexists. split; [reflexivity|]. left. right.
          destruct (LN _ rest' i' w' eq_refl N) as [Q2 T2]. exists D, (P ++ line t), rest', x, r, pre, [], []. split; [exact Dc|]. split; [exact A|]. split; [exact T2|]. split; [exact Q2|]. split; [exact U|]. split; [exact R|]. split; [exact We|]. split; [exact S|].
          cbn [set_net cur encoding remaining trailer]. rewrite C, E, M, T. split; [exact Td'|auto].
      + change crlf with (line [] ++ []) in *. rewrite <- app_assoc in Bl.
        destruct (getline_line w s l [] _ Ql H1 L0 Bl) as (i' & w' & [[-> N]|[-> N]]); cbn [bind].
        * eexists. split; [reflexivity|]. left. right. exists D. apply mid_net; [exact HM|]. rewrite N, Bl. reflexivity.
        * change (trailer (set_net s i' w' (fin s))) with (trailer s). rewrite T. change (trim_string ([] ++ [cr])) with (@nil ascii). cbv iota.
          destruct (LN [] [] i' w' eq_refl N) as [Q2 T2]. rewrite app_nil_r in T2. rewrite <- T2 in Q2.
          destruct (done_ok D adds (set_net s i' w' (fin s)) x r Q2 A Dc U C R) as (s3 & -> & S3).
          { change (log (set_net s i' w' (fin s))) with (log s). rewrite S. apply wanted_done. rewrite We. f_equal. destruct x as [i q]. unfold post, ntest in *. cbn [snd] in Nx. rewrite Nx. reflexivity. }
          exists s3. split; [reflexivity|]. left. left. exists (D ++ [x]). exact S3.
  Qed.

  (** ** All operations *)
  Lemma add_inv adds s h : Inv adds s -> ok s = true /\ Inv (adds ++ [h]) (addurl w s h).
  Proof.
    assert (K : forall P c D, Q P c D adds s -> Q P c D (adds ++ [h]) (set_urls s (urls s) (waiting s ++ [Req h false]) (cur s))).
    { intros P c D ((H1 & H2 & H3 & H4 & H5 & H6 & H7 & H8 & H) & T). split; [|exact T]. split; [exact H1|]. split; [exact H2|]. split; [exact H3|]. split; [exact H4|]. split; [exact H5|]. split; [exact H6|].
      split; [cbn [set_urls urls waiting]; rewrite map_app, app_assoc, H7; reflexivity|]. split; [|exact H]. apply Forall_app. split; [exact H8|repeat constructor]. }
    intros [(D & HQ & H)|(D & P & rest & x & r & pre & hs & d & Dc & A & Tx & HQ & U & R & We & S & Td & Hh)].
    - split; [apply HQ|]. left. exists D. unfold addurl. destruct (next_ok _ _ _ _ _ (K _ _ _ HQ)) as (Q2 & C2 & S2 & _). set (s2 := request_next _ _) in *. destruct (core_eq _ _ C2) as (X1 & X2 & X3 & X4 & X5 & _).
      split; [exact Q2|]. rewrite X1, X2, X3, X4, X5, S2. exact H.
    - split; [apply HQ|]. right. exists D. unfold addurl. destruct (next_ok _ _ _ _ _ (K _ _ _ HQ)) as (Q2 & C2 & S2 & v & V2). set (s2 := request_next _ _) in *. destruct (core_eq _ _ C2) as (X1 & X2 & X3 & X4 & X5 & _).
      exists P, rest, x, (r ++ v), pre, hs, d. split; [exact Dc|]. split; [exact A|]. split; [exact Tx|]. split; [exact Q2|]. split; [rewrite V2; cbn [set_urls urls]; rewrite U; reflexivity|].
      rewrite X1, X2, X3, X4, X5, S2. cbn [set_urls resp log cur encoding remaining trailer]. auto 10.
  Qed.
  Lemma exec_inv adds s l : quiet l -> Inv adds s -> ok s = true /\ exists s', execute w s l = Ok s' /\ (Inv adds s' \/ Fin adds s').
  Proof.
    intros Ql [(D & H)|(D & H)].
    - split; [apply H|]. exact (exec_start D adds s l Ql H).
    - pose proof H as (P & rest & x & r & pre & hs & d & _ & _ & _ & HQ & _ & _ & _ & _ & Td & _). split; [apply HQ|]. destruct (cur s) eqn:C.
      + exact (exec_mid_nocur D adds s l Ql H C).
      + exact (exec_mid_first D adds s l Ql H C).
      + exfalso. inversion Td.
  Qed.
  Lemma run_fin adds s l : Fin adds s -> run w s l = Ok s.
  Proof. intros (O & _). induction l as [|o l IH]; cbn [run]; [reflexivity|]. unfold step. rewrite O. exact IH. Qed.
  Lemma run_inv l s adds : no_reset l -> Inv adds s -> exists s', run w s l = Ok s' /\ (Inv (adds ++ added l) s' \/ exists v, Fin (adds ++ v) s' /\ exists u, v ++ u = added l).
  Proof.
    revert s adds. induction l as [|o l IH]; intros s adds NR H; cbn [run].
    - exists s. split; [reflexivity|]. left. rewrite app_nil_r. exact H.
    - assert (NR' : no_reset l) by (intros r Hr; apply NR; right; exact Hr). unfold step. destruct o as [h|r].
      + destruct (add_inv adds s h H) as [O H2]. rewrite O. cbn [bind]. destruct (IH _ _ NR' H2) as (s' & E & K). exists s'. split; [exact E|]. cbn [added flat_map app]. fold (added l).
        destruct K as [K|(v & K & u & Eu)]; [left; rewrite <- app_assoc in K; exact K|right]. exists (h :: v). rewrite <- app_assoc in K. split; [exact K|]. exists u. cbn. rewrite Eu. reflexivity.
      + assert (Ql : quiet r) by (apply NR; left; reflexivity). destruct (exec_inv adds s r Ql H) as [O (s1 & E1 & K1)]. rewrite O, E1. cbn [bind added flat_map app]. fold (added l).
        destruct K1 as [K1|K1]; [exact (IH _ _ NR' K1)|]. exists s1. split; [exact (run_fin adds s1 l K1)|]. right. exists []. rewrite app_nil_r. split; [exact K1|]. exists (added l). reflexivity.
  Qed.
  Lemma init_inv : Inv [] hinit.
  Proof.
    left. exists []. split; [split; [|cbn; auto]|cbn; auto 10]. unfold Q0. cbn. repeat split; auto; try congruence.
    intros [(x & [] & _)|N]; congruence.
  Qed.
  Lemma inv_seen adds s : Inv adds s -> ok s = true /\ failed s = false /\ map fst (sent_in (log s)) = seq 1 (length (sent_in (log s))) /\
    users (sent_in (log s)) ++ map head (waiting s) = adds /\ exists rest, seen_in (log s) ++ rest = flat_map (wanted a) (answered a (sent_in (log s))) /\
    (inbuf s = [] -> wire s = [] -> fin s = false -> rest = [] \/ exists i, rest = [SDone i]).
  Proof.
    intros [(D & HQ & A & _ & _ & _ & _ & _ & S)|(D & P & rest & x & r & pre & hs & d & Dc & A & Tx & HQ & U & R & We & S & Td & Hh)]; pose proof HQ as ((H1 & H2 & H3 & H4 & H5 & H6 & H7 & _) & _);
      (split; [exact H1|]; split; [exact H2|]; rewrite H5; split; [exact (numbers _ _ _ H6)|]; split; [exact H7|]); rewrite answered_app by exact A.
    - destruct (existsb closes D) eqn:Dc; [exists []; rewrite app_nil_r; auto|]. exists (flat_map (wanted a) (answered a (urls s))). rewrite S, flat_map_app. split; [reflexivity|].
      intros I W F. rewrite I, W in H3. destruct (urls s) as [|y u]; [left; reflexivity|]. discriminate H3.
    - rewrite Dc, U. pose proof (bytes_left _ _ _ _ _ _ _ Tx HQ U) as Bl. destruct x as [i q]. cbn [answered]. eexists (post (i, q) hs d ++ flat_map (wanted a) (if snd (a i q) then [] else answered a r)).
      rewrite S, flat_map_app. cbn [flat_map]. rewrite We, <- !app_assoc. split; [reflexivity|].
      intros I W F. rewrite I, W in Bl. rewrite F, U in H4. cbn [ended app] in Bl, H4. symmetry in Bl. apply app_eq_nil in Bl. destruct Bl as [-> Sr].
      destruct (closes (i, q)) eqn:Cl; [rewrite ended_closed in H4; discriminate|]. unfold closes in Cl. cbn [fst snd] in Cl. rewrite Cl.
      destruct r as [|y r]; [|discriminate Sr]. cbn [answered flat_map]. rewrite app_nil_r. right. exists i.
      assert (hs = [] /\ d = []) as [-> ->].
      { remember (@nil ascii) as z eqn:Ez. destruct Td; try (exfalso; apply (f_equal (@length _)) in Ez; revert Ez; unfold line, crlf; rewrite ?app_length; cbn [length]; lia); subst; auto.
        exfalso. destruct b; [congruence|discriminate]. }
      unfold post. destruct (test q); reflexivity.
  Qed.
End Server.
