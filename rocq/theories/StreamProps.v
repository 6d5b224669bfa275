(** C38 Output, C39 input and C40 close callbacks of a stream. *)
From Verif Require Import Base BaseFacts StreamModel StreamSpec StreamProofs StreamProofs2 StreamProofs3.
Local Open Scope Z_scope.

(** * C38 *)
(** The device has been given, in order, the first part of what write accepted; as
    long as the stream is ok the rest is in the buffer. *)
Theorem C38_order depth l n e s : errors_named e -> run depth l (new n e) = Ok s ->
  exists rest, accepted (tr s) = sent (tr s) ++ rest /\ (isok s = true -> out s = rest).
Proof.
  intros H E. destruct (run_ok depth l (new n e) s H E) as [(_ & w & d & r & A & S & O & K & _) _]. cbn in A, S, O. exists r. rewrite A, S. auto.
Qed.
(** No more is buffered than the limit, unless the limit is set below what is
    already buffered. *)
Theorem C38_limit depth l n e s : errors_named e -> 0 <= n < 2 ^ 64 -> run depth l (new n e) = Ok s -> sane_limits (tr s) -> isok s = true ->
  limit s = 0 \/ Z.of_nat (length (out s)) <= limit s.
Proof.
  intros H N E S K. destruct (run_ok depth l (new n e) s H E) as [((t & T & W) & _) _]. cbn in T. subst t. assert (W0 : within (new n e)) by (intros _; right; cbn; lia). destruct (W S W0 K) as [Z|Z]; [left; exact Z|right; lia].
Qed.
(** When flush says true and the stream is still ok, everything accepted has gone to
    the device. *)
Theorem C38_flush depth l n e s msec s' : errors_named e -> run depth l (new n e) = Ok s ->
  exec depth (DoAct (Flush msec)) s = Ok (s', true) -> isok s' = true -> out s' = [] /\ accepted (tr s') = sent (tr s').
Proof.
  intros H E F K. destruct (run_ok depth l (new n e) s H E) as [G1 H1]. destruct depth as [|d]; [discriminate|]. cbn [exec body do_act] in F.
  destruct (exec_meets d _ _ _ _ H1 F) as (G2 & H2 & X). cbn [extra] in X. specialize (X eq_refl K). split; [exact X|].
  destruct (G_trans _ _ _ G1 G2) as (_ & w & dd & r & A & S & O & R & _). cbn in A, S, O. rewrite <- (R K), X, app_nil_r in O. congruence.
Qed.
(** A device that closes during a write without an error makes the stream lose what
    it had in hand and still send what follows. *)
Definition ok_answer : answer := {| take := 100; chunk := 100; data := []; wfail := None; rfail := None; sfail := None; ready := true; flushable := false; late := false |}.
Definition takes (n : nat) : answer := {| take := n; chunk := 100; data := []; wfail := None; rfail := None; sfail := None; ready := true; flushable := false; late := false |}.
Definition gives (n : nat) : answer := {| take := 100; chunk := n; data := []; wfail := None; rfail := None; sfail := None; ready := true; flushable := false; late := false |}.
Definition refuses (e : Z) : answer := {| take := 0; chunk := 100; data := []; wfail := Some e; rfail := None; sfail := None; ready := true; flushable := false; late := false |}.
Theorem C38_gap_refuted : exists l e s, run 20 l (new 0 e) = Ok s /\ accepted (tr s) = B "abcde" /\ sent (tr s) = B "cde".
Proof.
  exists [Do (Delay true); Do (Write (B "abcd")); Do (AutoFlush false); Do (Delay false); Do (Write (B "e"))].
  exists [gives 2; refuses 0; ok_answer; ok_answer; ok_answer; ok_answer; ok_answer; ok_answer; ok_answer; ok_answer; ok_answer; ok_answer].
  eexists. split; [vm_compute; reflexivity|]. split; reflexivity.
Qed.
(** Lowering the limit below what is buffered removes the limit. *)
Theorem C38_limit_refuted : exists l e s, errors_named e /\ run 20 l (new 0 e) = Ok s /\ isok s = true /\ limit s = 3 /\ out s = B "abcdefgh".
Proof.
  exists [Do (Delay true); Do (Write (B "abcd")); Do (Limit 3); Do (Write (B "efgh"))], [].
  eexists. split; [constructor|]. split; [vm_compute; reflexivity|]. repeat split.
Qed.
(** flush(0) says false although everything has gone. *)
Theorem C38_flush0_refuted : exists l e s s', errors_named e /\ run 20 l (new 0 e) = Ok s /\ out s = B "abcd" /\
  exec 20 (DoAct (Flush 0)) s = Ok (s', false) /\ out s' = [] /\ sent (tr s') = B "abcd" /\ isok s' = true.
Proof.
  exists [Do (Delay true); Do (Write (B "abcd"))], [ok_answer; ok_answer]. do 2 eexists. split; [repeat constructor; discriminate|]. split; [vm_compute; reflexivity|]. split; [reflexivity|]. split; [vm_compute; reflexivity|]. repeat split.
Qed.
Example C38_nontrivial : exists s s', run 20 [Do (Write (B "hello")); Do (Write (B " world")); Do (Limit 8); Do (Write (B "!!"))]
    (new 8 ([takes 3; takes 1; takes 1; takes 1; takes 2; takes 2; takes 0; takes 0; takes 0] ++ repeat ok_answer 20)) = Ok s /\
  sane_limits (tr s) /\ isok s = true /\ accepted (tr s) = B "hello world!!" /\ sent (tr s) = B "hello " /\ out s = B "world!!" /\
  exec 20 (DoAct (Flush 100)) s = Ok (s', true) /\ isok s' = true /\ sent (tr s') = B "hello world!!".
Proof. do 2 eexists. split; [vm_compute; reflexivity|]. split; [repeat (constructor; [first [exact I|right; vm_compute; split; [discriminate|reflexivity]]|]); constructor|]. do 4 (split; [reflexivity|]). split; [vm_compute; reflexivity|]. split; reflexivity. Qed.

(** * C39 *)
(** What the device delivered is what the user got, in order, and what is buffered. *)
Theorem C39_order depth l n e s : run depth l (new n e) = Ok s -> got (tr s) = delivered (tr s) ++ inb s.
Proof. apply run_in. reflexivity. Qed.
(** A getline returns nothing, or the bytes up to the next separator, or, only when
    nothing more can be read, all that is left. *)
Theorem C39_line depth l n e s wait sep ahead s' : run depth l (new n e) = Ok s -> step depth (GetLine wait sep ahead) s = Ok s' ->
  delivered (tr s') = delivered (tr s) \/
  exists t line, tr s' = t ++ [Line line (Some sep)] /\ ~ In sep line /\ delivered (tr s') = delivered (tr s) ++ line ++ [sep] \/
    tr s' = t ++ [Line line None] /\ ~ In sep line /\ line <> [] /\ delivered (tr s') = delivered (tr s) ++ line /\ inb s' = [] /\ (isok s' = false \/ stop_r s' = true).
Proof. intros E G. apply (getline_in depth wait sep ahead s s'); [exact (C39_order _ _ _ _ _ E)|exact G]. Qed.
(** A line that is already buffered is returned at once, whatever the device does. *)
Theorem C39_ready depth s wait line sep ahead rest : (0 < depth)%nat -> isok s = true -> inb s = line ++ sep :: rest -> ~ In sep line ->
  step depth (GetLine wait sep ahead) s = Ok (emit (Line line (Some sep)) (set_inb rest (set_qmin 0 s))).
Proof.
  intros D K I N. destruct depth as [|d]; [lia|]. cbn [step]. unfold getline. cbn [exec body]. unfold maybe_autoclose.
  assert (Ne : is_nil (inb s) = false) by (rewrite I; destruct line; reflexivity). rewrite Ne, !andb_false_r. cbn [andb bind getline_loop]. rewrite K. cbn [negb inb set_qmin].
  assert (Sc : strchr (inb s) sep = Datatypes.S (length line)). { rewrite I. clear - N. induction line as [|x r IH]; cbn [app strchr length]; [rewrite Ascii.eqb_refl; reflexivity|]. destruct (Ascii.eqb x sep) eqn:E; [apply Ascii.eqb_eq in E; exfalso; apply N; left; exact E|]. rewrite IH; [reflexivity|]. intros Z. apply N. right. exact Z. }
  rewrite Sc. cbn [Nat.ltb Nat.leb bind negb orb]. cbn [inb set_qmin]. rewrite Ne, Sc. rewrite I. rewrite firstn_app, firstn_all, Nat.sub_diag. cbn [firstn]. rewrite app_nil_r. f_equal. f_equal. f_equal.
  change (line ++ sep :: rest) with (line ++ [sep] ++ rest). rewrite app_assoc. replace (Datatypes.S (length line)) with (length (line ++ [sep])) by (rewrite app_length; cbn; lia). rewrite skipn_app, skipn_all, Nat.sub_diag. reflexivity.
Qed.
(** After a getline that found no line, and the end of the input, read returns
    nothing for ever although bytes are buffered. *)
Definition delivers (d : string) : answer := {| take := 0; chunk := 1; data := B d; wfail := None; rfail := None; sfail := None; ready := true; flushable := false; late := false |}.
Definition idle : answer := {| take := 0; chunk := 1; data := []; wfail := None; rfail := None; sfail := None; ready := false; flushable := false; late := false |}.
Definition at_end : answer := {| take := 0; chunk := 1; data := []; wfail := None; rfail := Some 0; sfail := None; ready := true; flushable := false; late := false |}.
Theorem C39_stuck_refuted : exists l e s, run 20 l (new 0 e) = Ok s /\ inb s = B "ab" /\
  forall k, read 20 k s = Ok (emit (ReadEv []) s) /\ forall m, read 20 k (set_tr m s) = Ok (emit (ReadEv []) (set_tr m s)).
Proof.
  exists [GetLine 0 newline 10; Read 100], [delivers ""; delivers "ab"; idle; at_end; idle]. eexists. split; [vm_compute; reflexivity|]. split; [reflexivity|]. intros k. split; [|intros m]; reflexivity.
Qed.
Example C39_nontrivial : exists s, run 20 [GetLine 0 newline 10; Read 3; GetLine 0 newline 10; GetLine 0 newline 10]
    (new 0 [delivers ""; delivers ("one" ++ String newline "two th"); idle; delivers ""; delivers ("r" ++ String newline ""); idle; idle; at_end; idle; idle]) = Ok s /\
  got (tr s) = B ("one" ++ String newline ("two thr" ++ String newline "")) /\ delivered (tr s) = got (tr s) /\
  flat_map (fun e => match e with ReadEv b => [b] | Line b _ => [b] | _ => [] end) (tr s) = [B "one"; B "two"; B " thr"].
Proof. eexists. split; [vm_compute; reflexivity|]. repeat split. Qed.

(** * C40 *)
(** Every history obeys the rules for close callbacks. *)
Theorem C40_obeys depth l n e s : run depth l (new n e) = Ok s -> obeys true None (tr s).
Proof.
  intros E. destruct (run_K depth l (new n e) s) as [[Sc Cb] _]; [split; [reflexivity|discriminate]|intros Z; exfalso; apply Z; reflexivity|exact E|].
  apply (scan_obeys (length (tr s)) _ _ _ (negb (closed s)) (option_map fst (closecb s))); [lia|exact Sc|discriminate].
Qed.
(** A callback is called at most once for each time it is registered. *)
Theorem C40_once depth l n e s i : run depth l (new n e) = Ok s ->
  (length (filter (fun e => match e with Called j => j =? i | _ => false end) (tr s)) <= length (filter (fun e => match e with Reg (Some j) => j =? i | _ => false end) (tr s)))%nat.
Proof.
  intros E. pose proof (obeys_count i (length (tr s)) (tr s) _ _ (le_n _) (C40_obeys _ _ _ _ _ E)) as H. cbn in H. rewrite Nat.add_0_r in H.
  assert (Cn : forall p t, count p t = length (filter p t)) by (clear; induction t as [|a t IH]; cbn; [reflexivity|]; destruct (p a); cbn; rewrite IH; reflexivity). rewrite !Cn in H. exact H.
Qed.
(** The last registered one is called once the stream is closed. *)
Lemma obeys_suffix m : forall a c b o r, (length a <= m)%nat -> obeys o r (a ++ Reg c :: b) -> exists o' r', obeys o' r' (Reg c :: b).
Proof.
  induction m as [|m IH]; intros a c b o r L H; destruct a as [|x a]; cbn in L; try lia; [exists o, r; exact H|exists o, r; exact H|]. cbn [app] in H.
  assert (La : (length a <= m)%nat) by lia.
  assert (Two : forall i o' r', match a ++ Reg c :: b with Called j :: r2 => j = i /\ obeys o' r' r2 | _ => False end -> exists o' r', obeys o' r' (Reg c :: b)).
  { intros i o' r' T. destruct a as [|y a]; [contradiction|]. cbn [app] in T. destruct y; try contradiction. destruct T as [_ T]. cbn in La. apply (IH a c b _ _) in T; [exact T|lia]. }
  destruct x; cbn [obeys] in H; try (apply (IH a c b _ _ La H)); try contradiction.
  - destruct o; [apply (IH a c b _ _ La H)|]. destruct c0; [exact (Two _ _ _ H)|apply (IH a c b _ _ La H)].
  - destruct r; [exact (Two _ _ _ H)|apply (IH a c b _ _ La H)].
Qed.
Lemma obeys_closed i c : forall b, obeys true (Some i) (b ++ Closed :: c) -> (forall x, ~ In (Reg x) b) -> In (Called i) (b ++ Closed :: c).
Proof.
  assert (Hd : forall r, match r with Called j :: r' => j = i /\ obeys false None r' | _ => False end -> In (Called i) r) by (intros r H; destruct r as [|[]]; try contradiction; destruct H as [-> _]; left; reflexivity).
  induction b as [|x b IH]; intros H N; cbn [app obeys] in *.
  - right. apply Hd, H.
  - assert (Nb : forall x, ~ In (Reg x) b) by (intros y Z; apply (N y); right; exact Z).
    destruct x; try (right; apply IH; assumption); [exfalso; apply (N c0); left; reflexivity|right; apply Hd, H|contradiction].
Qed.
Theorem C40_called depth l n e s a i b c : run depth l (new n e) = Ok s ->
  tr s = a ++ Reg (Some i) :: b ++ Closed :: c -> (forall x, ~ In (Reg x) b) -> In (Called i) (b ++ Closed :: c).
Proof.
  intros E T N. pose proof (C40_obeys _ _ _ _ _ E) as H. rewrite T in H. destruct (obeys_suffix (length a) _ _ _ _ _ (le_n _) H) as (o & r & H'). cbn [obeys] in H'. destruct o.
  - apply obeys_closed; assumption.
  - destruct (b ++ Closed :: c) as [|[]]; try contradiction. destruct H' as [-> _]. left. reflexivity.
Qed.
Lemma seen n c s s' b : exec n c s = Ok (s', b) -> exists t, tr s' = tr s ++ t.
Proof. intros E. destruct (moves_input _ _ (exec_moves _ _ _ _ _ E)) as (_ & _ & _ & _ & _ & _ & t & T & _). exists t. exact T. Qed.
Theorem C40_closes depth l n e s s' : run depth l (new n e) = Ok s -> step depth (Do Close) s = Ok s' ->
  isok s' = false /\ exists t t', tr s' = tr s ++ t ++ Closed :: t'.
Proof.
  intros Rn. destruct (run_K depth l (new n e) s) as [Hj _]; [split; [reflexivity|discriminate]|intros Z; exfalso; apply Z; reflexivity|exact Rn|]. clear Rn.
  destruct depth as [|[|d]]; try discriminate. cbn [step]. set (d1 := Datatypes.S d). change (exec (Datatypes.S d1) (DoAct Close) s) with (body (exec d) DoClose s).
  destruct (body (exec d) DoClose s) as [[s2 b2]| |] eqn:Bo; try discriminate. cbn [bind]. intros R. injection R as <-. split.
  - destruct (body_meets2 (exec d) (exec_meets2 d) DoClose s s2 b2 Hj Bo) as [_ Cl]. unfold isok. rewrite (Cl eq_refl). reflexivity.
  - revert Bo. cbn [body]. unfold close. destruct (exec d (DoFlush 2000) s) as [[s1 b1]| |] eqn:E; try discriminate. cbn [bind]. destruct (seen _ _ _ _ _ E) as [t T]. cbn [closecb emit set_tr set_closed]. destruct (closecb s1) as [cb|].
    + intros E2. destruct (seen _ _ _ _ _ E2) as [t' T']. cbn [tr emit set_tr set_closed set_closecb] in T'. exists t, t'. rewrite T', T, <- !app_assoc. reflexivity.
    + intros R. injection R as <- <-. exists t, []. cbn. rewrite T, <- app_assoc. reflexivity.
Qed.
Example C40_nontrivial : exists s, run 20 [Do (SetCloseCallback (Some (1%nat, [Write (B "x")]))); Do (SetCloseCallback (Some (2%nat, [Close; SetCloseCallback (Some (3%nat, []))])));
    Do (Write (B "ab")); Do (SetErr 5); Do (SetCloseCallback (Some (4%nat, []))); Do Close] (new 0 [takes 1; refuses 7; ok_answer; ok_answer]) = Ok s /\
  filter about_close (tr s) = [Reg (Some 1%nat); Reg (Some 2%nat); Closed; Called 2; Closed; Reg (Some 3%nat); Called 3; Reg (Some 4%nat); Called 4; Closed] /\ isok s = false.
Proof. eexists. split; [vm_compute; reflexivity|]. split; reflexivity. Qed.

Print Assumptions C38_order. Print Assumptions C38_limit. Print Assumptions C38_flush. Print Assumptions C38_gap_refuted. Print Assumptions C38_limit_refuted. Print Assumptions C38_flush0_refuted.
Print Assumptions C39_order. Print Assumptions C39_line. Print Assumptions C39_ready. Print Assumptions C39_stuck_refuted.
Print Assumptions C40_obeys. Print Assumptions C40_once. Print Assumptions C40_called. Print Assumptions C40_closes.
