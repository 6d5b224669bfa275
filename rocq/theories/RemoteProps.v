(** C53: a remote configuration behaves like a local one. *)
From Verif Require Import Base BaseFacts Ctype TclModel TclSpec KeyModel KeySpec TreeProofs TempModel TempSpec TempProofs IniSpec RemoteModel RemoteSpec RemoteProofs RemoteProofs2 RemoteProofs3 RemoteProofs4 RemoteProofs5.
Local Open Scope char_scope.
Local Open Scope list_scope.

(** Whatever is called, whatever others change, and however the bytes travel: there
    is an order of all calls and changes that explains all that was returned and
    notified, and it only grows as things go on. *)
Theorem C53_remote l l' : Forall fit_step (l ++ l') ->
  exists s lin s' lin', run l init = Ok s /\ explains lin l s /\ run (l ++ l') init = Ok s' /\ explains (lin ++ lin') (l ++ l') s'.
Proof.
  intros F. rewrite Forall_app in F. destruct F as [F F']. destruct (run_ok l [] [] init Inv_init F) as (s & lin & E & H). cbn [app] in H. destruct (run_ok l' lin l s H F') as (s' & lin' & E' & H').
  exists s, lin, s', lin'. split; [exact E|]. split; [apply Inv_explains, H|]. split; [rewrite run_app, E; exact E'|apply Inv_explains, H'].
Qed.

Lemma calls_fit l : forall s s', Forall fit_step l -> Forall fit_call (calls s) -> run l s = Ok s' -> Forall fit_call (calls s').
Proof.
  induction l as [|o l IH]; intros s s' F C E; cbn [run] in E; [injection E as <-; exact C|]. destruct (do_step o s) as [s1| |] eqn:Eo; cbn [bind] in E; try discriminate. apply (IH s1 s' (Forall_inv_tail F)); [|exact E].
  pose proof (Forall_inv F) as Fo. destruct o as [c|n|n| | |k v]; cbn [do_step fit_step] in *.
  - destruct (current (cli s)); [injection Eo as <-; exact C|]. destruct (request c (cli s)) as [[x b]| |]; cbn [bind] in Eo; try discriminate. injection Eo as <-. apply Forall_app. auto.
  - injection Eo as <-. exact C.
  - injection Eo as <-. exact C.
  - destruct (serve (srv s)) as [[v o]| |]; cbn [bind] in Eo; try discriminate. injection Eo as <-. exact C.
  - destruct (conncallback (cli s)) as [[x n]| |]; cbn [bind] in Eo; try discriminate. destruct (match current x with Some c => if busy x then (x, []) else (leave x, [finish c x]) | None => (x, []) end) as [x' a]. injection Eo as <-. exact C.
  - destruct (assign (sgen (srv s)) k v) as [[g o]| |]; cbn [bind] in Eo; try discriminate. injection Eo as <-. exact C.
Qed.
Lemma others_fit l : Forall fit_step l -> Forall (fun h => fit_key (fst h)) (others l).
Proof. induction 1 as [|o l F _ IH]; [constructor|]. destruct o; cbn [others]; auto. constructor; [apply F|exact IH]. Qed.
Lemma direct_history lin : forall g, Forall fit_call (mine lin) -> Forall (fun h => fit_key (fst h)) (theirs lin) ->
  exists hs, history g hs (snd (fst (direct lin g))) (fst (fst (direct lin g))) /\ Forall (fun h => canonical (fst h)) hs.
Proof.
  induction lin as [|[c|k v] lin IH]; intros g Fm Ft; cbn [direct mine theirs] in *.
  - exists []. split; constructor.
  - pose proof (Forall_inv Fm) as Fc. apply Forall_inv_tail in Fm. cbn [as_call]. destruct c as [k|k v|l|k|k r| |]; cbn [local].
    2:{ destruct (IH (fst (tset g k v)) Fm Ft) as (hs & H & C). destruct (direct lin (fst (tset g k v))) as [[g' n'] a']. cbn [fst snd] in *. exists ((k, v) :: hs). split; [|constructor; [apply Fc|exact C]].
        econstructor; [|exact H]. destruct (tset g k v); reflexivity. }
    2:{ contradiction. }
    all: destruct (IH g Fm Ft) as (hs & H & C); destruct (direct lin g) as [[g' n'] a']; exists hs; auto.
  - pose proof (Forall_inv Ft) as Fc. apply Forall_inv_tail in Ft. cbn [as_call local]. destruct (IH (fst (tset g k v)) Fm Ft) as (hs & H & C). destruct (direct lin (fst (tset g k v))) as [[g' n'] a']. cbn [fst snd] in *. exists ((k, v) :: hs). split; [|constructor; [apply Fc|exact C]].
    econstructor; [|exact H]. destruct (tset g k v); reflexivity.
Qed.

(** From wherever it is, the system comes to rest by carrying bytes and handling them:
    then every call has returned what it would have returned directly, in the same
    order, every change has been notified, and the notifications add up to the
    contents of the daemon. *)
Theorem C53_settles l : Forall fit_step l ->
  exists l' s lin, Forall calm l' /\ run (l ++ l') init = Ok s /\
    theirs lin = others l /\ mine lin = calls s /\ current (cli s) = None /\ up s = [] /\ down s = [] /\
    direct lin tinit = (sgen (srv s), deltas s, answers s) /\
    forall k, Forall plain k -> replay (deltas s) nothing k = tget (sgen (srv s)) k.
Proof.
  intros F. destruct (run_ok l [] [] init Inv_init F) as (s & lin & E & H). cbn [app] in H. destruct (drain lin l s H) as (l' & s' & lin' & Fl & E' & H' & U & D). exists l', s', lin'.
  assert (ER : run (l ++ l') init = Ok s') by (rewrite run_app, E; exact E').
  destruct H' as (Hg & G & Ht & Wu & Fc & Hc & Wd & Fi & Hn & Ph & Hl). rewrite app_nil_r in Hc. cbn [flat_map] in Hn, Ph. rewrite app_nil_r in Hn.
  assert (Ho : others l' = []) by (clear - Fl; induction Fl as [|o l' C _ IH]; [reflexivity|]; destruct o; cbn in *; try contradiction; exact IH). rewrite others_app, Ho, app_nil_r in Ht.
  destruct Ph as [H1 H2 H3 H4|c0 cs0 H1 H2 H3 H4 H5 H6 H7 H8|c0 a0 H1 H2 H3 H4 H5 H6]; [|destruct cs0; discriminate|exfalso; inversion H6 as [| | | |k r d t|]; destruct t; discriminate].
  split; [exact Fl|]. split; [exact ER|]. split; [exact Ht|]. split; [symmetry; exact Hc|]. split; [exact H1|]. split; [exact U|]. split; [exact D|]. split.
  - destruct (direct lin' tinit) as [[g n] a]. cbn [fst snd] in *. congruence.
  - assert (Fm : Forall fit_call (mine lin')).
    { rewrite <- Hc. apply (calls_fit (l ++ l') init s'); [apply Forall_app; split; [exact F|apply calm_fit, Fl]|constructor|exact ER]. }
    destruct (direct_history lin' tinit Fm) as (hs & Hh & Ch); [rewrite Ht; apply others_fit, F|]. rewrite Hn, <- Hg in Hh. destruct (reach hs _ _ Hh Ch) as (_ & _ & R & _).
    intros k P. rewrite R by exact P. rewrite tget_has by (left; exact P). destruct (plain_slashed k P) as [-> _]. reflexivity.
Qed.
(** In any state reached: what the client's calls and answers say about its own calls
    does not depend on how the bytes were cut. *)
Theorem C53_returned l s : Forall fit_step l -> run l init = Ok s -> current (cli s) = None ->
  exists lin, theirs lin = others l /\ prefix (mine lin) (calls s) /\ answers s = firstn (length (answers s)) (snd (direct lin tinit)) /\ length (answers s) = length (filter answered (calls s)).
Proof.
  intros F E Hi. destruct (run_ok l [] [] init Inv_init F) as (s' & lin & E' & H). rewrite E in E'. injection E' as <-. cbn [app] in H. apply Inv_explains in H. unfold explains in H. exists lin. destruct (direct lin tinit) as [[g n] a]. destruct H as (_ & H2 & H3 & (r & H4) & _ & H6).
  cbn [snd]. rewrite H4, firstn_app, Nat.sub_diag, firstn_all, app_nil_r. auto.
Qed.

(** * Examples *)
Definition K (s : string) : list bytes := [B s].
Lemma simple_key s : match s with EmptyString => False | _ => True end -> forallb (fun c => negb (Ascii.eqb c "/") && negb (Ascii.eqb c nul) && negb (isspace c)) (B s) = true -> fit_key (K s).
Proof.
  intros Hs H. rewrite forallb_forall in H. assert (P : plain (B s)).
  { split; [destruct s; [contradiction|discriminate]|]. split; intros Hi; apply H in Hi; discriminate. }
  split; [left; repeat constructor; apply P|]. repeat constructor. intros (r & c & E & W). assert (Hi : In c (B s)) by (rewrite E; apply in_or_app; right; left; reflexivity). apply H in Hi. rewrite !andb_true_iff in Hi. destruct Hi as [_ Hi].
  destruct W as [-> |W]; [discriminate|]. unfold isspace, cc in Hi. destruct (Nat.eqb_spec (nat_of_ascii c) 32); [discriminate|]. destruct (Nat.leb_spec 9 (nat_of_ascii c)); [|lia]. destruct (Nat.leb_spec (nat_of_ascii c) 13); [discriminate|lia].
Qed.
Lemma simple_value s : forallb (fun c => negb (Ascii.eqb c nul) && negb (Ascii.eqb c newline)) (B s) = true -> fit_value (B s).
Proof.
  rewrite forallb_forall. intros H. split; [intros Hi; apply H in Hi; discriminate|]. intros x E. exfalso. assert (Hi : In newline (B s)) by (rewrite E; apply in_or_app; right; left; reflexivity). apply H in Hi. discriminate.
Qed.
(** Two sets, a change by somebody else between them, a get; bytes come one at a time
    and messages are cut in the middle. *)
Definition demo : list step :=
  [Call (CSet (K "a") (Some (B "x y"))); Up 5; Serve; Other (K "b") (Some (B "{")); Call (CGet (K "b")); Up 4; Serve; Down 40; Poll; Poll; Up 100; Serve; Serve; Down 7; Poll; Down 100; Poll; Poll; Poll; Poll; Poll].
Example C53_demo_fit : Forall fit_step demo.
Proof.
  unfold demo. repeat first [apply Forall_nil | apply Forall_cons]; try exact I; cbn [fit_step fit_call]; unfold fit_set.
  - split; [split; [apply simple_key; [exact I|reflexivity]|apply simple_value; reflexivity]|discriminate].
  - split; [apply simple_key; [exact I|reflexivity]|apply simple_value; reflexivity].
  - apply simple_key; [exact I|reflexivity].
Qed.
Example C53_demo : exists s, run demo init = Ok s /\ answers s = [AVal (Some (B "{"))] /\
  deltas s = [([], Some []); (K "b", Some (B "{")); (K "a", Some (B "x y"))].
Proof. eexists. split; [vm_compute; reflexivity|]. split; reflexivity. Qed.

(** * What does not work *)
(** Without changes by others, an explanation is a part of the calls. *)
Lemma only_mine lin : theirs lin = [] -> lin = map Mine (mine lin).
Proof. induction lin as [|[c|k v] lin IH]; cbn; intros H; [reflexivity|f_equal; auto|discriminate]. Qed.
Lemma unexplained l s : others l = [] -> (forall n, n <= length (calls s) -> ~ explains (map Mine (firstn n (calls s))) l s) -> forall lin, ~ explains lin l s.
Proof.
  intros Ho H lin X. assert (T : theirs lin = [] /\ prefix (mine lin) (calls s)) by (unfold explains in X; destruct (direct lin tinit) as [[g n] a]; destruct X as (_ & X & Y & _); rewrite Ho in X; auto).
  destruct T as [T (r & R)]. apply (H (length (mine lin))); [rewrite R, app_length; lia|]. rewrite R, firstn_app, Nat.sub_diag, firstn_all, app_nil_r, <- only_mine by exact T. exact X.
Qed.
(** All goes well on the wire: every byte arrives and is handled. *)
Definition deliver (c : call) : list step := [Call c; Up 1000; Serve; Serve; Serve; Down 1000; Poll; Poll; Poll; Poll; Poll; Poll; Poll; Poll].
Definition session (l : list call) : list step := Poll :: flat_map deliver l.
Local Ltac absurd_step := vm_compute; intros X; decompose [and] X; try discriminate; repeat match goal with H : exists _, _ |- _ => destruct H end; discriminate.
Local Ltac wrong := intros; eexists; split; [vm_compute; reflexivity|]; apply unexplained; [reflexivity|]; intros n Hn; vm_compute in Hn;
  destruct n as [|[|[|n]]]; try (exfalso; lia); absurd_step.
(** Removing the key " ", which is not there, removes everything. *)
Theorem C53_remove_blank_refuted : exists s, run (session [CSet (K "a") (Some (B "1")); CSet (K " ") None]) init = Ok s /\ forall lin, ~ explains lin (session [CSet (K "a") (Some (B "1")); CSet (K " ") None]) s.
Proof. wrong. Qed.
(** Removing the key "." does nothing if there are keys below it. *)
Theorem C53_remove_dot_refuted : let l := session [CSet [B "."; B "x"] (Some (B "1")); CSet (K ".") None] in exists s, run l init = Ok s /\ forall lin, ~ explains lin l s.
Proof. wrong. Qed.
(** setv() sets nothing. *)
Theorem C53_setv_refuted : let l := session [CSetv [(K "a", B "1"); (K "b", B "2")]; CGet (K "a")] in exists s, run l init = Ok s /\ forall lin, ~ explains lin l s.
Proof. wrong. Qed.
(** A value with an unmatched brace and a newline at its end is not stored. *)
Theorem C53_newline_refuted : let l := session [CSet (K "a") (Some (B "}" ++ [newline])); CGet (K "a")] in exists s, run l init = Ok s /\ forall lin, ~ explains lin l s.
Proof. wrong. Qed.
(** The keys below "a/" are not listed, although those below "a" are and the daemon's
    generator lists them. *)
Theorem C53_slash_refuted : let l := session [CSet [B "a"; B "x"] (Some (B "1")); CList [B "a"; []] false] in exists s, run l init = Ok s /\ forall lin, ~ explains lin l s.
Proof. wrong. Qed.

Print Assumptions C53_remote.
Print Assumptions C53_settles.
Print Assumptions C53_returned.
Print Assumptions C53_remove_blank_refuted.
Print Assumptions C53_remove_dot_refuted.
Print Assumptions C53_setv_refuted.
Print Assumptions C53_newline_refuted.
Print Assumptions C53_slash_refuted.
