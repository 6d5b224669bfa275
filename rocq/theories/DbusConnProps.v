(** C76: D-Bus connections give every message, and every reply to who waits for it *)
From Coq Require Import Sorting.Permutation String.
From Verif Require Import Base DbusConnModel DbusConnSpec DbusConnProofs.
Local Open Scope list_scope.
Local Open Scope Z_scope.

(** In a careful run nothing is used after it was deleted, all loops end, and every callback that
    is called is the one that may be called, at the time it may *)
Theorem C76_callbacks : forall w l, always careful w init l -> exists s v, run w init l = Ok s /\ proper (past s) v.
Proof. intros w l H. destruct (run_good w l init _ init_good H) as (s & v & E & G). exists s, v. split; [exact E|]. apply (g_proper s v G). Qed.
Print Assumptions C76_callbacks.

(** Each request is answered at most once, and the reply it is given is the message that was just
    received, and answers it *)
Theorem C76_once : forall w l s, always careful w init l -> run w init l = Ok s ->
  NoDup (calls (past s)) /\ (forall i, In i (calls (past s)) -> In i (asks (past s))) /\
  forall i m, In (Called i (Reply m)) (past s) -> exists a b c, past s = a ++ Asked i (answers m) :: b ++ Got m :: Called i (Reply m) :: c.
Proof.
  intros w l s H E. destruct (C76_callbacks w l H) as (s' & v & E' & P). assert (s' = s) by congruence. subst s'.
  pose proof (run_counted w l init s E eq_refl) as C. destruct (proper_once _ _ P) as (A & B & D & _); [rewrite C; apply seq_NoDup|auto].
Qed.
Print Assumptions C76_once.

(** Whatever else happens, the messages that are got are those that were sent, in order, however
    their bytes arrive, and when the event loop is done with the connection no complete one is left *)
Theorem C76_messages : forall w encode ms l s more, understands w encode ms -> run w init l = Ok s -> received s ++ more = concat (map encode ms) ->
  exists k rest, gots (past s) = firstn k ms /\ received s = concat (map encode (firstn k ms)) ++ rest /\ (sel s = None -> incomplete encode rest (skipn k ms)).
Proof.
  intros w encode ms l s more U R E. destruct (run_framed w encode ms U l init s more 0 R) as (k & (_ & F1 & F2) & F3); [|intros _|exact E|].
  - split; [lia|]. split; reflexivity.
  - cbn. destruct ms as [|m ms]; [reflexivity|]. cbn. destruct U as [_ U]. destruct (U m (or_introl eq_refl)). lia.
  - exists k, (queue s). auto.
Qed.
Print Assumptions C76_messages.

(** All messages are written in the order they were sent, each once, those from before the
    authentication right after it, and nothing before; those that had no number get new ones *)
Theorem C76_written : forall w l s, run w init l = Ok s ->
  written s ++ unsent s = numbers 1000 l /\ (if existsb (fun e => match e with Authorize => true | _ => false end) l then unsent s = [] else written s = []).
Proof.
  intros w l s R. destruct (run_out w l init s R eq_refl) as (A & B & C). split; [exact C|]. unfold held in A. rewrite B in A. exact A.
Qed.
Print Assumptions C76_written.

(** *** Where it fails *)
(** A wire on which each message is 16 bytes: the first two say its number and the one it answers *)
Definition num (c : ascii) : Z := Z.of_nat (nat_of_ascii c).
Definition toy : wire :=
  Wire (fun b => if (length b <? 16)%nat then 0 else 16) (fun b => match b with x :: y :: r => Some (Msg (num x) (num y) r) | _ => None end).
Definition pkt (x y : nat) : bytes := ascii_of_nat x :: ascii_of_nat y :: repeat "-"%char 14.
Definition seen (l : list event) : res (list obs) := let! s := run toy init l in Ok (past s).
Lemma seen_fault l : seen l = Fault -> run toy init l = Fault.
Proof. unfold seen. destruct (run toy init l); cbn; congruence. Qed.
Lemma seen_ok l o : seen l = Ok o -> exists s, run toy init l = Ok s /\ past s = o.
Proof. unfold seen. destruct (run toy init l) as [s| |]; cbn; try discriminate. intros H. injection H as <-. eauto. Qed.

(** A request that is not answered in time: the connection uses what it has just deleted *)
Theorem C76_timeout_refuted : exists l, (forall e, In e l -> e = Authorize \/ e = Send None (Some 10) \/ e = Select 11 []) /\ run toy init l = Fault.
Proof. exists [Authorize; Send None (Some 10); Select 11 []]. split; [cbn; intuition|]. apply seen_fault. vm_compute. reflexivity. Qed.
Print Assumptions C76_timeout_refuted.

(** A callback that is given a reply and sends its message again, as after an error: so does it *)
Theorem C76_resend_refuted : exists l, (forall e, In e l -> match e with Select now _ => now = 0 | _ => True end) /\ run toy init l = Fault.
Proof.
  exists [Authorize; Send (Some 7) (Some 99); Select 0 [pkt 1 7]; Send (Some 7) (Some 99); Return true; Return true]. split; [cbn; intuition; subst; exact I || reflexivity|]. apply seen_fault. vm_compute. reflexivity.
Qed.
Print Assumptions C76_resend_refuted.

(** A callback for messages that deletes another one of a higher priority: so does the loop *)
Theorem C76_delete_refuted : exists l, (forall e, In e l -> match e with Send _ _ => False | Select now _ => now = 0 | _ => True end) /\ run toy init l = Fault.
Proof.
  exists [Authorize; Add 1 1; Add 2 2; Select 0 [pkt 1 0]; Del 2; Return false]. split; [cbn; intuition; subst; exact I || reflexivity|]. apply seen_fault. vm_compute. reflexivity.
Qed.
Print Assumptions C76_delete_refuted.

(** When the connection is closed the callbacks of requests are never called *)
Lemma closed_quiet w l : forall s s', closed s = true -> frames s = [] -> (forall e, In e l -> match e with Select _ _ | Return _ | Elsewhere | Close => True | _ => False end) -> run w s l = Ok s' -> past s' = past s.
Proof.
  induction l as [|e l IH]; intros s s' C F H R; cbn [run] in R; [congruence|]. assert (He := H e (or_introl eq_refl)).
  assert (P : exists s1, step w s e = Ok s1 /\ closed s1 = true /\ frames s1 = [] /\ past s1 = past s).
  { destruct e; cbn in He; try contradiction; cbn [step]; rewrite ?F, ?C; eexists; (split; [reflexivity|]); auto. }
  destruct P as (s1 & E & C1 & F1 & P1). rewrite E in R. cbn [bind] in R. rewrite <- P1. apply (IH s1 s' C1 F1); [|exact R]. intros e' He'. apply H. right. exact He'.
Qed.
Theorem C76_close_refuted : exists l i z, always careful toy init l /\ forall l' s, (forall e, In e l' -> match e with Select _ _ | Return _ | Elsewhere | Close => True | _ => False end) -> run toy init (l ++ l') = Ok s ->
  In (Asked i z) (past s) /\ ~ In i (calls (past s)).
Proof.
  exists [Authorize; Send None (Some 99); Close], 0%nat, 1001. split.
  - cbn. unfold answering. cbn. repeat split; try lia. intros _ (p & [[]|[]] & _).
  - intros l' s H R. cbn [run app] in R. set (s0 := add_pending (send (set_next (set_out init true [] []) 1001) 1001) 1001 99) in *.
    assert (E : run toy (set_closed s0) l' = Ok s) by exact R. apply closed_quiet in E; [|reflexivity|reflexivity|exact H]. rewrite E. cbn. split; [auto|tauto].
Qed.
Print Assumptions C76_close_refuted.

(** A callback that waits for something, and so runs the event loop, gets nothing: the connection
    does not read while one of its callbacks runs *)
Theorem C76_wait_refuted : forall w s now reads, sel s <> None -> step w s (Select now reads) = Ok s.
Proof. intros w s now reads H. cbn. destruct (closed s); [reflexivity|]. destruct (sel s); [reflexivity|congruence]. Qed.
Print Assumptions C76_wait_refuted.

(** A request that is cancelled, and whose callback runs the event loop: the reply to the new one
    is given to the callbacks for messages, and nobody else *)
Theorem C76_cancel_refuted : exists l s, run toy init l = Ok s /\ past s =
  [Added (Filt 0 0 5); Asked 0 7; Asked 1 7; Called 0 Cancelled; Got (Msg 1 7 (repeat "-"%char 14)); Offered (Filt 0 0 5) (Msg 1 7 (repeat "-"%char 14)); Handled; Rested].
Proof.
  exists [Authorize; Add 0 5; Send (Some 7) (Some 99); Send (Some 7) (Some 99); Select 0 [pkt 1 7]; Return true; Return true]. apply seen_ok. vm_compute. reflexivity.
Qed.
Print Assumptions C76_cancel_refuted.

(** Something that cannot be understood, though its length is known, stops the reading: complete
    messages after it wait until more arrives *)
Definition picky : wire := Wire (needed toy) (fun b => match decode toy b with Some m => if serial m =? 0 then None else Some m | None => None end).
Theorem C76_stuck_refuted : exists l s, run picky init l = Ok s /\ past s = [Rested] /\ sel s = None /\ decode picky (queue s) = Some (Msg 3 0 (repeat "-"%char 14)).
Proof.
  assert (G : (let! s := run picky init [Authorize; Select 0 [pkt 0 0 ++ pkt 3 0]] in Ok (past s, sel s, decode picky (queue s))) = Ok ([Rested], None, Some (Msg 3 0 (repeat "-"%char 14)))) by (vm_compute; reflexivity).
  exists [Authorize; Select 0 [pkt 0 0 ++ pkt 3 0]]. destruct (run picky init _) as [s| |]; cbn [bind] in G; try discriminate. injection G as G1 G2 G3. exists s. auto.
Qed.
Print Assumptions C76_stuck_refuted.

(** *** A run that meets the conditions: two requests, messages in pieces, a reply for each, a
    message for the callbacks, a request that is replaced *)
Definition script : list event :=
  [Send (Some 7) (Some 99); Authorize; Send (Some 8) (Some 99); Add 5 1; Add 2 2; Elsewhere;
   Select 3 [firstn 9 (pkt 1 8)]; Select 3 [skipn 9 (pkt 1 8) ++ pkt 2 0 ++ firstn 3 (pkt 3 7)];
   Send (Some 9) (Some 99); Return true; Return false; Del 2; Return false;
   Send (Some 9) (Some 99); Return true; Select 4 [skipn 3 (pkt 3 7)]; Return true].
Definition check (s : st) (e : event) : bool :=
  let busy z := existsb (fun f => match f with InReply p | InCancel p => pserial p =? z | _ => false end) (frames s) in
  match e with
  | Send z limit => match z with Some z => 0 <? z | None => next s + 1 <? 2 ^ 32 end && match limit with None => true | Some _ => negb (busy (match z with Some z => z | None => next s + 1 end)) end
  | Del k => forallb (fun f => match f with InFilter _ l => forallb (fun g => negb (Nat.eqb (cookie g) k)) l | _ => true end) (frames s)
  | Select now _ => forallb (fun p => now <=? until p) (pending s) && forallb (fun f => match f with InCancel _ => false | _ => true end) (frames s)
  | _ => true
  end.
Lemma check_careful s e : check s e = true -> careful s e.
Proof.
  destruct e as [z limit|p k|k| |handled| |now reads|]; cbn [check careful]; intros H; auto.
  - apply andb_prop in H. destruct H as [H1 H2]. split; [destruct z; apply Z.ltb_lt; exact H1|]. intros L (p & A & E). destruct limit; [|congruence]. apply Bool.negb_true_iff in H2. rewrite <- Bool.not_true_iff_false in H2. apply H2. apply existsb_exists. destruct A as [A|A]; [exists (InReply p)|exists (InCancel p)]; (split; [exact A|apply Z.eqb_eq; exact E]).
  - intros m l f Hl Hf. rewrite forallb_forall in H. specialize (H _ Hl). cbn in H. rewrite forallb_forall in H. specialize (H f Hf). apply Bool.negb_true_iff, Nat.eqb_neq in H. exact H.
  - apply andb_prop in H. destruct H as [H1 H2]. rewrite forallb_forall in H1, H2. split; [intros p Hp; apply Z.leb_le; apply H1; exact Hp|]. intros p Hp. specialize (H2 _ Hp). discriminate.
Qed.
Fixpoint checks (w : wire) (s : st) (l : list event) : bool :=
  match l with [] => true | e :: r => check s e && match step w s e with Ok s => checks w s r | _ => true end end.
Lemma checks_always w l : forall s, checks w s l = true -> always careful w s l.
Proof. induction l as [|e l IH]; intros s H; cbn in *; [exact I|]. apply andb_prop in H. destruct H as [H1 H2]. split; [apply check_careful; exact H1|]. destruct (step w s e); auto. Qed.
Definition dash : bytes := repeat "-"%char 14.
Example C76_script : always careful toy init script /\ exists s, run toy init script = Ok s /\ past s =
  [Asked 0 7; Asked 1 8; Added (Filt 0 5 1); Added (Filt 1 2 2); Rested; Got (Msg 1 8 dash); Called 1 (Reply (Msg 1 8 dash)); Asked 2 9;
   Got (Msg 2 0 dash); Offered (Filt 1 2 2) (Msg 2 0 dash); Offered (Filt 0 5 1) (Msg 2 0 dash); Deleted 2; Rested;
   Asked 3 9; Called 2 Cancelled; Got (Msg 3 7 dash); Called 0 (Reply (Msg 3 7 dash)); Rested].
Proof. split; [apply checks_always; vm_compute; reflexivity|]. apply seen_ok. vm_compute. reflexivity. Qed.
(** and messages this wire understands, in pieces: two are complete *)
Definition enc (m : msg) : bytes := pkt (Z.to_nat (serial m)) (Z.to_nat (answers m)).
Definition three : list msg := [Msg 1 8 dash; Msg 2 0 dash; Msg 3 7 dash].
Example C76_understands : understands toy enc three /\ exists s more, run toy init (firstn 8 script) = Ok s /\ received s ++ more = concat (map enc three).
Proof.
  split.
  - split; [reflexivity|]. intros m H. assert (L : length (enc m) = 16%nat) by (cbn in H; intuition; subst; reflexivity). split; [lia|]. split; [cbn in H; intuition; subst; reflexivity|].
    intros n rest. cbn [needed toy]. rewrite firstn_length, app_length, L. destruct (Nat.ltb_spec n 16); [replace (Nat.min n _ <? 16)%nat with true by (symmetry; apply Nat.ltb_lt; lia); reflexivity|]. replace (Nat.min n _ <? 16)%nat with false by (symmetry; apply Nat.ltb_ge; lia). reflexivity.
  - assert (G : (let! s := run toy init (firstn 8 script) in Ok (received s)) = Ok (pkt 1 8 ++ pkt 2 0 ++ firstn 3 (pkt 3 7))) by (vm_compute; reflexivity).
    destruct (run toy init (firstn 8 script)) as [s| |]; cbn [bind] in G; try discriminate. injection G as G. exists s, (skipn 3 (pkt 3 7)). split; [reflexivity|]. rewrite G. reflexivity.
Qed.
