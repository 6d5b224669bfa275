(** C95: error objects. *)
From Verif Require Import Base BaseFacts WverSpec WverModel WverProofs.
Local Open Scope Z_scope.

(** Any sequence of calls that keep to the rules: no assertion fails, the number and the
    text are those of the first error reported since the last call that forgets, and the
    callback has been told of each such first error, once, with its number and text. *)
Theorem C95_first_partial strerror ops : Forall proper ops ->
  exists s, run strerror ops fresh = Ok s /\
    geterr s = match original strerror ops None with None => 0 | Some (n, _) => n end /\
    isok s = match original strerror ops None with None => true | Some _ => false end /\
    errstr strerror s = Ok (match original strerror ops None with None => strerror 0 | Some (n, t) => message strerror n t end) /\
    calls s = told strerror ops None.
Proof.
  intros F. destruct (run_ok strerror ops fresh None F (conj eq_refl eq_refl) I) as (s & E & S & G & C). exists s. split; [exact E|].
  unfold geterr, isok, errstr. destruct (original strerror ops None) as [[n t]|]; cbn in S, G; destruct S as [-> ->].
  - destruct G as (N & G1 & G2). split; [reflexivity|]. split; [apply Z.eqb_neq, N|]. split; [apply err_str_ok; assumption|exact C].
  - split; [reflexivity|]. split; [reflexivity|]. split; [reflexivity|exact C].
Qed.

(** Once there is an error, nothing that is not meant to forget it changes it. *)
Theorem C95_stays strerror ops s s' : errnum s <> 0 -> run strerror ops s = Ok s' -> Forall (fun o => forgets o = false) ops -> s' = s.
Proof.
  intros N. revert s'. induction ops as [|o ops IH]; intros s' E F; [cbn in E; congruence|]. inversion F as [|? ? P F']; subst. cbn [run] in E.
  assert (Nb : (errnum s =? 0) = false) by (apply Z.eqb_neq, N).
  assert (X : call strerror o s = Ok s \/ call strerror o s = Fault).
  { destruct o as [m|u|m u|e|p e|e|]; cbn [call forgets] in *; try discriminate.
    - left. unfold seterr. rewrite Nb. reflexivity.
    - unfold seterr_text, seterr_both. rewrite Nb. destruct (given _); auto.
    - unfold seterr_both. rewrite Nb. destruct (given _); auto.
    - left. unfold seterr_from. rewrite Nb. reflexivity.
    - unfold set_prefix, err_str, str_error, seterr_both. rewrite Nb. destruct (o_ok e); [auto|]. destruct (o_num e <? 0), (o_text e) as [[|c r]|]; cbn [bind]; try (destruct (given _)); auto. }
  destruct X as [X|X]; rewrite X in E; cbn [bind] in E; [apply IH; assumption|discriminate].
Qed.

(** A copy of an object that has been used properly shows the same error. *)
Theorem C95_copy strerror ops s : Forall proper ops -> run strerror ops fresh = Ok s ->
  exists c, assign strerror (seen s) fresh = Ok c /\ geterr c = geterr s /\ errstr strerror c = errstr strerror s.
Proof.
  intros F E. destruct (run_ok strerror ops fresh None F (conj eq_refl eq_refl) I) as (s' & E' & S & G & _). assert (s' = s) by congruence. subst s'.
  assert (SD : sound (seen s)).
  { unfold sound, seen. cbn. destruct (original strerror ops None) as [[n t]|]; cbn in S, G; destruct S as [-> ->]; [destruct G as (N & G1 & G2); split; [exact G1|]; split; [congruence|exact G2]|]. split; [lia|]. split; [reflexivity|discriminate]. }
  destruct (from_ok strerror (seen s) [] SD) as (c & Ec & Sc & Gc & _). exists c. split; [exact Ec|]. unfold geterr, errstr, some_error in *. cbn [seen o_num o_text] in *. destruct (Z.eqb_spec (errnum s) 0) as [N|N]; cbn in Sc; destruct Sc as [-> ->].
  - split; [congruence|]. rewrite N. destruct SD as (_ & SD & _). cbn in SD. rewrite (SD N). reflexivity.
  - split; reflexivity.
Qed.

Definition names (n : Z) : bytes := if n =? 0 then B "Success" else if n =? 13 then B "Permission denied" else B "?".
(** An object that is not isok() but has no error number, such as a stream that was
    closed, set with a prefix: that leaves no error, but a text that the next error
    then has. *)
Theorem C95_closed_refuted : exists s s', run names [SetPrefix (B "conn") (Other false 0 None)] fresh = Ok s /\ isok s = true /\
  seterr 13 s = Ok s' /\ errstr names s' = Ok (B "conn: Success") /\ names 13 = B "Permission denied".
Proof. eexists _, _. repeat split; vm_compute; reflexivity. Qed.
(** A negative number other than -1 is taken without a text; asking for the text then
    fails. *)
Theorem C95_negative_refuted : exists s, run names [SetNum (-2)] fresh = Ok s /\ geterr s = -2 /\ errstr names s = Fault.
Proof. eexists. repeat split; vm_compute; reflexivity. Qed.
(** Assigning an object to itself forgets the error. *)
Theorem C95_self_refuted : exists s s', run names [SetBoth 13 (B "no")] fresh = Ok s /\ geterr s = 13 /\ assign_self names s = Ok s' /\ geterr s' = 0 /\ isok s' = true.
Proof. eexists _, _. repeat split; vm_compute; reflexivity. Qed.

Definition ex_ops : list op := [SetNum 0; SetPrefix (B "a") (Other false 13 None); SetNum 5; SetText (B "x"); Clear; SetFrom (Other false (-1) (Some (B "y"))); SetBoth 7 (B "z")].
Example C95_ex_meets : Forall proper ex_ops.
Proof. repeat (constructor; cbn; unfold sound, full; cbn; repeat split; try discriminate; try lia; try congruence). Qed.
Example C95_ex : original names ex_ops None = Some (-1, Some (B "y")) /\ told names ex_ops None = [(13, Some (B "a: Permission denied")); (-1, Some (B "y"))] /\
  exists s, run names ex_ops fresh = Ok s /\ errstr names s = Ok (B "y").
Proof. split; [reflexivity|]. split; [reflexivity|]. eexists. split; vm_compute; reflexivity. Qed.

Print Assumptions C95_first_partial.
Print Assumptions C95_stays.
Print Assumptions C95_copy.
Print Assumptions C95_closed_refuted.
Print Assumptions C95_negative_refuted.
Print Assumptions C95_self_refuted.
