From Verif Require Import Base BaseFacts EncoderModel.

(** If the private transition function composes over concatenation, feeding in
    any pieces gives the same state and output as one piece. *)
Section Feed.
Variable E : encoder.
Variable run : enc_state E -> bytes -> option (enc_state E * bytes).
Hypothesis run_encode : forall s inp flush s' out,
  run s inp = Some (s', out) ->
  exists ret, enc_encode E s inp flush = Ok (EncOut s' [] out ret false false).
Hypothesis run_nil : forall s, run s [] = Some (s, []).
Hypothesis run_app : forall s a b s' out,
  run s (a ++ b) = Some (s', out) ->
  exists s1 o1 o2, run s a = Some (s1, o1) /\ run s1 b = Some (s', o2) /\ out = o1 ++ o2.

Lemma do_encode_run s inp flush s' out :
  run s inp = Some (s', out) ->
  exists ret, enc_do_encode E (Est true false s) inp flush false =
              Ok (Est true false s', [], out, ret).
Proof.
  intros H. unfold enc_do_encode. cbn [okay finished st negb andb].
  destruct inp as [|c inp].
  - destruct flush; cbn [negb orb andb bind].
    + destruct (run_encode _ _ true _ _ H) as (ret & Hr). rewrite Hr. cbn. eauto.
    + rewrite run_nil in H. inversion H; subst. eauto.
  - cbn [negb orb]. destruct (run_encode _ _ flush _ _ H) as (ret & Hr). rewrite Hr. cbn. eauto.
Qed.

Lemma feed_run calls : forall s s' out,
  run s (fed calls) = Some (s', out) ->
  exists bs, feed E (Est true false s) [] calls = Ok (Est true false s', [], out, bs).
Proof.
  induction calls as [|[chunk flush] calls IH]; intros s s' out H.
  - unfold fed in H. cbn in H. rewrite run_nil in H. inversion H; subst. cbn. eauto.
  - change (fed ((chunk, flush) :: calls)) with (chunk ++ fed calls) in H.
    destruct (run_app _ _ _ _ _ H) as (s1 & o1 & o2 & H1 & H2 & ->).
    cbn [feed app]. destruct (do_encode_run _ _ flush _ _ H1) as (ret & ->). cbn [bind].
    destruct (IH _ _ _ H2) as (bs & ->). cbn. eauto.
Qed.
End Feed.
