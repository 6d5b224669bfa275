(** Property C92: hexadecimal dumps stay within their buffer, say what they
    should, and tell different data apart. *)
From Verif Require Import Base HexdSpec HexdModel HexdProofs.
Local Open Scope char_scope.

(** No write outside of the string, no read outside of the data, and the right text. *)
Theorem C92_dump : forall buf chars, exists text, hexdump_buffer buf (length buf) chars = Ok text /\ dump chars 0 buf text.
Proof.
  intros buf chars. destruct (line_loop_ok _ buf chars eq_refl (S (length buf)) 0 []) as (t & E & D & L); [lia|left; reflexivity|cbn; lia|].
  exists t. unfold hexdump_buffer. change (16 * 0) with 0 in *. rewrite E. cbn [app bind skipn] in *. apply Nat.ltb_lt in L. rewrite L. auto.
Qed.
Print Assumptions C92_dump.

(** The text has no NUL in it, so that it is all of the string. *)
Theorem C92_whole : forall buf chars text, hexdump_buffer buf (length buf) chars = Ok text -> ~ In "000" text.
Proof.
  intros buf chars text H. destruct (C92_dump buf chars) as (t & E & D). rewrite E in H. injection H as <-. eapply dump_nonul, D.
Qed.
Print Assumptions C92_whole.

(** Different data never look the same. *)
Theorem C92_injective : forall a b chars, hexdump_buffer a (length a) chars = hexdump_buffer b (length b) chars -> a = b.
Proof.
  intros a b chars H. destruct (C92_dump a chars) as (t & E & D). destruct (C92_dump b chars) as (t' & E' & D'). rewrite E, E' in H. injection H as ->.
  eapply dump_inj; eassumption.
Qed.
Print Assumptions C92_injective.

Example C92_ex : hexdump_buffer (B "Hello, world! 12345") 19 true = Ok (
  B "[000] 48656C6C 6F2C2077 6F726C64 21203132  Hell o, w orld ! 12" ++ ["010"] ++
  B "[010] 333435                               345" ++ ["010"]).
Proof. vm_compute. reflexivity. Qed.
Example C92_ex_bytes : hexdump_buffer ["000"; "255"] 2 true = Ok (B "[000] 00FF                                 .." ++ ["010"]).
Proof. vm_compute. reflexivity. Qed.
