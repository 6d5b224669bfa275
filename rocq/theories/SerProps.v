(** C62: serialized values come back. *)
From Verif Require Import Base SerModel SerSpec SerProofs.
Local Open Scope Z_scope.

Lemma host_width h : good_host h -> width (h_word h) /\ h_word h <> 2%nat.
Proof. intros [E|E]; rewrite E; unfold width; split; auto; discriminate. Qed.
Lemma size_ok h n rest : good_host h -> Z.of_nat n < 2 ^ (8 * Z.of_nat (h_word h)) ->
  ser_scalar h (h_word h) (Z.of_nat n) = rev (le (h_word h) (Z.of_nat n)) /\
  deser_scalar h (h_word h) false (ser_scalar h (h_word h) (Z.of_nat n) ++ rest) = (Z.of_nat n, rest).
Proof.
  intros G L. destruct (host_width h G) as (W & N). assert (E : ser_scalar h (h_word h) (Z.of_nat n) = rev (le (h_word h) (Z.of_nat n))) by (apply ser_scalar_ok; [exact W|intros X; elim (N X)]).
  split; [exact E|]. rewrite E. apply deser_scalar_ok; [exact W|]. unfold fits. lia.
Qed.
Lemma bool_ok h (b : bool) : ser_scalar h 1 (if b then 1 else 0) = rev (le 1 (if b then 1 else 0)).
Proof. apply ser_scalar_ok; [left; reflexivity|discriminate]. Qed.
(** Every value that was written is read back, from any buffer, with more behind it. *)
Theorem C62_roundtrip h linked t : forall v rest, good_host h -> good h t v -> deser h linked t (ser h t v ++ rest) = Ok (v, rest).
Proof.
  induction t as [w s| | | |t IH|t1 IH1 t2 IH2]; intros v rest Gh G; cbn [den good ser deser] in *.
  - destruct G as (W & F & B2). rewrite ser_scalar_ok, deser_scalar_ok by assumption. reflexivity.
  - rewrite bool_ok, deser_scalar_ok by (first [left; reflexivity|destruct v; cbn; lia]). destruct v; reflexivity.
  - destruct G as (s & -> & N). rewrite <- app_assoc. apply deser_str_ok, N.
  - rewrite <- app_assoc. destruct (size_ok h (length v) (v ++ rest) Gh G) as (_ & ->). rewrite app_length. destruct (Z.leb_spec (Z.of_nat (length v)) (Z.of_nat (length v + length rest))); [|lia]. rewrite Nat2Z.id.
    rewrite firstn_app, skipn_app, Nat.sub_diag, firstn_O, skipn_O, app_nil_r, firstn_all, skipn_all. reflexivity.
  - destruct G as (L & F). rewrite <- app_assoc. destruct (size_ok h (length v) (concat (map (ser h t) v) ++ rest) Gh L) as (_ & E).
    match goal with |- context[deser_scalar ?a ?b ?c ?d] => replace (deser_scalar a b c d) with (Z.of_nat (length v), concat (map (ser h t) v) ++ rest) by (symmetry; exact E) end. rewrite Nat2Z.id. clear E. clear L. induction F as [|x v Gx F IHv]; [reflexivity|].
    cbn [map concat length many]. rewrite <- app_assoc, IH by assumption. cbn [bind]. rewrite IHv. reflexivity.
  - destruct v as [v1 v2], G as (G1 & G2). cbn [fst snd] in *. rewrite <- app_assoc, IH1 by assumption. cbn [bind]. rewrite IH2 by assumption. reflexivity.
Qed.
(** The bytes: integers with the most significant byte first, strings with a nul, sizes
    first.  They depend on the machine only in the number of bytes of a size. *)
Theorem C62_format h t : forall v, good_host h -> good h t v -> form (h_word h) t v (ser h t v) /\
  forall h', h_word h' = h_word h -> good h' t v -> ser h' t v = ser h t v.
Proof.
  assert (Sz : forall n, good_host h -> Z.of_nat n < 2 ^ (8 * Z.of_nat (h_word h)) -> length (ser_scalar h (h_word h) (Z.of_nat n)) = h_word h /\ spells (ser_scalar h (h_word h) (Z.of_nat n)) (Z.of_nat n) /\
    forall h', h_word h' = h_word h -> ser_scalar h' (h_word h') (Z.of_nat n) = ser_scalar h (h_word h) (Z.of_nat n)).
  { intros n G L. destruct (size_ok h n [] G L) as (E & _). rewrite E, rev_length, le_len. split; [reflexivity|]. split; [apply spells_rev_le; rewrite of_le_le; apply to_u_id; lia|].
    intros h' Eh. assert (G' : good_host h') by (unfold good_host; rewrite Eh; exact G). rewrite <- Eh in L. destruct (size_ok h' n [] G' L) as (E' & _). rewrite E', Eh. reflexivity. }
  induction t as [w s| | | |t IH|t1 IH1 t2 IH2]; intros v Gh G; cbn [den good ser] in *.
  - destruct G as (W & F & B2). rewrite ser_scalar_ok by assumption. split.
    + constructor; [rewrite rev_length; apply le_len|]. apply spells_rev_le, of_le_le.
    + intros h' _ (_ & _ & B2'). apply ser_scalar_ok; assumption.
  - rewrite bool_ok. split; [destruct v; apply F_bool|]. intros h' _ _. apply bool_ok.
  - destruct G as (s & -> & N). split; [apply F_str|reflexivity].
  - destruct (Sz _ Gh G) as (L & Sp & O). split; [apply F_buf; assumption|]. intros h' Eh _. rewrite (O h' Eh). reflexivity.
  - destruct G as (L & F). destruct (Sz _ Gh L) as (Ln & Sp & O). split.
    + apply F_list; [exact Ln|exact Sp|]. clear -F Gh IH. induction F as [|x v Gx F IHv]; constructor; [apply IH; assumption|exact IHv].
    + intros h' Eh (_ & F'). rewrite (O h' Eh). f_equal. f_equal. clear -F F' Gh IH Eh. induction F as [|x v Gx F IHv]; [reflexivity|]. inversion F'; subst. cbn [map]. f_equal; [apply IH; assumption|apply IHv; assumption].
  - destruct v as [v1 v2], G as (G1 & G2). cbn [fst snd] in *. destruct (IH1 v1 Gh G1) as (A1 & B1), (IH2 v2 Gh G2) as (A2 & B2). split; [apply F_pair; assumption|]. intros h' Eh (G1' & G2'). cbn [fst snd] in *. rewrite B1, B2 by assumption. reflexivity.
Qed.
(** Whatever the bytes, reading anything without buffers from a linked buffer succeeds
    and takes bytes from the front; an integer that is not all there is 0, a string
    without end null, and neither takes anything. *)
Theorem C62_any h t : bufless t -> forall b, exists v p r, deser h true t b = Ok (v, r) /\ b = p ++ r.
Proof.
  induction t as [w s| | | |t IH|t1 IH1 t2 IH2]; intros N b; cbn [den bufless deser] in *.
  - destruct (deser_scalar h w s b) as [z r] eqn:E. destruct (deser_rest _ _ _ _ _ _ E) as (p & ->). exists z, p, r. auto.
  - destruct (deser_scalar h 1 true b) as [z r] eqn:E. destruct (deser_rest _ _ _ _ _ _ E) as (p & ->). exists (negb (z =? 0)), p, r. auto.
  - unfold deser_str. destruct (find_nul b) as [|n]; [exists None, [], b; auto|]. exists (Some (firstn n b)), (firstn (S n) b), (skipn (S n) b). split; [reflexivity|]. symmetry. apply firstn_skipn.
  - contradiction.
  - destruct (deser_scalar h (h_word h) false b) as [z r] eqn:E. destruct (deser_rest _ _ _ _ _ _ E) as (p & ->). generalize (Z.to_nat z). clear E. intros n. revert p r. induction n as [|n IHn]; intros p r; cbn [many].
    + exists [], p, r. auto.
    + destruct (IH N r) as (v & q & r' & -> & ->). cbn [bind]. destruct (IHn (p ++ q) r') as (l & p' & r2 & -> & E). exists (v :: l), p', r2. cbn [bind]. split; [reflexivity|]. rewrite <- E. apply app_assoc.
  - destruct N as (N1 & N2). destruct (IH1 N1 b) as (v & p & r & -> & ->). cbn [bind]. destruct (IH2 N2 r) as (v' & q & r' & -> & ->). cbn [bind]. exists (v, v'), (p ++ q), r'. split; [reflexivity|]. apply app_assoc.
Qed.
Theorem C62_short h b : (forall w s, (length b < w)%nat -> deser h true (TInt w s) b = Ok (0, b)) /\ (~ In nul b -> deser h true TStr b = Ok (None, b)).
Proof.
  split; [intros w s L; cbn; rewrite deser_short by exact L; reflexivity|]. intros N. cbn. unfold deser_str. assert (E : find_nul b = 0%nat); [|rewrite E; reflexivity].
  induction b as [|c b IH]; [reflexivity|]. cbn. destruct (Ascii.eqb_spec c nul) as [->|]; [elim N; left; reflexivity|]. rewrite IH by (intros X; apply N; right; exact X). reflexivity.
Qed.
(** A null string comes back empty. *)
Theorem C62_null_refuted h linked : deser h linked TStr (ser h TStr None) = Ok (Some [], []).
Proof. reflexivity. Qed.
(** Where the most significant byte comes first, integers of two bytes are lost. *)
Theorem C62_short_refuted : exists h z, good_host h /\ fits 2 true z /\ deser h true (TInt 2 true) (ser h (TInt 2 true) z) = Ok (0, []) /\ z <> 0.
Proof. exists (Host true 8), 7. split; [right; reflexivity|]. split; [cbn; lia|]. split; [vm_compute; reflexivity|discriminate]. Qed.
(** Machines with other sizes read something else. *)
Theorem C62_word_refuted : exists h h', good_host h /\ good_host h' /\ h_big h = h_big h' /\ good h (TList TBool) [true] /\ deser h' true (TList TBool) (ser h (TList TBool) [true]) = Ok ([], [nul; nul; nul; Ascii.ascii_of_nat 1; Ascii.ascii_of_nat 1]).
Proof. exists (Host false 8), (Host false 4). split; [right; reflexivity|]. split; [left; reflexivity|]. split; [reflexivity|]. split; [split; [vm_compute; reflexivity|repeat constructor]|]. vm_compute. reflexivity. Qed.
(** Bytes that were not written by these functions: a string without end in a buffer
    that is not linked is read beyond the buffer; a size that is too large ends the
    program; eight bytes make any number of elements. *)
Theorem C62_unterminated_refuted h : deser h false TStr (B "abc") = Fault.
Proof. reflexivity. Qed.
Theorem C62_size_refuted h linked n : good_host h -> 0 < Z.of_nat n < 2 ^ (8 * Z.of_nat (h_word h)) -> deser h linked TBuf (ser_scalar h (h_word h) (Z.of_nat n)) = Fault.
Proof. intros G L. cbn [deser]. destruct (size_ok h n [] G (proj2 L)) as (_ & E). rewrite app_nil_r in E. rewrite E. destruct (Z.leb_spec (Z.of_nat n) (Z.of_nat (length (@nil byte)))) as [X|X]; [cbn in X; lia|reflexivity]. Qed.
Theorem C62_flood_refuted h linked n : good_host h -> Z.of_nat n < 2 ^ (8 * Z.of_nat (h_word h)) -> exists b, length b = h_word h /\ deser h linked (TList (TInt 4 true)) b = Ok (repeat 0 n, []).
Proof.
  intros G L. exists (ser_scalar h (h_word h) (Z.of_nat n)). destruct (size_ok h n [] G L) as (E1 & E). split; [rewrite E1, rev_length; apply le_len|]. cbn [deser]. rewrite app_nil_r in E. rewrite E, Nat2Z.id. clear. induction n as [|n IH]; [reflexivity|].
  cbn [many repeat]. rewrite deser_short by (cbn; lia). cbn [bind]. rewrite IH. reflexivity.
Qed.
Example ex_ser : let h := Host false 8 in let t := TPair (TInt 4 true) (TPair (TInt 2 true) (TPair TStr (TList (TPair TBool (TInt 8 false))))) in
  let v : den t := (-2, (258, (Some (B "hi"), [(true, 5)]))) in
  good h t v /\ ser h t v = map Ascii.ascii_of_nat [255; 255; 255; 254; 1; 2; 104; 105; 0; 0; 0; 0; 0; 0; 0; 0; 1; 1; 0; 0; 0; 0; 0; 0; 0; 5]%nat /\ deser h false t (ser h t v ++ B "x") = Ok (v, B "x").
Proof.
  cbv zeta. split; [|split; vm_compute; reflexivity]. cbn [good fst snd]. unfold width. repeat split; auto; cbn; try lia.
  - exists (B "hi"). split; [reflexivity|]. cbn. intros [X|[X|[]]]; discriminate.
  - constructor; [|constructor]. cbn. repeat split; auto; try lia; discriminate.
Qed.
Print Assumptions C62_roundtrip.
Print Assumptions C62_format.
Print Assumptions C62_any.
Print Assumptions C62_short.
