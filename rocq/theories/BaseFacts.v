(** Facts about the shared definitions of [Base]. *)
From Verif Require Import Base.

Lemma store_some m i c :
  i < length m -> store m i c = Some (firstn i m ++ c :: skipn (S i) m).
Proof.
  revert i; induction m as [|x m IH]; intros i Hi; cbn in *; [lia|].
  destruct i as [|i]; [reflexivity|].
  rewrite IH by lia. reflexivity.
Qed.

Lemma store_none m i c : length m <= i -> store m i c = None.
Proof.
  revert i; induction m as [|x m IH]; intros i Hi; cbn in *; [reflexivity|].
  destruct i as [|i]; [lia|]. rewrite IH by lia. reflexivity.
Qed.

Lemma store_length m i c m' : store m i c = Some m' -> length m' = length m.
Proof.
  revert i m'; induction m as [|x m IH]; intros i m' H; cbn in *; [discriminate|].
  destruct i as [|i].
  - inversion H; reflexivity.
  - destruct (store m i c) as [r|] eqn:E; [|discriminate].
    inversion H; cbn. f_equal. eauto.
Qed.

Lemma skipn_skipn_add {A} (l : list A) : forall i j, skipn i (skipn j l) = skipn (i + j) l.
Proof.
  induction l as [|x l IH]; intros i j.
  - rewrite !skipn_nil. reflexivity.
  - destruct j as [|j]; [rewrite Nat.add_0_r; reflexivity|].
    replace (i + S j) with (S (i + j)) by lia. cbn [skipn]. apply IH.
Qed.

Lemma store_seq_some l : forall m i,
  i + length l <= length m ->
  store_seq m i l = Some (firstn i m ++ l ++ skipn (i + length l) m).
Proof.
  induction l as [|c l IH]; intros m i H; cbn [store_seq length app] in *.
  - rewrite Nat.add_0_r, firstn_skipn. reflexivity.
  - rewrite store_some by lia.
    assert (Hf : length (firstn i m) = i) by (rewrite firstn_length; lia).
    rewrite IH.
    + f_equal.
      replace (S i) with (length (firstn i m ++ [c])) at 1
        by (rewrite app_length, Hf; cbn; lia).
      replace (firstn i m ++ c :: skipn (S i) m)
        with ((firstn i m ++ [c]) ++ skipn (S i) m)
        by (rewrite <- app_assoc; reflexivity).
      rewrite firstn_app, firstn_all, Nat.sub_diag. cbn [firstn].
      rewrite app_nil_r, <- app_assoc. cbn [app].
      f_equal. f_equal. f_equal.
      rewrite skipn_app.
      rewrite skipn_all2 by (rewrite app_length, Hf; cbn; lia).
      rewrite app_length, Hf. cbn [length app].
      replace (S i + length l - (i + 1)) with (length l) by lia.
      rewrite skipn_skipn_add. f_equal. lia.
    + rewrite app_length. cbn [length]. rewrite firstn_length, skipn_length. lia.
Qed.

Lemma store_seq_app l1 : forall m i l2,
  store_seq m i (l1 ++ l2) =
  match store_seq m i l1 with
  | Some m' => store_seq m' (i + length l1) l2
  | None => None
  end.
Proof.
  induction l1 as [|c l1 IH]; intros m i l2; cbn [store_seq app length].
  - rewrite Nat.add_0_r. reflexivity.
  - destruct (store m i c); [|reflexivity].
    rewrite IH. replace (S i + length l1) with (i + S (length l1)) by lia. reflexivity.
Qed.

Lemma cstr_nul_free l : nul_free l -> cstr l = l.
Proof.
  unfold nul_free; induction l as [|c l IH]; cbn; intros H; [reflexivity|].
  destruct (Ascii.eqb_spec c nul) as [E|E].
  - exfalso; apply H; left; assumption.
  - f_equal. apply IH. tauto.
Qed.

Lemma cstr_app_nul l r : nul_free l -> cstr (l ++ nul :: r) = l.
Proof.
  unfold nul_free; induction l as [|c l IH]; cbn [cstr app In]; intros H.
  - rewrite Ascii.eqb_refl. reflexivity.
  - destruct (Ascii.eqb_spec c nul) as [E|E].
    + exfalso; apply H; left; assumption.
    + f_equal. apply IH. tauto.
Qed.

Lemma nul_free_app l r : nul_free (l ++ r) <-> nul_free l /\ nul_free r.
Proof. unfold nul_free. rewrite in_app_iff. tauto. Qed.

Lemma cstr_is_nul_free l : nul_free (cstr l).
Proof.
  unfold nul_free. induction l as [|c l IH]; cbn; [tauto|].
  destruct (Ascii.eqb_spec c nul); cbn; [tauto|]. intros [?|?]; auto.
Qed.

Lemma ascii_forall (P : byte -> bool) :
  (forall n, n < 256 -> P (ascii_of_nat n) = true) -> forall c, P c = true.
Proof.
  intros H c. rewrite <- (ascii_nat_embedding c). apply H. apply nat_ascii_bounded.
Qed.

(** Finite sweep over the 256 byte values, lifted to all bytes. *)
Definition all_bytes : list byte := map ascii_of_nat (seq 0 256).

Lemma all_bytes_complete c : In c all_bytes.
Proof.
  unfold all_bytes. rewrite <- (ascii_nat_embedding c).
  apply in_map. apply in_seq. pose proof (nat_ascii_bounded c). lia.
Qed.

Lemma byte_sweep (P : byte -> bool) : forallb P all_bytes = true -> forall c, P c = true.
Proof. intros H c. rewrite forallb_forall in H. apply H, all_bytes_complete. Qed.

Lemma firstn_app_len {A} (a b : list A) k : k = length a -> firstn k (a ++ b) = a.
Proof.
  intros ->. rewrite firstn_app, firstn_all, Nat.sub_diag. cbn. apply app_nil_r.
Qed.

Lemma skipn_app_len {A} (a b : list A) k j : k = length a + j -> skipn k (a ++ b) = skipn j b.
Proof.
  intros ->. rewrite skipn_app, skipn_all2 by lia. cbn. f_equal. lia.
Qed.
