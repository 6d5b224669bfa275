(** C21: splitting and joining string lists. *)
From Verif Require Import Base SplitModel SplitSpec SplitProofs.
Local Open Scope nat_scope.

(** Joining the pieces of a strict split with the separator restores the text,
    whatever the limit. *)
Theorem C21_strict_join : forall s c limit,
  c <> nul -> nul_free s -> (Z.of_nat (length s) < 2 ^ 60)%Z ->
  exists l, splitstrict [] (Some s) [c] limit = Ok l /\ join (map Some l) [c] = Ok s.
Proof.
  intros s c limit Hc Hn Hz. destruct (splitstrict_ok [] s [c] limit Hn) as (l & E & F).
  exists l. split; [exact E|]. exact (join_of_strict c limit s l Hc Hn Hz F).
Qed.
Print Assumptions C21_strict_join.
Example C21_strict_join_ex :
  splitstrict [] (Some (B "a::b:")) [":"%char] 0 = Ok [B "a"; B ""; B "b"; B ""] /\
  splitstrict [] (Some (B "a::b:")) [":"%char] 2 = Ok [B "a"; B ":b:"] /\
  join (map Some [B "a"; B ":b:"]) [":"%char] = Ok (B "a::b:").
Proof. vm_compute. auto. Qed.

(** A strict split appends exactly the fields of the text: separated by single
    delimiter characters, free of delimiters, at most [limit] of them. *)
Theorem C21_strict_fields : forall coll s set limit,
  nul_free s ->
  exists l, splitstrict coll (Some s) set limit = Ok (coll ++ l) /\
    strict_fields set limit s l /\ (forall l', strict_fields set limit s l' -> l' = l).
Proof.
  intros coll s set limit Hn. destruct (splitstrict_ok coll s set limit Hn) as (l & E & F).
  exists l. split; [exact E|]. split; [exact F|]. intros l' F'. exact (strict_unique set l' l limit s F' F).
Qed.
Print Assumptions C21_strict_fields.
Example C21_strict_fields_ex :
  splitstrict [B "x"] (Some (B "i:am colon")) (B " :") 0 = Ok [B "x"; B "i"; B "am"; B "colon"].
Proof. vm_compute. reflexivity. Qed.

(** A split appends exactly the fields separated by runs of delimiters. *)
Theorem C21_split_fields : forall coll s set limit,
  nul_free s ->
  exists l, split coll (Some s) set limit = Ok (coll ++ l) /\
    run_fields set limit s l /\ (forall l', run_fields set limit s l' -> l' = l).
Proof.
  intros coll s set limit Hn. destruct (split_ok coll s set limit Hn) as (l & E & F).
  exists l. split; [exact E|]. split; [exact F|]. intros l' F'. exact (run_unique set l' l limit s F' F).
Qed.
Print Assumptions C21_split_fields.
Example C21_split_fields_ex :
  split [] (Some (B " happy birthday  to  you")) (B " ") 0 = Ok [B ""; B "happy"; B "birthday"; B "to"; B "you"] /\
  split [] (Some (B "i:am colon  :separated::")) (B " :") 3 = Ok [B "i"; B "am"; B "colon  :separated::"].
Proof. vm_compute. auto. Qed.

(** Without a limit a split is the strict split less the empty fields other than
    the first and the last. *)
Theorem C21_split_drops_empty : forall s set limit f,
  nul_free s -> (limit <= 0)%Z ->
  splitstrict [] (Some s) set limit = Ok f -> split [] (Some s) set limit = Ok (kept f).
Proof.
  intros s set limit f Hn Hl E.
  destruct (splitstrict_ok [] s set limit Hn) as (l & E1 & F1).
  destruct (split_ok [] s set limit Hn) as (l2 & E2 & F2).
  rewrite E1 in E. cbn [app] in E, E2. injection E as <-. rewrite E2. f_equal.
  apply (run_unique set _ _ limit s F2). apply kept_ok; assumption.
Qed.
Print Assumptions C21_split_drops_empty.
Example C21_split_drops_empty_ex :
  kept [B ""; B ""; B "a"; B ""; B "b"; B ""; B ""] = [B ""; B "a"; B "b"; B ""].
Proof. vm_compute. reflexivity. Qed.

(** Null strings contribute no piece. *)
Theorem C21_null : forall coll set limit,
  split coll None set limit = Ok coll /\ splitstrict coll None set limit = Ok coll.
Proof. intros. split; reflexivity. Qed.
Print Assumptions C21_null.

(** Joining a non-empty list gives its elements with the separator between
    neighbours, null elements counting as empty; nothing is written outside the
    buffer. *)
Theorem C21_join : forall l sep,
  l <> [] -> nul_free sep -> Forall (fun s => nul_free (text_of s)) l ->
  (Z.of_nat (size_of sep (map text_of l)) < 2 ^ 61)%Z ->
  join l sep = Ok (joined sep (map text_of l)).
Proof. exact join_ok. Qed.
Print Assumptions C21_join.
Example C21_join_ex :
  join [Some (B "a"); None; Some (B "b")] (B ", ") = Ok (B "a, , b").
Proof. vm_compute. reflexivity. Qed.

(** Joining an empty list works exactly for separators of at most two bytes;
    for longer ones the length wraps below zero and the buffer is too small. *)
Theorem C21_join_empty : forall sep,
  (Z.of_nat (length sep) < 2 ^ 62)%Z ->
  join [] sep = if length sep <=? 2 then Ok [] else Fault.
Proof. exact join_empty. Qed.
Print Assumptions C21_join_empty.

Theorem C21_join_empty_refuted : exists sep, nul_free sep /\ join [] sep = Fault.
Proof. exists (B " - "). split; [unfold nul_free; cbn; intuition discriminate|vm_compute; reflexivity]. Qed.
Print Assumptions C21_join_empty_refuted.
