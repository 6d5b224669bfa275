(** C88: WvProtoStream splits a line into its words. *)
From Verif Require Import Base Ctype UrlModel IniSpec IniProofs ConfSpec ConfProofs2 ProtoSpec ProtoModel ProtoProofs.
Local Open Scope char_scope.

(** tokenize() gives the words of the line; a line has only one list of words. *)
Theorem C88_tokenize : forall s, ~ In "000" s -> exists buf ts, tokenize s = Ok (buf, ts) /\ words s ts /\ forall us, words s us -> us = ts.
Proof.
  intros s N. destruct (tokenize_ok (S (length s)) s N) as (buf & ts & T & _ & W); [lia|]. exists buf, ts. split; [exact T|]. split; [exact W|].
  intros us U. eapply words_unique; eassumption.
Qed.
Print Assumptions C88_tokenize.

(** Taking the words one by one, and then the rest of the line, loses nothing. *)
Theorem C88_first : forall s, ~ In "000" s ->
  match tokline s with
  | (r, Some w) => exists a, s = a ++ w ++ r /\ Forall sep a /\ word w /\ (forall c r', r = c :: r' -> sep c) /\
      exists b c, r = b ++ snd (token_remaining r) ++ c /\ Forall white b /\ Forall white c /\ trimmed (snd (token_remaining r))
  | (_, None) => Forall sep s
  end.
Proof.
  intros s N. unfold tokline. destruct (next_cases s N) as [[F E]|(a & w & r & -> & A & W & R & E)]; rewrite E; [exact F|].
  exists a. split; [reflexivity|]. split; [exact A|]. split; [exact W|]. split; [intros c r' ->; exact R|].
  cbn [token_remaining snd]. destruct (trim_parts r) as (b & c & X & B1 & B2 & T). exists b, c. split; [exact X|].
  assert (G : forall l, Forall (fun c => isspace c = true) l -> Forall white l) by (intros l H; eapply Forall_impl; [|exact H]; intros x; apply white_isspace).
  auto.
Qed.
Print Assumptions C88_first.

(** tokanal() gives the place of the first entry that is the same. *)
Theorem C88_tokanal : forall t lookup cs,
  (tokanal t lookup cs = (-1)%Z /\ forall l, In l lookup -> ~ matches cs t l) \/
  (exists a l b, lookup = a ++ l :: b /\ tokanal t lookup cs = Z.of_nat (length a) /\ matches cs t l /\ forall x, In x a -> ~ matches cs t x).
Proof. intros. destruct (tokanal_ok cs t lookup 0%Z) as [H|H]; [left; exact H|right]. exact H. Qed.
Print Assumptions C88_tokanal.

Example C88_ex :
  tokenize (B "  RETR	 my file") = Ok ([], [B "RETR"; B "my"; B "file"]) /\
  tokline (B "retr  my file  ") = (B "  my file  ", Some (B "retr")) /\
  token_remaining (B "  my file  ") = ([], B "my file") /\
  tokanal (B "retr") [B "STOR"; B "RETR"; B "RETR"] false = 1%Z /\ tokanal (B "retr") [B "RETR"] true = (-1)%Z.
Proof. vm_compute. auto 10. Qed.
