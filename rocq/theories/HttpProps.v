(** C74: an HTTP connection gives every request its own response, whole and unchanged, however
    the bytes arrive. *)
From Verif Require Import Base BaseFacts Ctype DecSpec HttpModel HttpSpec HttpProofs HttpProofs2 HttpProofs3.
Local Open Scope nat_scope.

(** Any requests are added at any times to a connection to a server that answers well-formed
    responses, and the bytes arrive in any portions.  Then
    - nothing fails, and the requests are sent in the order they were added;
    - what the users of the requests see, in this order, is the beginning of all that the server
      answered: status, headers and content of each request, and its end, and nothing else;
    - it is all of it when the connection is closed;
    - it is all of it, up to the end of the last request, when no bytes are left. *)
Theorem C74_responses (w : world) (a : answers) (l : list op) : good_server w a -> no_reset l ->
  exists s, run w hinit l = Ok s /\ failed s = false /\
    map fst (sent_in (log s)) = seq 1 (length (sent_in (log s))) /\
    (exists v, users (sent_in (log s)) ++ v = added l) /\
    (ok s = true -> users (sent_in (log s)) ++ map head (waiting s) = added l) /\
    exists rest, seen_in (log s) ++ rest = flat_map (wanted a) (answered a (sent_in (log s))) /\
      (ok s = false -> rest = []) /\
      (ok s = true -> inbuf s = [] -> wire s = [] -> fin s = false -> rest = [] \/ exists i, rest = [SDone i]).
Proof.
  intros G NR. destruct (run_inv w a G l hinit [] NR (init_inv w a)) as (s & E & K). exists s. split; [exact E|]. cbn [app] in K. destruct K as [K|(v & (O & F & S & N & u & Eu) & u2 & Eu2)].
  - destruct (inv_seen w a _ _ K) as (O & F & N & U & rest & S & Z). split; [exact F|]. split; [exact N|]. split; [eauto|]. split; [auto|]. exists rest. split; [exact S|]. split; [congruence|auto].
  - split; [exact F|]. split; [exact N|]. split; [exists (u ++ u2); rewrite app_assoc, Eu; exact Eu2|]. split; [congruence|]. exists []. rewrite app_nil_r. split; [exact S|]. split; [auto|congruence].
Qed.
Print Assumptions C74_responses.

(** In particular, for one request: its data is always a prefix of the content, and is the
    content when the request is done *)
Definition data_of (i : nat) (l : list event) : bytes := flat_map (fun e => match e with Data j b => if j =? i then b else [] | _ => [] end) l.
Definition bytes_of (i : nat) (l : list seen) : bytes := flat_map (fun e => match e with SByte j c => if j =? i then [c] else [] | _ => [] end) l.
Lemma data_of_seen i l : data_of i l = bytes_of i (seen_in l).
Proof.
  unfold data_of, bytes_of, seen_in. induction l as [|e l IH]; [reflexivity|]. cbn [flat_map]. rewrite flat_map_app, <- IH. f_equal.
  destruct e as [| | |j b|]; cbn; try reflexivity. destruct (j =? i) eqn:E.
  - induction b as [|c b IHb]; cbn; [reflexivity|]. rewrite E. cbn. rewrite <- IHb. reflexivity.
  - induction b as [|c b IHb]; cbn; [reflexivity|]. rewrite E. cbn. exact IHb.
Qed.
Lemma done_seen i l : In (SDone i) (seen_in l) <-> In (Done i) l.
Proof.
  unfold seen_in. rewrite in_flat_map. split.
  - intros (e & H & K). destruct e as [| | |j b|j]; cbn in K; try (intuition discriminate).
    + apply in_map_iff in K. destruct K as (c & K & _). discriminate.
    + destruct K as [K|[]]. injection K as <-. exact H.
  - intros H. exists (Done i). split; [exact H|left; reflexivity].
Qed.
Lemma bytes_wanted a i j q : bytes_of i (wanted a (j, q)) = if (j =? i) && negb (test q) then if head q then [] else body_data (what (fst (a j q))) else [].
Proof.
  unfold wanted. destruct (test q); [cbn; rewrite Bool.andb_false_r; reflexivity|]. rewrite Bool.andb_true_r. unfold bytes_of. cbn [flat_map app]. rewrite !flat_map_app. cbn [flat_map app]. rewrite app_nil_r.
  assert (E1 : forall l, flat_map (fun e => match e with SByte j c => if j =? i then [c] else [] | _ => [] end) (map (fun f => SHeader j (name f) (content f)) l) = []) by (intros l; induction l; [reflexivity|exact IHl]). rewrite E1. cbn [app].
  generalize (if head q then [] else body_data (what (fst (a j q)))). intros b. induction b as [|c b IH]; [destruct (j =? i); reflexivity|]. cbn [map flat_map]. rewrite IH. destruct (j =? i); reflexivity.
Qed.
Lemma answered_prefix a u : exists v, answered a u ++ v = u.
Proof. induction u as [|[i q] u [v IH]]; [exists []; reflexivity|]. cbn. destruct (snd (a i q)); [exists u; reflexivity|]. exists v. cbn. rewrite IH. reflexivity. Qed.
Lemma number_unique (u : list (nat * req)) n i q q' : map fst u = seq 1 n -> In (i, q) u -> In (i, q') u -> q = q'.
Proof.
  intros H. assert (N : NoDup (map fst u)) by (rewrite H; apply seq_NoDup). clear H. induction u as [|[j p] u IH]; intros H1 H2; [destruct H1|]. cbn in N. inversion N as [|? ? N1 N2]; subst.
  destruct H1 as [H1|H1]; destruct H2 as [H2|H2].
  - congruence.
  - exfalso. injection H1 as -> ->. apply N1. apply in_map_iff. exists (i, q'). auto.
  - exfalso. injection H2 as -> ->. apply N1. apply in_map_iff. exists (i, q). auto.
  - auto.
Qed.
Theorem C74_content (w : world) (a : answers) (l : list op) : good_server w a -> no_reset l ->
  exists s, run w hinit l = Ok s /\ forall i q k, In (Sent i q k) (log s) -> test q = false ->
    let body := if head q then [] else body_data (what (fst (a i q))) in
    (exists rest, data_of i (log s) ++ rest = body) /\ (In (Done i) (log s) -> data_of i (log s) = body).
Proof.
  intros G NR. destruct (C74_responses w a l G NR) as (s & E & _ & N & _ & _ & rest & S & _). exists s. split; [exact E|]. intros i q k H T body.
  assert (Hs : In (i, q) (sent_in (log s))) by (unfold sent_in; apply in_flat_map; exists (Sent i q k); split; [exact H|left; reflexivity]).
  rewrite data_of_seen, <- done_seen. destruct (answered_prefix a (sent_in (log s))) as (v & Ev). set (u := answered a (sent_in (log s))) in *. rewrite <- Ev in N, Hs. rewrite map_app in N.
  assert (Nd : NoDup (map fst (u ++ v))) by (rewrite map_app, N; apply seq_NoDup).
  assert (B0 : forall u' , ~ In i (map fst u') -> bytes_of i (flat_map (wanted a) u') = [] /\ ~ In (SDone i) (flat_map (wanted a) u')).
  { intros u'. induction u' as [|[j p] u' IH]; cbn [map fst flat_map In]; intros Ni; [split; [reflexivity|intros []]|]. destruct IH as [I1 I2]; [tauto|]. unfold bytes_of in *. rewrite flat_map_app, I1, app_nil_r.
    change (flat_map _ (wanted a (j, p))) with (bytes_of i (wanted a (j, p))). rewrite bytes_wanted. destruct (Nat.eqb_spec j i) as [->|Nj]; [tauto|]. split; [reflexivity|]. rewrite in_app_iff. intros [K|K]; [|tauto].
    unfold wanted in K. destruct (test p); [destruct K as [K|[]]; injection K; congruence|]. destruct K as [K|K]; [discriminate|]. rewrite !in_app_iff in K. destruct K as [K|[K|[K|[]]]].
    - apply in_map_iff in K. destruct K as (f & K & _). discriminate.
    - apply in_map_iff in K. destruct K as (f & K & _). discriminate.
    - injection K; congruence. }
  destruct (in_dec Nat.eq_dec i (map fst u)) as [Hi|Hi].
  - (* the request was answered *)
    assert (Hu : exists p, In (i, p) u) by (apply in_map_iff in Hi; destruct Hi as ((j & p) & <- & Hi); exists p; exact Hi). destruct Hu as (p & Hp).
    assert (p = q) by (apply (number_unique (u ++ v) (length (u ++ v)) i); [rewrite map_app; exact N|apply in_or_app; auto|exact Hs]). subst p.
    destruct (in_split _ _ Hp) as (u1 & u2 & Eu). rewrite Eu, flat_map_app in S. cbn [flat_map] in S.
    assert (N1 : ~ In i (map fst u1) /\ ~ In i (map fst u2)).
    { rewrite map_app, Eu, map_app in Nd. cbn [map fst] in Nd. rewrite <- app_assoc in Nd. cbn [app] in Nd. apply NoDup_remove_2 in Nd. rewrite !in_app_iff in Nd. tauto. }
    destruct N1 as [N1 N2]. destruct (B0 u1 N1) as [X1 X2]. destruct (B0 u2 N2) as [Y1 Y2].
    assert (Bw : bytes_of i (wanted a (i, q)) = body) by (rewrite bytes_wanted, Nat.eqb_refl, T; reflexivity).
    split.
    + exists (bytes_of i rest). unfold bytes_of. rewrite <- flat_map_app, S, !flat_map_app. fold (bytes_of i (flat_map (wanted a) u1)) (bytes_of i (wanted a (i, q))) (bytes_of i (flat_map (wanted a) u2)). rewrite X1, Y1, Bw, app_nil_r. reflexivity.
    + intros Hd.
      (* what is seen contains the end of the request: so all of [wanted] before it *)
      assert (K : forall p x z m, p ++ x = z ++ SDone i :: m -> In (SDone i) p -> ~ In (SDone i) z -> exists p', p = z ++ SDone i :: p').
      { clear. intros p x z. revert p. induction z as [|y z IH]; intros p m Ep Hp Hz.
        - destruct p as [|y p]; [destruct Hp|]. injection Ep as -> _. exists p. reflexivity.
        - destruct p as [|y' p]; [destruct Hp|]. injection Ep as -> Ep. destruct (IH p m Ep) as (p' & ->); [destruct Hp as [Hp|Hp]; [exfalso; apply Hz; left; exact Hp|exact Hp]|intros Q; apply Hz; right; exact Q|]. exists p'. reflexivity. }
      assert (We : exists z, wanted a (i, q) = z ++ [SDone i] /\ ~ In (SDone i) z /\ bytes_of i z = body).
      { unfold wanted in *. rewrite T in *. eexists (_ :: _ ++ _). split; [cbn [app]; rewrite <- app_assoc; reflexivity|]. split.
        - intros [K2|K2]; [discriminate|]. rewrite in_app_iff in K2. destruct K2 as [K2|K2]; apply in_map_iff in K2; destruct K2 as (f & K2 & _); discriminate.
        - unfold bytes_of in Bw |- *. cbn [flat_map app] in Bw |- *. rewrite !flat_map_app in *. cbn [flat_map] in Bw. rewrite !app_nil_r in Bw. exact Bw. }
      destruct We as (z & We & Nz & Bz). rewrite We in S. rewrite <- app_assoc in S. cbn [app] in S. rewrite app_assoc in S.
      destruct (K _ _ _ _ S Hd) as (p' & Ep); [rewrite in_app_iff; tauto|]. rewrite Ep in S |- *. rewrite <- app_assoc in S. apply app_inv_head in S. cbn [app] in S. injection S as S.
      unfold bytes_of. rewrite !flat_map_app. cbn [flat_map]. fold (bytes_of i (flat_map (wanted a) u1)) (bytes_of i z) (bytes_of i p'). rewrite X1, Bz. cbn [app].
      assert (bytes_of i p' = []) as ->; [|apply app_nil_r]. unfold bytes_of in *. rewrite <- S, flat_map_app in Y1. apply app_eq_nil in Y1. apply Y1.
  - (* it was not *)
    destruct (B0 u Hi) as [X1 X2]. rewrite <- S in X1, X2. unfold bytes_of in X1. rewrite flat_map_app in X1. apply app_eq_nil in X1. destruct X1 as [X1 _]. unfold bytes_of. rewrite X1. split; [exists body; reflexivity|].
    intros Hd. exfalso. apply X2. rewrite in_app_iff. auto.
Qed.
Print Assumptions C74_content.

(** *** What goes wrong *)
Definition say (s : string) : bytes := line (B s).
Definition plain (f : nat -> bytes) (c : bool) : world := World (fun i _ => (f i, c)) 10 false.
(** A body that is cut off by the server counts as done, without an error *)
Theorem C74_cut_refuted : exists w s, run w hinit [Add false; Exec [Bytes 1024]; Exec [Bytes 1024]; Exec [Bytes 1024]; Exec [Bytes 1024]; Exec [Bytes 1024]] = Ok s /\
  fst (serve w 1 (Req false false)) = say "HTTP/1.1 200 OK" ++ say "Content-Length: 10" ++ say "" ++ B "hello" /\
  data_of 1 (log s) = B "hello" /\ In (Done 1) (log s) /\ failed s = false.
Proof.
  exists (plain (fun _ => say "HTTP/1.1 200 OK" ++ say "Content-Length: 10" ++ say "" ++ B "hello") true). eexists. split; [vm_compute; reflexivity|]. split; [reflexivity|]. split; [vm_compute; reflexivity|]. split; [vm_compute; tauto|reflexivity].
Qed.
Print Assumptions C74_cut_refuted.

(** Framing in another spelling is not understood, so the request is never done: no space
    behind the colon, another case, a response that has no body *)
Definition more : list op := [Add false; Exec [Bytes 1024]; Exec [Bytes 1024]; Exec [Bytes 1024]; Exec [Bytes 1024]; Exec [Bytes 1024]; Exec [Bytes 1024]].
Theorem C74_spelling_refuted :
  (forall t, In t [say "HTTP/1.1 200 OK" ++ say "Content-Length:5" ++ say "" ++ B "hello";
                   say "HTTP/1.1 200 OK" ++ say "Transfer-Encoding: Chunked" ++ say "" ++ say "5" ++ say "hello" ++ say "0" ++ say "";
                   say "HTTP/1.1 204 No Content" ++ say "";
                   say "HTTP/1.1 304 Not Modified" ++ say ""] ->
     exists s, run (plain (fun _ => t) false) hinit more = Ok s /\ inbuf s = [] /\ wire s = [] /\ ok s = true /\ ~ In (Done 1) (log s)) /\
  (** and a colon in the reason makes the status a header *)
  (exists s, run (plain (fun _ => say "HTTP/1.1 404 Not Found: x" ++ say "Content-Length: 0" ++ say "") false) hinit more = Ok s /\
     log s = [Sent 1 (Req false false) true; Header 1 (B "HTTP/1.1 404 Not Found") (B "x"); Header 1 (B "Content-Length") (B "0"); Data 1 []; Done 1]).
Proof.
  split.
  - intros t H. repeat (destruct H as [<-|H]; [eexists; split; [vm_compute; reflexivity|]; split; [reflexivity|]; split; [reflexivity|]; split; [reflexivity|]; vm_compute; intuition discriminate|]). destruct H.
  - eexists. split; vm_compute; reflexivity.
Qed.
Print Assumptions C74_spelling_refuted.

Lemma tight_check s : match s with [] => true | c :: _ => negb (isspace c) && negb (isspace (last s nul)) end = true -> tight s.
Proof.
  intros H. split; intros c r ->.
  - apply andb_prop in H. destruct H as [H _]. destruct (isspace c); [discriminate|reflexivity].
  - rewrite last_last in H. destruct (r ++ [c]) as [|x y] eqn:E; [destruct r; discriminate|]. apply andb_prop in H. destruct H as [_ H]. destruct (isspace c); [discriminate|reflexivity].
Qed.
Ltac good_atom :=
  match goal with
  | |- tight _ => apply tight_check; vm_compute; reflexivity
  | |- in_line _ => split; vm_compute; intuition discriminate
  | |- ~ In _ _ => vm_compute; intuition discriminate
  | |- _ <> _ => vm_compute; discriminate
  | |- digit _ => unfold digit; vm_compute; lia
  | |- ~ blanks _ => let H := fresh in intros H; apply Forall_inv in H; vm_compute in H; discriminate
  | |- (_ < _)%Z => vm_compute; reflexivity
  | |- True => exact I
  | |- Forall _ [] => constructor
  | |- Forall _ _ => constructor
  | |- blanks _ => unfold blanks
  | |- good_body _ => cbn [good_body]
  | |- _ /\ _ => split
  | |- good_field _ => unfold good_field
  | |- neutral_field _ => unfold neutral_field
  | |- good_chunk _ => unfold good_chunk
  | |- hex_number _ => unfold hex_number
  | |- digit _ \/ _ => first [right; reflexivity | left; unfold digit; vm_compute; lia]
  | |- _ => vm_compute; tauto
  | |- _ => vm_compute; reflexivity
  end.
Ltac good_resp := unfold good_response; cbn [version code reason fields1 fields2 what]; repeat good_atom.
(** An error of the connection can abort the program: when all requests that may be sent are
    done and another one waits.  And the header line that it cuts off is given, as it is, to the
    next request. *)
Definition wrong_head : world := World (fun i q =>
  ((if test q then say "HTTP/1.1 404 Not Found" ++ say "" else if i =? 3 then say "HTTP/1.1 200 OK" ++ say "Tag: 12345" ++ say "" else say "HTTP/1.1 200 OK" ++ say "Content-Length: 0" ++ say ""), false)) 10 true.
Theorem C74_reset_refuted :
  (exists w, good_server w (fun _ _ => (Response (B "1.1") (B "200") (B "OK") [] (Sized (B "2") (B "hi")) [], false)) /\
     run w hinit [Add false; Add false; Exec [Bytes 1024]; Exec [Bytes 1024]; Exec [Bytes 1024]; Exec [Bytes 1024]; Exec [Reset]] = Fault) /\
  (exists w s, run w hinit ([Add false; Add false; Add false] ++ repeat (Exec [Bytes 1]) 89 ++ [Exec [Reset]]) = Ok s /\
     map (fun i => fst (serve w i (Req false false))) [3; 4] = [say "HTTP/1.1 200 OK" ++ say "Tag: 12345" ++ say ""; say "HTTP/1.1 200 OK" ++ say "Content-Length: 0" ++ say ""] /\
     In (Header 4 (B "Tag") (B "12")) (log s)).
Proof.
  split.
  - exists (World (fun i q => (text (head q) (Response (B "1.1") (B "200") (B "OK") [] (Sized (B "2") (B "hi")) []), false)) 1 false). split; [|vm_compute; reflexivity].
    split; [reflexivity|]. split; [|split; [discriminate|split; [discriminate|discriminate]]]. intros _ _. cbn [fst]. good_resp.
  - exists wrong_head. eexists. split; [vm_compute; reflexivity|]. split; [reflexivity|]. vm_compute. tauto.
Qed.
Print Assumptions C74_reset_refuted.

(** A server that answers a request as it answers the test of pipelining is taken for one that
    cannot do it: the connection is closed and the response thrown away *)
Theorem C74_same_refuted : exists w s, pipelining w = true /\ run w hinit (Add false :: repeat (Exec [Bytes 1024]) 8) = Ok s /\
  (forall i q, serve w i q = (text (head q) (Response (B "1.1") (B "404") (B "Not Found") [] (Sized (B "2") (B "no")) []), false)) /\
  ok s = false /\ broken s = true /\ seen_in (log s) = [SDone 1] /\ sent_in (log s) = [(1, Req true true); (2, Req false false); (3, Req true true)].
Proof.
  exists (World (fun i q => (text (head q) (Response (B "1.1") (B "404") (B "Not Found") [] (Sized (B "2") (B "no")) []), false)) 10 true). eexists. split; [reflexivity|].
  split; [vm_compute; reflexivity|]. split; [reflexivity|]. split; [reflexivity|]. split; [reflexivity|]. split; reflexivity.
Qed.
Print Assumptions C74_same_refuted.

(** *** An example: pipelining, a chunked response, one to a HEAD, one that ends the connection *)
Definition ex_answers : answers := fun i q =>
  if test q then (Response (B "1.1") (B "404") (B "Not Found") [] (Sized (B "3") (B "no!")) [], false)
  else match i with
       | 2 => (Response (B "1.1") (B "200") (B "OK") [Field (B "Server") (B "  ") (B "a b") (B " ")]
                 (InChunks [Chunk (B "3") (B ";x=y") (B "abc"); Chunk (B "0A") [] (B "0123456789")] (Chunk (B "00") [] []) [B "T: u"]) [Field (B "E") [] [] []], false)
       | 3 => (Response (B "1.1") (B "200") (B "OK") [] (Sized (B "5") (B "hello")) [], false)
       | 4 => (Response (if head q then B "1.1" else B "1.0") (B "301") (B "Moved") [] (ToTheEnd (B "bye")) [], true)
       | _ => (Response (B "1.1") (B "500") (B "Error") [] (Sized (B "0") []) [], true)
       end.
Definition ex_world : world := World (fun i q => (text (head q) (fst (ex_answers i q)), snd (ex_answers i q))) 10 true.
Example C74_example_good : good_server ex_world ex_answers.
Proof.
  split; [reflexivity|]. split; [|split; [|split]].
  - intros i q. unfold ex_answers. destruct (test q); [cbn [fst]; good_resp|]. destruct (head q), i as [|[|[|[|[|[|i]]]]]]; cbn [fst]; good_resp.
  - intros i q t Hq. unfold ex_answers. destruct (test q); [discriminate|]. destruct i as [|[|[|[|[|[|i]]]]]]; cbn; congruence.
  - intros i q Hq. unfold ex_answers. rewrite Hq. destruct (test q); [discriminate|]. destruct i as [|[|[|[|[|[|i]]]]]]; discriminate.
  - intros _. exists (B "HTTP/1.1 404 Not Found"). intros i q. unfold ex_answers. destruct (test q); [reflexivity|]. destruct (head q), i as [|[|[|[|[|[|i]]]]]]; cbn; split; vm_compute; discriminate.
Qed.
Example C74_example : exists s, run ex_world hinit ([Add false; Add true; Add false] ++ repeat (Exec [Bytes 1; Bytes 2; Bytes 7]) 80) = Ok s /\ ok s = false /\
  sent_in (log s) = [(1, Req true true); (2, Req false false); (3, Req true false); (4, Req false false); (5, Req true true)] /\
  users (sent_in (log s)) = [false; true; false] /\
  (data_of 2 (log s), data_of 3 (log s), data_of 4 (log s)) = (B "abc0123456789", [], B "bye") /\ (In (Done 2) (log s) /\ In (Done 3) (log s) /\ In (Done 4) (log s)).
Proof. eexists. split; [vm_compute; reflexivity|]. vm_compute. tauto. Qed.
