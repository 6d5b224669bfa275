(** C100: digests and checksums. *)
From Verif Require Import Base BaseFacts DigSpec DigModel DigProofs.
From Coq Require Import NArith.
Local Open Scope N_scope.

(** Which digest computes which function; [h] is any hash function, such as MD5, SHA-1,
    or HMAC with some key. *)
Inductive digest : algo -> (bytes -> bytes) -> Prop :=
| D_hash h : digest (evp h) h
| D_crc : digest crc32 (fun d => be32 (crc d))
| D_adler : digest adler32 (fun d => be32 (adler d)).
Lemma digest_lawful A g : digest A g -> exists f, lawful A g f.
Proof. intros []; eexists; [apply evp_lawful|apply crc_lawful|apply adler_lawful]. Qed.

(** Any history of calls: what comes out is the digest of all the data since the last
    reset, however it was cut into calls and pieces, once; no assertion fails. *)
Theorem C100_history A g l : digest A g -> exists e, run (new A) l = Ok (e, expect g l [] false).
Proof. intros D. destruct (digest_lawful A g D) as (f & W). destruct (run_at A g f W l _ _ _ (new_at A g f W)) as (e & d & n & E & _). exists e. exact E. Qed.
(** So data cut in two ways, in calls or in pieces, gives the same digest. *)
Theorem C100_pieces A g ps qs : digest A g -> concat ps = concat qs ->
  exists e1 e2, run (new A) (map (fun p => Encode [p] true false) ps ++ [Finish]) = Ok (e1, g (concat ps)) /\ run (new A) [Encode qs false false; Finish] = Ok (e2, g (concat ps)).
Proof.
  intros D C.
  assert (E1 : forall d, expect g (map (fun p => Encode [p] true false) ps ++ [Finish]) d false = g (d ++ concat ps)).
  { clear. induction ps as [|p ps IH]; intros d; cbn [map app expect concat]; [rewrite !app_nil_r; reflexivity|]. rewrite IH, app_nil_r, <- app_assoc. reflexivity. }
  destruct (C100_history A g (map (fun p => Encode [p] true false) ps ++ [Finish]) D) as (e1 & R1). destruct (C100_history A g [Encode qs false false; Finish] D) as (e2 & R2). rewrite E1 in R1. cbn [expect app] in R1, R2. rewrite app_nil_r, <- C in R2. exists e1, e2. auto.
Qed.
(** All input is taken until finish, and none after. *)
Theorem C100_input A g l e out i fl fin : digest A g -> run (new A) l = Ok (e, out) ->
  exists e' ok left_ out', encode e i fl fin = Ok (e', ok, left_, out') /\
    (finished e = true -> ok = false /\ left_ = i /\ out' = []) /\
    (finished e = false -> concat left_ = [] /\ (ok = true <-> concat i <> [] \/ fl = true)).
Proof.
  intros D R. destruct (digest_lawful A g D) as (f & W).
  destruct (run_at A g f W l _ _ _ (new_at A g f W)) as (e1 & d & n & E & I). rewrite R in E. injection E as <- _. destruct (encode_at A g f W e d n i fl fin I) as (e' & ok & E & I' & K). pose proof I as (_ & F & _). exists e', ok. eexists _, _. split; [exact E|]. rewrite F. split; intros ->.
  - rewrite Bool.andb_false_r. cbn [orb]. split; [|auto]. destruct ok; [|reflexivity]. destruct (proj1 K eq_refl). discriminate.
  - cbn [orb]. split; [|tauto]. destruct (Nat.eqb_spec (length (concat i)) 0) as [Z|Z]; [|reflexivity]. apply length_zero_iff_nil in Z. destruct fl; [reflexivity|exact Z].
Qed.
(** CRC-32 finds every change of up to four bytes in a row, wherever they are. *)
Theorem C100_burst p a b q : length a = length b -> (length a <= 4)%nat -> a <> b -> crc (p ++ a ++ q) <> crc (p ++ b ++ q).
Proof. apply crc_burst. Qed.

(** encode() with nothing to encode and with finish writes the digest but reports failure. *)
Theorem C100_status_refuted h : exists e, encode (new (evp h)) [] false true = Ok (e, false, [], h []).
Proof. eexists. reflexivity. Qed.

Definition comes_out {A} (r : res (enc A * bytes)) : option bytes := match r with Ok (_, out) => Some out | _ => None end.
Example C100_ex_crc : comes_out (run (new crc32) [Encode [B "12"; B "345"] false false; Encode [B "6789"] true true; Finish; Encode [B "x"] true true]) = Some (map ascii_of_N [203; 244; 57; 38]).
Proof. vm_compute. reflexivity. Qed.
Example C100_ex_adler : comes_out (run (new adler32) [Encode [B "x"] true false; Reset; Encode [B "Wiki"; B "pedia"] true true]) = Some (map ascii_of_N [17; 230; 3; 152]).
Proof. vm_compute. reflexivity. Qed.
Example C100_ex_burst : length (B "def") = length (B "XYZ") /\ B "def" <> B "XYZ" /\ adler (B "Wikipedia") = 300286872.
Proof. split; [reflexivity|]. split; [discriminate|vm_compute; reflexivity]. Qed.

Print Assumptions C100_history.
Print Assumptions C100_pieces.
Print Assumptions C100_input.
Print Assumptions C100_burst.
Print Assumptions C100_status_refuted.
