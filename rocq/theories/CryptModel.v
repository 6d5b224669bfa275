(** Models of crypto/wvxor.cc and crypto/wvcountermode.cc. *)
From Verif Require Import Base EncoderModel.

(** [^] on unsigned char *)
Definition bxor (a b : byte) : byte :=
  match a, b with
  | Ascii a0 a1 a2 a3 a4 a5 a6 a7, Ascii b0 b1 b2 b3 b4 b5 b6 b7 =>
      Ascii (xorb a0 b0) (xorb a1 b1) (xorb a2 b2) (xorb a3 b3)
            (xorb a4 b4) (xorb a5 b5) (xorb a6 b6) (xorb a7 b7)
  end.

(** crypto/wvxor.cc:27-42: the loop; reading outside the key or [%= 0] is a
    fault.  The output buffer is a WvDynBuf. *)
Fixpoint xor_loop (key : bytes) (keyoff : nat) (data : bytes) : option (nat * bytes) :=
  match data with
  | [] => Some (keyoff, [])
  | c :: r =>
      match nth_error key keyoff with
      | None => None
      | Some k =>
          if length key =? 0 then None else
          match xor_loop key (S keyoff mod length key) r with
          | Some (off, o) => Some (off, bxor c k :: o)
          | None => None
          end
      end
  end.

(** crypto/wvxor.cc:13-42 *)
Definition XOREncoder (key : bytes) : encoder :=
  Encoder nat 0
    (fun off inp _ =>
       let! (off', out) := of_opt (xor_loop key off inp) in
       Ok (EncOut off' [] out true false false))
    (fun _ => Ok ([], true)).

(** crypto/wvcountermode.cc:40-43: [for (i < countersize && ! ++counter[i])] *)
Fixpoint incrcounter (counter : bytes) : bytes :=
  match counter with
  | [] => []
  | c :: r => let c' := ascii_of_nat ((nat_of_ascii c + 1) mod 256) in
              if Ascii.eqb c' nul then c' :: incrcounter r else c' :: r
  end.

Section CounterMode.
(** The underlying encoder applied to one counter block with flush; [None] when
    encode() returns false.  Simplifications: it keeps no state between blocks
    and writes nothing when it fails. *)
Variable keycrypt : bytes -> option bytes.

(** crypto/wvcountermode.cc:53-61: key stream for the whole blocks; returns
    remaining length, counter, key stream, success.  A countersize of 0 makes
    the loop endless: NoFuel. *)
Fixpoint keystream (fuel : nat) (counter : bytes) (len : nat) : res (nat * bytes * bytes * bool) :=
  if len <? length counter then Ok (len, counter, [], true) else
  match fuel with
  | O => NoFuel
  | S fuel =>
      match keycrypt counter with
      | None => Ok (len, counter, [], false)
      | Some k =>
          let! (len', c', ks, ok) := keystream fuel (incrcounter counter) (len - length counter) in
          Ok (len', c', k ++ ks, ok)
      end
  end.

Fixpoint xor_zip (a b : bytes) : bytes :=
  match a, b with x :: a', y :: b' => bxor x y :: xor_zip a' b' | _, _ => [] end.

(** crypto/wvcountermode.cc:46-101.  The key stream is appended to the output
    buffer and the data is then xored into it in place, so the bytes appended
    are the xor.  If the key stream bytes and the data bytes to be used do not
    correspond, the peek at the output fails: [Fault]. *)
Definition ctr_encode (counter inp : bytes) (flush : bool) : res (enc_out bytes) :=
  let avail := length inp in
  let! (len, c, ks, ok) := keystream avail counter avail in
  let! (len, c, ks, ok) :=
    (if flush && negb (len =? 0) && ok then
       match keycrypt c with
       | Some k =>
           (* outbuf.unalloc(countersize - len) *)
           if length c - len <=? length k
           then Ok (0, incrcounter c, ks ++ firstn (length k - (length c - len)) k, ok)
           else Fault
       | None => (* outbuf.unalloc(used - offset - avail): negative, wraps around *) Fault
       end
     else Ok (len, c, ks, ok)) in
  let avail := avail - len in
  if length ks =? avail
  then Ok (EncOut c (skipn avail inp) (xor_zip (firstn avail inp) ks) ok false false)
  else Fault.

Definition CounterModeEncoder (counter : bytes) : encoder :=
  Encoder bytes counter (fun c inp flush => ctr_encode c inp flush) (fun _ => Ok ([], true)).
End CounterMode.
