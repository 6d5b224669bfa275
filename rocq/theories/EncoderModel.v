(** Model of the encoder driver utils/wvencoder.cc (class WvEncoder), generic
    in the concrete encoder. *)
From Verif Require Import Base.

(** What one virtual [_encode] call does: new private state, bytes left in the
    input buffer, bytes appended to the output buffer, return value, whether
    [seterror] was called, whether [setfinished] was called.  The output buffer
    is a WvDynBuf (never full); encoders that look at the free space of the
    output have their own model. *)
Record enc_out (S : Type) := EncOut
  { o_st : S; o_rest : bytes; o_out : bytes; o_ret : bool; o_err : bool; o_fin : bool }.
Arguments EncOut {S}. Arguments o_st {S}. Arguments o_rest {S}. Arguments o_out {S}.
Arguments o_ret {S}. Arguments o_err {S}. Arguments o_fin {S}.

Record encoder := Encoder
  { enc_state : Type;
    enc_init : enc_state;                                  (* constructor / _reset *)
    enc_encode : enc_state -> bytes -> bool -> res (enc_out enc_state);
    enc_finish : enc_state -> res (bytes * bool) }.        (* _finish: output, return *)

(** include/wvencoder.h: the flags of the base class and the private state. *)
Record est (E : encoder) := Est { okay : bool; finished : bool; st : enc_state E }.
Arguments Est {E}. Arguments okay {E}. Arguments finished {E}. Arguments st {E}.

(** utils/wvencoder.cc:11-15 and 60-74 *)
Definition est_init (E : encoder) : est E := Est true false (enc_init E).

(** utils/wvencoder.cc:49-57: finish(). *)
Definition enc_do_finish (E : encoder) (s : est E) : res (est E * bytes * bool) :=
  if okay s && negb (finished s) then
    let! (out, r) := enc_finish E (st s) in
    Ok (Est (okay s) true (st s), out, r)
  else Ok (Est (okay s) true (st s), [], false).

(** utils/wvencoder.cc:36-46: encode(); result: state, bytes left in the input
    buffer, bytes appended to the output buffer, return value. *)
Definition enc_do_encode (E : encoder) (s : est E) (inp : bytes) (flush fin : bool)
  : res (est E * bytes * bytes * bool) :=
  let success := okay s && negb (finished s) &&
                 (negb (match inp with [] => true | _ => false end) || flush) in
  let! (s1, rest, out, success) :=
    (if success then
       let! o := enc_encode E (st s) inp flush in
       Ok (Est (okay s && negb (o_err o)) (finished s || o_fin o) (o_st o),
           o_rest o, o_out o, o_ret o)
     else Ok (s, inp, [], false)) in
  if fin then
    let! (s2, out2, r) := enc_do_finish E s1 in
    Ok (s2, rest, out ++ out2, r && success)
  else Ok (s1, rest, out, success).

(** A user feeding an encoder: before each call some bytes are appended to the
    input buffer; each call may ask for a flush.  Returns final state, what is
    left in the input buffer, all output, and the return values. *)
Fixpoint feed (E : encoder) (s : est E) (inp : bytes) (calls : list (bytes * bool))
  : res (est E * bytes * bytes * list bool) :=
  match calls with
  | [] => Ok (s, inp, [], [])
  | (chunk, flush) :: r =>
      let! (s1, rest, out, b) := enc_do_encode E s (inp ++ chunk) flush false in
      let! (s2, rest2, out2, bs) := feed E s1 rest r in
      Ok (s2, rest2, out ++ out2, b :: bs)
  end.

(** ... and finally calling finish(). *)
Definition feed_finish (E : encoder) (calls : list (bytes * bool))
  : res (bytes * bytes) :=
  let! (s, rest, out, _) := feed E (est_init E) [] calls in
  let! (_, out2, _) := enc_do_finish E s in
  Ok (rest, out ++ out2).

(** All bytes given to a sequence of calls. *)
Definition fed (calls : list (bytes * bool)) : bytes := concat (map fst calls).
