(** Model of utils/wvbase64.cc. *)
From Verif Require Import Base EncoderModel.
Local Open Scope N_scope.

Definition code (c : byte) : N := N_of_ascii c.

(** utils/wvbase64.cc:18-19: 66 characters and the terminating NUL. *)
Definition alphabet : bytes :=
  B "ABCDEFGHIJKLMNOPQRSTUVWXYZabcdefghijklmnopqrstuvwxyz0123456789+/=" ++ [newline; nul].
(** Indexing outside the array is a fault. *)
Definition alpha (i : N) : option byte := nth_error alphabet (N.to_nat i).

(** utils/wvbase64.cc:22-40; -1 is [None]. *)
Definition lookup (c : byte) : option N :=
  let ch := code c in
  if (code "A" <=? ch) && (ch <=? code "Z") then Some (ch - code "A")
  else if (code "a" <=? ch) && (ch <=? code "z") then Some (ch - code "a" + 26)
  else if (code "0" <=? ch) && (ch <=? code "9") then Some (ch - code "0" + 52)
  else if ch =? code "+" then Some 62
  else if ch =? code "/" then Some 63
  else if ch =? code "=" then Some 64
  else if (ch =? 10) || (ch =? 32) || (ch =? 13) || (ch =? 9) || (ch =? 12) || (ch =? 11)
  then Some 65
  else None.

(** include/wvbase64.h:22-26.  [bits] is an unsigned int; it never exceeds 14
    bits in the encoder (proved), so no wrap-around is written. *)
Inductive estate := EAT0 | EAT2 | EAT4.
Record b64e := B64E { be_state : estate; be_bits : N }.

(** utils/wvbase64.cc:64-84: one input byte. *)
Definition b64e_step (s : b64e) (c : byte) : option (b64e * bytes) :=
  let bits := N.lor (N.shiftl (be_bits s) 8) (code c) in
  match be_state s with
  | EAT0 => match alpha (N.shiftr bits 2) with
            | Some a => Some (B64E EAT2 (N.land bits 3), [a])
            | None => None end
  | EAT2 => match alpha (N.shiftr bits 4) with
            | Some a => Some (B64E EAT4 (N.land bits 15), [a])
            | None => None end
  | EAT4 => match alpha (N.shiftr bits 6), alpha (N.land bits 63) with
            | Some a, Some b => Some (B64E EAT0 0, [a; b])
            | _, _ => None end
  end.

Fixpoint b64e_loop (s : b64e) (inp : bytes) : option (b64e * bytes) :=
  match inp with
  | [] => Some (s, [])
  | c :: r => match b64e_step s c with
              | None => None
              | Some (s', o) => match b64e_loop s' r with
                                | None => None
                                | Some (s'', o') => Some (s'', o ++ o')
                                end
              end
  end.

Definition b64e_at0 (s : b64e) : bool := match be_state s with EAT0 => true | _ => false end.

(** utils/wvbase64.cc:93-111 *)
Definition b64e_finish (s : b64e) : res (bytes * bool) :=
  match be_state s with
  | EAT2 => let! a := of_opt (alpha (N.shiftl (be_bits s) 4)) in Ok ([a; "="%char; "="%char], true)
  | EAT4 => let! a := of_opt (alpha (N.shiftl (be_bits s) 2)) in Ok ([a; "="%char], true)
  | EAT0 => Ok ([], true)
  end.

(** utils/wvbase64.cc:51-90 *)
Definition Base64Encoder : encoder :=
  Encoder b64e (B64E EAT0 0)
    (fun s inp flush =>
       let! (s', out) := of_opt (b64e_loop s inp) in
       Ok (EncOut s' [] out (negb (flush && negb (b64e_at0 s'))) false false))
    b64e_finish.

(** include/wvbase64.h:51-55 *)
Inductive dstate := DAT0 | DAT2 | DAT4 | DAT6 | DPAD.
Record b64d := B64D { bd_state : dstate; bd_bits : N }.

(** putch: conversion of an int to unsigned char. *)
Definition putch (n : N) : byte := ascii_of_N (n mod 256).

(** utils/wvbase64.cc:134-184: state, rest of input, output, and the two
    effects: 0 = go on, error, and whether padding was seen. *)
Fixpoint b64d_loop (s : b64d) (inp : bytes) : b64d * bytes * bytes * bool * bool :=
  match inp with
  | [] => (s, [], [], true, false)
  | c :: r =>
      match lookup c with
      | None => (s, r, [], false, false)
      | Some symbol =>
          if symbol =? 64 then
            let '(s', rest, out, ok, _) := b64d_loop (B64D DPAD (bd_bits s)) r in
            (s', rest, out, ok, true)
          else if symbol =? 65 then b64d_loop s r
          else
          (* [unsigned int]: shifting wraps at 2^32 *)
          let bits := N.lor (N.shiftl (bd_bits s) 6 mod 2^32) symbol in
          match bd_state s with
          | DAT0 => b64d_loop (B64D DAT2 bits) r
          | DAT2 => let '(s', rest, out, ok, p) := b64d_loop (B64D DAT4 (N.land bits 15)) r in
                    (s', rest, putch (N.shiftr bits 4) :: out, ok, p)
          | DAT4 => let '(s', rest, out, ok, p) := b64d_loop (B64D DAT6 (N.land bits 3)) r in
                    (s', rest, putch (N.shiftr bits 2) :: out, ok, p)
          | DAT6 => let '(s', rest, out, ok, p) := b64d_loop (B64D DAT0 0) r in
                    (s', rest, putch bits :: out, ok, p)
          | DPAD => (B64D DPAD bits, r, [], false, false)
          end
      end
  end.

Definition bd_partial (s : b64d) : bool :=
  match bd_state s with DAT2 | DAT4 | DAT6 => true | _ => false end.

(** utils/wvbase64.cc:123-189.  _finish is the default (include/wvencoder.h),
    which returns true. *)
Definition Base64Decoder : encoder :=
  Encoder b64d (B64D DAT0 0)
    (fun s inp flush =>
       let '(s', rest, out, ok, pad) := b64d_loop s inp in
       if ok then Ok (EncOut s' rest out (negb (flush && bd_partial s')) false pad)
       else Ok (EncOut s' rest out false true pad))
    (fun _ => Ok ([], true)).
