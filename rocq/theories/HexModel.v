(** Model of utils/wvhex.cc. *)
From Verif Require Import Base EncoderModel.
Local Open Scope N_scope.

Definition asc (c : byte) : N := N_of_ascii c.

(** utils/wvhex.cc:11-14; [alphabase] is 'a'-10 or 'A'-10. *)
Definition tohex (digit alphabase : N) : byte :=
  ascii_of_N ((if digit <? 10 then asc "0" else alphabase) + digit).

(** <ctype.h> in the C locale (glibc: defined for all char values; bytes with
    the high bit set are in none of the classes). *)
Definition isdigit (c : byte) : bool := (asc "0" <=? asc c) && (asc c <=? asc "9").
Definition isupper (c : byte) : bool := (asc "A" <=? asc c) && (asc c <=? asc "Z").
Definition isxdigit (c : byte) : bool :=
  isdigit c || ((asc "A" <=? asc c) && (asc c <=? asc "F"))
  || ((asc "a" <=? asc c) && (asc c <=? asc "f")).
Definition isspace (c : byte) : bool :=
  (asc c =? 32) || ((9 <=? asc c) && (asc c <=? 13)).

(** utils/wvhex.cc:16-23, called on hex digits only. *)
Definition fromhex (c : byte) : N :=
  if isdigit c then asc c - asc "0"
  else if isupper c then asc c - asc "A" + 10
  else asc c - asc "a" + 10.

(** utils/wvhex.cc:27-31 *)
Definition alphabase (use_uppercase : bool) : N :=
  (if use_uppercase then asc "A" else asc "a") - 10.

(** utils/wvhex.cc:40-49: loop of WvHexEncoder::_encode. *)
Fixpoint hex_encode_loop (ab : N) (inp : bytes) : bytes :=
  match inp with
  | [] => []
  | c :: r => tohex (N.shiftr (asc c) 4) ab :: tohex (N.land (asc c) 15) ab
              :: hex_encode_loop ab r
  end.

Definition HexEncoder (upper : bool) : encoder :=
  Encoder unit tt
    (fun _ inp _ => Ok (EncOut tt [] (hex_encode_loop (alphabase upper) inp) true false false))
    (fun _ => Ok ([], true)).

(** utils/wvhex.cc:60-65: private state of WvHexDecoder. *)
Record hexst := HexSt { issecond : bool; first : N }.

(** utils/wvhex.cc:70-86: the decoding loop. *)
Fixpoint hex_decode_loop (s : hexst) (inp : bytes) : hexst * bytes * bytes * bool :=
  match inp with
  | [] => (s, [], [], true)
  | c :: r =>
      if isxdigit c then
        let digit := fromhex c in
        let sec := negb (issecond s) in
        if sec then hex_decode_loop (HexSt sec digit) r
        else
          let '(s', rest, out, b) := hex_decode_loop (HexSt sec (first s)) r in
          (s', rest, ascii_of_N (N.lor (N.shiftl (first s) 4) digit) :: out, b)
      else if isspace c then hex_decode_loop s r
      else (s, r, [], false)
  end.

(** utils/wvhex.cc:68-90 *)
Definition HexDecoder : encoder :=
  Encoder hexst (HexSt false 0)
    (fun s inp flush =>
       let '(s', rest, out, b) := hex_decode_loop s inp in
       if b then Ok (EncOut s' rest out (negb (flush && issecond s')) false false)
       else Ok (EncOut s' rest out false true false))
    (fun _ => Ok ([], true)).

(** utils/wvencoder.cc:140-147 and utils/wvhex.cc:95-101: hexify into a caller
    supplied block of memory: WvInPlaceBuf asserts when it overflows. *)
Definition hexify (obuf : mem) (ibuf : bytes) : res mem :=
  let outlen := (length ibuf * 2 + 1)%nat in
  let! (_, _, out, _) := enc_do_encode (HexEncoder false) (est_init _) ibuf true false in
  if (outlen <? length out)%nat then Fault
  else let! m := of_opt (store_seq obuf 0 out) in
       of_opt (store m (length out) nul).

(** utils/wvhex.cc:104-109 *)
Definition unhexify (obuf : mem) (ibuf : bytes) : res mem :=
  let outlen := (length ibuf / 2)%nat in
  let! (_, _, out, _) := enc_do_encode HexDecoder (est_init _) ibuf true false in
  if (outlen <? length out)%nat then Fault
  else of_opt (store_seq obuf 0 out).
