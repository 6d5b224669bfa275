(** Model of include/wvserialize.h and utils/wvserialize.cc: values to bytes and back.
    A buffer is the list of its unread bytes (the buffers themselves are modelled in
    BufModel); puts never fail, as in a WvDynBuf.  Not modelled: alignment of the
    pointers that get() returns, allocation failures. *)
From Verif Require Import Base.
Local Open Scope Z_scope.

(** The machine: byte order, bytes in a size_t (4 or 8) *)
Record host := Host { h_big : bool; h_word : nat }.

(** An integer of [w] bytes in memory *)
Fixpoint le (w : nat) (z : Z) : bytes :=
  match w with O => [] | S w => Ascii.ascii_of_N (Z.to_N (z mod 256)) :: le w (z / 256) end.
Fixpoint of_le (l : bytes) : Z :=
  match l with [] => 0 | c :: l => Z.of_N (Ascii.N_of_ascii c) + 256 * of_le l end.
Definition image (h : host) (w : nat) (z : Z) : bytes := if h_big h then rev (le w z) else le w z.
Definition of_image (h : host) (l : bytes) : Z := if h_big h then of_le (rev l) else of_le l.
(** Conversions to an integer type of [w] bytes *)
Definition to_u (w : nat) (z : Z) : Z := z mod 2 ^ (8 * Z.of_nat w).
Definition to_s (w : nat) (z : Z) : Z :=
  let u := to_u w z in if u <? 2 ^ (8 * Z.of_nat w - 1) then u else u - 2 ^ (8 * Z.of_nat w).
Definition cast (w : nat) (s : bool) (z : Z) : Z := if s then to_s w z else to_u w z.

(** htonl, htons, ntohl, ntohs of the C library *)
Definition swap (h : host) (w : nat) (u : Z) : Z := if h_big h then u else of_le (rev (le w u)).
(** include/wvserialize.h:51-58, 257-264: _wv_htonl, _wv_htons, _wv_ntohl, _wv_ntohs *)
Definition wv_hton (h : host) (w : nat) (z : Z) : Z := to_s w (swap h w (to_u w (to_s w z))).
(** include/wvserialize.h:64-82: ntohll, htonll *)
Definition htonll (h : host) (z : Z) : Z :=
  let n := to_u 8 z in
  if h_big h then n
  else Z.lor (to_u 8 (Z.shiftl (to_u 8 (swap h 4 (to_u 4 n))) 32)) (swap h 4 (to_u 4 (Z.shiftr n 32))).
(** include/wvserialize.h:94-116: wv_serialize_scalar; the local of two bytes is an
    int32_t *)
Definition ser_scalar (h : host) (w : nat) (z : Z) : bytes :=
  match w with
  | 8%nat => image h 8 (to_s 8 (htonll h z))
  | 4%nat => image h 4 (wv_hton h 4 z)
  | 2%nat => firstn 2 (image h 4 (wv_hton h 2 z))
  | _ => image h 1 z
  end.
(** include/wvserialize.h:272-289: wv_deserialize_scalar *)
Definition deser_scalar (h : host) (w : nat) (s : bool) (b : bytes) : Z * bytes :=
  if (length b <? w)%nat then (0, b)
  else
    let z := of_image h (firstn w b) in
    (match w with
     | 8%nat => cast 8 s (htonll h (to_s 8 z))
     | 4%nat => cast 4 s (wv_hton h 4 (to_s 4 z))
     | 2%nat => cast 2 s (wv_hton h 2 (to_s 2 z))
     | _ => cast 1 s (to_s 1 z)
     end, skipn w b).

(** The types: integers of [w] bytes, signed or not, bool, WvString, WvBuf, lists, and
    structures whose fields are written one after the other *)
Inductive ty := TInt (w : nat) (s : bool) | TBool | TStr | TBuf | TList (t : ty) | TPair (t t' : ty).
Fixpoint den (t : ty) : Type :=
  match t with
  | TInt _ _ => Z
  | TBool => bool
  | TStr => option bytes
  | TBuf => bytes
  | TList t => list (den t)
  | TPair t t' => (den t * den t')%type
  end.
(** include/wvserialize.h:118-144 (integers, bool), 153-158 (WvString), 171-175 (WvBuf),
    183-193 (WvList) *)
Fixpoint ser (h : host) (t : ty) : den t -> bytes :=
  match t return den t -> bytes with
  | TInt w s => ser_scalar h w
  | TBool => fun b => ser_scalar h 1 (if b then 1 else 0)
  | TStr => fun s => match s with Some s => s | None => [] end ++ [nul]
  | TBuf => fun b => ser_scalar h (h_word h) (Z.of_nat (length b)) ++ b
  | TList t => fun l => ser_scalar h (h_word h) (Z.of_nat (length l)) ++ concat (map (ser h t) l)
  | TPair t t' => fun v => ser h t (fst v) ++ ser h t' (snd v)
  end.

(** utils/wvbuffer.cc:47-61: strchr; 0 if there is none *)
Fixpoint find_nul (b : bytes) : nat :=
  match b with
  | [] => 0%nat
  | c :: b => if Ascii.eqb c nul then 1%nat else match find_nul b with O => 0%nat | S n => S (S n) end
  end.
(** utils/wvserialize.cc:10-18: _wv_deserialize<WvString>.  get(0) is NULL in a linked
    buffer, and in any other a pointer to bytes with no nul among them, which the string
    constructor then reads. *)
Definition deser_str (linked : bool) (b : bytes) : res (option bytes * bytes) :=
  match find_nul b with
  | O => if linked then Ok (None, b) else Fault
  | S n => Ok (Some (firstn n b), skipn (S n) b)
  end.
(** include/wvserialize.h:352-367, 374-389: the loops *)
Fixpoint many {A} (n : nat) (d : bytes -> res (A * bytes)) (b : bytes) : res (list A * bytes) :=
  match n with
  | O => Ok ([], b)
  | S n => let! (x, b) := d b in let! (l, b) := many n d b in Ok (x :: l, b)
  end.
(** include/wvserialize.h:297-333 (integers, bool), 336-348 (WvBuf): merge asserts that
    there are enough bytes, 351-390 (lists) *)
Fixpoint deser (h : host) (linked : bool) (t : ty) : bytes -> res (den t * bytes) :=
  match t return bytes -> res (den t * bytes) with
  | TInt w s => fun b => Ok (deser_scalar h w s b)
  | TBool => fun b => let '(z, b) := deser_scalar h 1 true b in Ok (negb (z =? 0), b)
  | TStr => deser_str linked
  | TBuf => fun b =>
      let '(n, b) := deser_scalar h (h_word h) false b in
      if (n <=? Z.of_nat (length b)) then Ok (firstn (Z.to_nat n) b, skipn (Z.to_nat n) b) else Fault
  | TList t => fun b => let '(n, b) := deser_scalar h (h_word h) false b in many (Z.to_nat n) (deser h linked t) b
  | TPair t t' => fun b => let! (v, b) := deser h linked t b in let! (v', b) := deser h linked t' b in Ok ((v, v'), b)
  end.
