(** Model of utils/wvstrutils.cc:245-301: hexdump_buffer.  Every write is checked
    against the size of the buffer and every read against the length of the data.
    [s] is what was written before cptr; there is a NUL after it only after
    sprintf() and strcat(). *)
From Verif Require Import Base Ctype.
Local Open Scope char_scope.

(** sprintf(cptr, ...), strcat(cptr, ...) where cptr points to a NUL, cptr += ...: a NUL is written too *)
Definition puts (cap : nat) (s x : bytes) : res bytes := if Nat.ltb (length s + length x) cap then Ok (s ++ x) else Fault.
(** *cptr++ = c *)
Definition put (cap : nat) (s : bytes) (c : byte) : res bytes := if Nat.ltb (length s) cap then Ok (s ++ [c]) else Fault.
Definition read (buf : bytes) (i : nat) : res byte := match nth_error buf i with Some b => Ok b | None => Fault end.

(** %X: the digits of [v], of which at least [w] *)
Definition xdigit (v : Z) : byte := if (v <? 10)%Z then ascii_of_nat (48 + Z.to_nat v) else ascii_of_nat (55 + Z.to_nat v).
Fixpoint xdigits (k : nat) (v : Z) : bytes := match k with 0 => [] | S k => xdigits k (v / 16) ++ [xdigit (v mod 16)] end.
Fixpoint strip (w : nat) (s : bytes) : bytes :=
  match s with c :: r => if (Ascii.eqb c "0" && Nat.leb w (length r))%bool then strip w r else s | [] => [] end.
(** for an unsigned int, that is at most eight digits *)
Definition fmt_X (w : nat) (v : Z) : bytes := strip w (xdigits 8 (v mod 2 ^ 32)).

(** utils/wvstrutils.cc:260-265 *)
Fixpoint hex_loop (cap : nat) (buf : bytes) (count k count2 : nat) (s : bytes) : res bytes :=
  match k with
  | 0 => Ok s
  | S k =>
      let! s := if (negb (Nat.eqb count2 0) && Nat.eqb (count2 mod 4) 0)%bool then put cap s " " else Ok s in
      let! b := read buf (count + count2) in
      let! s := puts cap s (fmt_X 2 (Z.of_nat (nat_of_ascii b))) in
      hex_loop cap buf count k (S count2) s
  end.
(** utils/wvstrutils.cc:267-280 *)
Fixpoint pad_loop (cap k count2 : nat) (s : bytes) : res bytes :=
  match k with
  | 0 => Ok s
  | S k =>
      let! s := if (negb (Nat.eqb count2 0) && Nat.eqb (count2 mod 4) 0)%bool then puts cap s (B "   ") else puts cap s (B "  ") in
      pad_loop cap k (S count2) s
  end.
(** utils/wvstrutils.cc:284-295 *)
Definition isprint (b : byte) : bool := (Nat.leb 32 (nat_of_ascii b) && Nat.ltb (nat_of_ascii b) 127)%bool.
Fixpoint char_loop (cap : nat) (buf : bytes) (count k count2 : nat) (s : bytes) : res bytes :=
  match k with
  | 0 => Ok s
  | S k =>
      let! s := if Nat.eqb (count2 mod 4) 0 then put cap s " " else Ok s in
      let! b := read buf (count + count2) in
      let! s := put cap s (if isprint b then b else ".") in
      char_loop cap buf count k (S count2) s
  end.
(** utils/wvstrutils.cc:254-298: the loop over lines *)
Fixpoint line_loop (fuel cap : nat) (buf : bytes) (len count : nat) (chars : bool) (s : bytes) : res bytes :=
  match fuel with
  | 0 => NoFuel
  | S fuel =>
      if Nat.ltb count len then
        let top := if Nat.ltb (len - count) 16 then len - count else 16 in
        let! s := puts cap s (B "[" ++ fmt_X 3 (Z.of_nat count) ++ B "] ") in
        let! s := hex_loop cap buf count top 0 s in
        let! s := pad_loop cap (16 - top) top s in
        let! s := put cap s " " in
        let! s := if chars then char_loop cap buf count top 0 s else Ok s in
        let! s := put cap s "010" in
        line_loop fuel cap buf len (count + 16) chars s
      else Ok s
  end.
(** utils/wvstrutils.cc:245-301.  len / 16 * 80 + 80 does not wrap for data that fits in memory *)
Definition hexdump_buffer (buf : bytes) (len : nat) (chars : bool) : res bytes :=
  let cap := len / 16 * 80 + 80 in
  let! s := line_loop (S len) cap buf len 0 chars [] in
  if Nat.ltb (length s) cap then Ok s else Fault.
