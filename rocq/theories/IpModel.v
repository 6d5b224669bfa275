(** Model of WvIPAddr, WvIPNet and WvIPPortAddr: ipstreams/wvaddr.cc and
    include/wvaddr.h.  unsigned and uint32_t are 32 bits. *)
From Verif Require Import Base Ctype IntFmtModel.
Local Open Scope N_scope.

(** include/wvaddr.h:254: the four bytes of an address, each below 256 *)
Record ipaddr := Ip { b0 : N; b1 : N; b2 : N; b3 : N }.
(** include/wvaddr.h:283-284 addr() and 258-259 WvIPAddr(uint32_t), both with the
    ntohl/htonl that every use of them has *)
Definition ntohl_addr (a : ipaddr) : N := ((b0 a * 256 + b1 a) * 256 + b2 a) * 256 + b3 a.
Definition of_htonl (v : N) : ipaddr :=
  Ip (v / 16777216 mod 256) (v / 65536 mod 256) (v / 256 mod 256) (v mod 256).
Definition u32 (z : Z) : N := Z.to_N (z mod 2 ^ 32)%Z.

(** strchr followed by a step past the character found *)
Fixpoint after (c : byte) (s : bytes) : option bytes :=
  match s with [] => None | x :: r => if Ascii.eqb x c then Some r else after c r end.
(** strtol of the C library with base 10, clamped to a 64-bit long *)
Definition strtol10 (s : bytes) : Z :=
  let v := match skip_space s with
           | [] => 0
           | c :: r => if (cc c =? 45)%nat then - atoi_digits r 0
                       else if (cc c =? 43)%nat then atoi_digits r 0
                       else atoi_digits (c :: r) 0
           end%Z in Z.max (- 2 ^ 63) (Z.min (2 ^ 63 - 1) v).
Definition dot : byte := ascii_of_nat 46.
Definition slash : byte := ascii_of_nat 47.
Definition colon : byte := ascii_of_nat 58.
(** ipstreams/wvaddr.cc:378-394: WvIPAddr::string_init; bytes not given are 0 *)
Fixpoint ip_bytes (count : nat) (s : bytes) : list N :=
  match count with
  | O => []
  | S n => Z.to_N (strtol10 s mod 256)%Z :: match after dot s with Some r => ip_bytes n r | None => repeat 0 n end
  end.
Definition ip_of_string (s : bytes) : ipaddr :=
  let l := ip_bytes 4 s in Ip (nth 0 l 0) (nth 1 l 0) (nth 2 l 0) (nth 3 l 0).
(** ipstreams/wvaddr.cc:426-430: printable; unsigned char is formatted as an int.
    Formatting with "%s.%s.%s.%s" is concatenation (C17). *)
Definition ip_print (a : ipaddr) : res bytes :=
  let! s0 := string_of_signed 32 (Z.of_N (b0 a)) in let! s1 := string_of_signed 32 (Z.of_N (b1 a)) in
  let! s2 := string_of_signed 32 (Z.of_N (b2 a)) in let! s3 := string_of_signed 32 (Z.of_N (b3 a)) in
  Ok (s0 ++ dot :: s1 ++ dot :: s2 ++ dot :: s3).
(** ipstreams/wvaddr.cc:434-474: &, |, ^, ~ *)
Definition bytewise (f : N -> N -> N) (a c : ipaddr) : ipaddr :=
  Ip (f (b0 a) (b0 c)) (f (b1 a) (b1 c)) (f (b2 a) (b2 c)) (f (b3 a) (b3 c)).
Definition ip_and := bytewise N.land.
Definition ip_or := bytewise N.lor.
Definition ip_xor := bytewise N.lxor.
Definition ip_not (a : ipaddr) : ipaddr := bytewise N.lxor a (Ip 255 255 255 255).
(** ipstreams/wvaddr.cc:480-491: + and - with an int *)
Definition ip_add (a : ipaddr) (n : Z) : ipaddr := of_htonl (u32 (Z.of_N (ntohl_addr a) + n)).
Definition ip_sub (a : ipaddr) (n : Z) : ipaddr := of_htonl (u32 (Z.of_N (ntohl_addr a) - n)).
Definition ip_eqb (a c : ipaddr) : bool := (b0 a =? b0 c) && (b1 a =? b1 c) && (b2 a =? b2 c) && (b3 a =? b3 c).

(** ** WvIPNet *)
(** include/wvaddr.h:312-316 *)
Record ipnet := Net { base : ipaddr; mask : ipaddr }.
(** ipstreams/wvaddr.cc:567-572, 584-589: the mask of a number of bits; shifting
    a 32-bit value by a negative amount is undefined *)
Definition mask_of_bits (bits : Z) : res ipaddr :=
  if (0 <? bits)%Z then
    if (32 <? bits)%Z then Fault
    else Ok (of_htonl (N.lxor (2 ^ Z.to_N (32 - bits) - 1) (2 ^ 32 - 1)))
  else Ok (Ip 0 0 0 0).
Definition net_of_bits (a : ipaddr) (bits : Z) : res ipnet := let! m := mask_of_bits bits in Ok (Net a m).
(** ipstreams/wvaddr.cc:548-573: WvIPNet::string_init after WvIPAddr's, which has
    read the part before the slash (include/wvaddr.h:320-323) *)
Definition net_of_string (s : bytes) : res ipnet :=
  match after slash s with
  | None => Ok (Net (ip_of_string s) (ip_of_string (B "255.255.255.255")))
  | Some m =>
      match after dot m with
      | Some _ => Ok (Net (ip_of_string s) (ip_of_string m))
      | None => let! bits := atoi m in net_of_bits (ip_of_string s) bits
      end
  end.
(** include/wvaddr.h:347-354 *)
Definition network (n : ipnet) : ipaddr := ip_and (base n) (mask n).
Definition broadcast (n : ipnet) : ipaddr := ip_or (base n) (ip_not (mask n)).
(** include/wvaddr.h:376-381: is_default, is_host *)
Definition is_default (n : ipnet) : bool := b0 (mask n) =? 0.
Definition is_host (n : ipnet) : bool := b3 (mask n) =? 255.
(** ipstreams/wvaddr.cc:634-645: bits; at most 32 rounds, the value shifts to 0 *)
Fixpoint bits_loop (fuel : nat) (acc v : N) : res N :=
  match fuel with
  | O => NoFuel
  | S fuel =>
      let acc := acc + v / 2 ^ 31 in
      let v := 2 * v mod 2 ^ 32 in
      if N.testbit v 31 then bits_loop fuel acc v else Ok acc
  end.
Definition bits (n : ipnet) : res N := bits_loop 33 0 (ntohl_addr (mask n)).
(** ipstreams/wvaddr.cc:621-631: include, includes *)
Definition include (n a : ipnet) : ipnet :=
  Net (base n) (ip_and (ip_and (mask n) (mask a)) (ip_not (ip_xor (base n) (base a)))).
Definition includes (n a : ipnet) : bool :=
  ip_eqb (ip_and (base a) (mask n)) (network n) && ip_eqb (ip_and (mask a) (mask n)) (mask n).
(** ipstreams/wvaddr.cc:648-657: normalize *)
Definition normalize (n : ipnet) : res ipnet :=
  let! b := bits n in net_of_bits (base n) (Z.of_N b).
(** ipstreams/wvaddr.cc:597-603: printable *)
Definition net_print (n : ipnet) : res bytes :=
  let! b := bits n in
  if b <? 32 then
    let! s := ip_print (network n) in let! d := string_of_signed 32 (Z.of_N b) in Ok (s ++ slash :: d)
  else ip_print (base n).

(** ** WvIPPortAddr and comparing *)
Inductive addr := AIp (a : ipaddr) | ANet (n : ipnet) | APort (a : ipaddr) (port : N).
Definition raw (x : addr) : ipaddr := match x with AIp a => a | ANet n => base n | APort a _ => a end.
(** ipstreams/wvaddr.cc:401-423, 612-621, 758-768: comparator, first pass and
    second; the raw data of all three types is the four bytes *)
Definition comparator2 (x y : addr) : bool :=
  match x, y with
  | ANet n, ANet m => ip_eqb (base n) (base m) && ip_eqb (mask n) (mask m)
  | APort a p, APort c q => ip_eqb a c && (p =? q)
  | x, y => ip_eqb (raw x) (raw y)
  end.
Definition comparator (x y : addr) : bool :=
  match x, y with
  | AIp a, AIp c => ip_eqb a c
  | ANet _, ANet _ | APort _ _, APort _ _ => comparator2 x y
  | x, y => comparator2 y x
  end.
(** ipstreams/wvaddr.cc:145-158: WvHash of four bytes, width 9; 606-609 and
    751-754: the overrides *)
Definition hash_ip (a : ipaddr) : N :=
  fold_left (fun h b => N.lxor (h * 512 mod 2 ^ 32) b) [b0 a; b1 a; b2 a; b3 a] 0.
Definition hash (x : addr) : N :=
  match x with
  | AIp a => hash_ip a
  | ANet n => (hash_ip (base n) + hash_ip (mask n)) mod 2 ^ 32
  | APort a p => (hash_ip a + p) mod 2 ^ 32
  end.
(** ipstreams/wvaddr.cc:722-725: printable of an address with a port *)
Definition port_print (a : ipaddr) (p : N) : res bytes :=
  let! s := ip_print a in let! d := string_of_unsigned (Z.of_N p) in Ok (s ++ colon :: d).
(** ipstreams/wvaddr.cc:673-708: string_init.  [serv] is the service table.
    Conversion to uint16_t wraps. *)
Definition sp : byte := ascii_of_nat 32.
Definition tab : byte := ascii_of_nat 9.
Definition orelse {A} (a b : option A) : option A := match a with Some _ => a | None => b end.
Definition port_of_string (serv : bytes -> option N) (s : bytes) : res (ipaddr * N) :=
  if forallb isdigit s then let! p := atoi s in Ok (Ip 0 0 0 0, Z.to_N (p mod 65536)%Z)
  else
    let a := ip_of_string s in
    match orelse (after colon s) (orelse (after sp s) (after tab s)) with
    | None => Ok (a, 0)
    | Some t =>
        if list_eq_dec ascii_dec t (B "0") then Ok (a, 0)
        else
          let! p := atoi t in
          let p := Z.to_N (p mod 65536)%Z in
          if p =? 0 then Ok (a, match serv t with Some q => q | None => 0 end) else Ok (a, p)
    end.
