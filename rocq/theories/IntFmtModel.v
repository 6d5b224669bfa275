(** Model of the integer constructors of WvFastString in utils/wvstring.cc and of
    WvFastString::num(). *)
From Verif Require Import Base Ctype CryptModel.
Local Open Scope Z_scope.

(** utils/wvstring.cc:106-120: the switch; no case matches a negative remainder *)
Definition digit_store (m : mem) (at_ : nat) (d : Z) : res (mem * nat) :=
  if (0 <=? d) && (d <=? 9)
  then let! m := of_opt (store m at_ (ascii_of_nat (48 + Z.to_nat d))) in Ok (m, S at_)
  else Ok (m, at_).

(** utils/wvstring.cc:91-127: wv_uitoar; digits are written in reverse *)
Fixpoint uitoar_loop (fuel : nat) (m : mem) (e : nat) (i : Z) : res (mem * nat) :=
  match fuel with
  | O => NoFuel
  | S fuel =>
      if 0 <? i
      then let! (m, e) := digit_store m e (Z.rem i 10) in uitoar_loop fuel m e (Z.quot i 10)
      else Ok (m, e)
  end.
Definition uitoar (m : mem) (i : Z) : res (mem * nat) :=
  let! (m, e) := (if i =? 0 then let! m := of_opt (store m 0 (ascii_of_nat 48)) in Ok (m, 1%nat)
                  else uitoar_loop 65 m 0 i) in
  let! m := of_opt (store m e nul) in Ok (m, e).

(** [i = -i] for a signed type of [w] bits: types narrower than int are negated
    as int and converted back (wrapping, as gcc defines it); for the others
    negating the minimum overflows. *)
Definition negate (w : nat) (i : Z) : res Z :=
  if (w <? 32)%nat
  then let j := - i in
       Ok (if j =? 2 ^ (Z.of_nat w - 1) then j - 2 ^ Z.of_nat w else j)
  else if i =? - 2 ^ (Z.of_nat w - 1) then Fault else Ok (- i).
(** utils/wvstring.cc:131-152: wv_itoar *)
Definition itoar (w : nat) (m : mem) (i : Z) : res (mem * nat) :=
  let! a := (if i <? 0 then negate w i else Ok i) in
  let! (m, e) := uitoar m a in
  if i <? 0 then
    let! m := of_opt (store m e (ascii_of_nat 45)) in
    let! m := of_opt (store m (S e) nul) in Ok (m, S e)
  else Ok (m, e).

(** utils/wvstring.cc:155-171: wv_strrev, swapping with exclusive or; [e] is one
    past the last byte still to swap *)
Fixpoint strrev (fuel : nat) (m : mem) (b e : nat) : res mem :=
  match fuel with
  | O => NoFuel
  | S fuel =>
      if (S b <? e)%nat then
        let t := (e - 1)%nat in
        let! x := of_opt (nth_error m b) in let! y := of_opt (nth_error m t) in
        let! m := of_opt (store m b (bxor x y)) in
        let! x := of_opt (nth_error m b) in let! y := of_opt (nth_error m t) in
        let! m := of_opt (store m t (bxor y x)) in
        let! x := of_opt (nth_error m b) in let! y := of_opt (nth_error m t) in
        let! m := of_opt (store m b (bxor x y)) in
        strrev fuel m (S b) t
      else Ok m
  end.

(** utils/wvstring.cc:177-231: the constructors; the text is read back as a C
    string *)
Definition string_of_unsigned (i : Z) : res bytes :=
  let! (m, e) := uitoar (setsize 32) i in
  let! m := strrev 65 m 0 e in Ok (cstr m).
Definition string_of_signed (w : nat) (i : Z) : res bytes :=
  let! (m, e) := itoar w (setsize 32) i in
  let! m := strrev 65 m 0 e in Ok (cstr m).

(** atoi of the C library: blanks, an optional sign, digits; a value outside
    int is undefined *)
Fixpoint atoi_digits (s : bytes) (acc : Z) : Z :=
  match s with
  | [] => acc
  | c :: r => if isdigit c then atoi_digits r (10 * acc + (Z.of_nat (cc c) - 48)) else acc
  end.
Fixpoint skip_space (s : bytes) : bytes :=
  match s with [] => [] | c :: r => if isspace c then skip_space r else s end.
Definition int_min : Z := - 2 ^ 31.
Definition int_max : Z := 2 ^ 31 - 1.
Definition in_int (z : Z) : bool := (int_min <=? z) && (z <=? int_max).
Definition atoi (s : bytes) : res Z :=
  let v := match skip_space s with
           | [] => 0
           | c :: r => if (cc c =? 45)%nat then - atoi_digits r 0
                       else if (cc c =? 43)%nat then atoi_digits r 0
                       else atoi_digits (c :: r) 0
           end in
  if in_int v then Ok v else Fault.
(** include/wvstring.h: num() *)
Definition num (s : option bytes) : res Z :=
  match s with None => Ok 0 | Some s => atoi s end.
