(** Model of utils/wvrateadjust.cc and include/wvrateadjust.h.  int and unsigned
    have 32 bits; overflow of an int is a fault. *)
From Verif Require Import Base TimeModel.
Local Open Scope Z_scope.

(** Signed 32-bit arithmetic. *)
Definition i32 (z : Z) : res Z := if (- 2 ^ 31 <=? z) && (z <? 2 ^ 31) then Ok z else Fault.
(** A value stored in an int from an unsigned. *)
Definition to_int (z : Z) : Z := (z + 2 ^ 31) mod 2 ^ 32 - 2 ^ 31.
(** Unsigned arithmetic. *)
Definition uns (z : Z) : Z := z mod 2 ^ 32.

(** include/wvrateadjust.h:33-45: the members *)
Record rate := Rate { sampsize : Z; irate_n : Z; irate_d : Z; orate_n : Z; orate_d : Z; epoch : wvtime; bucket : Z }.

(** utils/wvrateadjust.cc:42-50: init; [now] is wvtime() *)
Definition init (now : wvtime) (size base on od : Z) : res rate :=
  let! n := i32 (base * 10) in
  Ok (Rate size n 10 on od {| sec := sec now - 1; usec := usec now |} 0).

(** utils/wvrateadjust.cc:12-22 and 25-39: the constructors; [m] is the rate to
    match *)
Definition create (now : wvtime) (size base orate : Z) : res rate := init now size base orate 1.
Definition create_match (now : wvtime) (size base : Z) (m : rate) : res rate := init now size base (irate_n m) (irate_d m).

(** utils/wvrateadjust.cc:60-96: the part of _encode() that adjusts the rates;
    [isamps] is the number of samples and [now] what wvtime() says (both calls of
    it are taken as one) *)
Definition adjust (now : wvtime) (isamps : Z) (m : option rate) (r : rate) : res rate :=
  let '(on, od) := match m with Some m => (irate_n m, irate_d m) | None => (orate_n r, orate_d r) end in
  let ep := if sec (epoch r) =? 0 then now else epoch r in
  let n := to_int (irate_n r + uns (isamps * 10)) in
  let! ms := msecdiff now ep in
  let d := Z.quot ms 100 in
  let d := if d =? 0 then 1 else d in
  if 100 <? d then
    let! x := i32 (n * (d - 10)) in
    Ok (Rate (sampsize r) (Z.quot x d) (d - 10) on od {| sec := sec ep + 1; usec := usec ep |} (bucket r))
  else Ok (Rate (sampsize r) n d on od ep (bucket r)).

(** The output buffer: [None] is a byte that alloc() gave and nothing was
    written to; the piece of the last alloc() begins at [ostart]. *)
Record out := Out { buf : list (option Ascii.ascii); ostart : nat; optr : nat }.

(** WvBuf::alloc: more bytes at the end *)
Definition alloc (n : nat) (l : list (option Ascii.ascii)) : out := Out (l ++ repeat None n) (length l) (length l).

(** utils/wvrateadjust.cc:119-121: the copying loop; outside the piece is a fault *)
Definition write (s : bytes) (o : out) : res out :=
  if (optr o + length s <=? length (buf o))%nat then
    Ok (Out (firstn (optr o) (buf o) ++ map Some s ++ skipn (optr o + length s) (buf o)) (ostart o) (optr o + length s))
  else Fault.

(** utils/wvrateadjust.cc:113-122: the while loop; [piece] is omax * sampsize *)
Fixpoint fill (n : nat) (piece : Z) (minus : Z) (s : bytes) (b : Z) (o : out) : res (Z * out) :=
  if minus <=? b then
    match n with
    | O => NoFuel
    | S n =>
      let o := if piece <=? uns (Z.of_nat (optr o - ostart o)) then alloc (Z.to_nat piece) (buf o) else o in
      let! o := write s o in
      let! b := i32 (b - minus) in
      fill n piece minus s b o
    end
  else Ok (b, o).

(** utils/wvrateadjust.cc:108-123: the for loop *)
Fixpoint copy (piece plus minus : Z) (samples : list bytes) (b : Z) (o : out) : res (Z * out) :=
  match samples with
  | [] => Ok (b, o)
  | s :: samples =>
    let! b := i32 (b + plus) in
    let! (b, o) := fill (S (Z.to_nat (b / minus))) piece minus s b o in
    copy piece plus minus samples b o
  end.

(** The input in samples. *)
Fixpoint split (n : nat) (size : nat) (l : bytes) : list bytes :=
  match n with
  | O => []
  | S n => firstn size l :: split n size (skipn size l)
  end.

(** utils/wvrateadjust.cc:55-130: _encode; [o] is what the output buffer holds
    already *)
Definition encode (now : wvtime) (m : option rate) (input : bytes) (o : list (option Ascii.ascii)) (r : rate)
  : res (rate * list (option Ascii.ascii)) :=
  if (length input =? 0)%nat then Ok (r, o)
  else if negb (Z.of_nat (length input) mod sampsize r =? 0) then Fault
  else
    let isamps := Z.of_nat (length input) / sampsize r in
    let! r := adjust now isamps m r in
    let! plus := i32 (orate_n r * irate_d r) in
    let! minus := i32 (irate_n r * orate_d r) in
    let omax := uns (isamps + isamps / 2) in
    let piece := uns (omax * sampsize r) in
    let! (b, o) := copy piece plus minus (split (Z.to_nat isamps) (Z.to_nat (sampsize r)) input) (bucket r)
                     (alloc (Z.to_nat piece) o) in
    let un := uns (piece - Z.of_nat (optr o - ostart o)) in
    if Z.of_nat (length (buf o)) <? un then Fault
    else Ok (Rate (sampsize r) (irate_n r) (irate_d r) (orate_n r) (orate_d r) (epoch r) b,
             firstn (length (buf o) - Z.to_nat un) (buf o)).

(** include/wvrateadjust.h:50-53 *)
Definition getirate (r : rate) : res Z := if irate_d r =? 0 then Fault else Ok (Z.quot (irate_n r) (irate_d r)).
Definition getorate (r : rate) : res Z := if orate_d r =? 0 then Fault else Ok (Z.quot (orate_n r) (orate_d r)).

(** A sequence of calls: the clock and the input of each. *)
Fixpoint encodes (l : list (wvtime * bytes)) (o : list (option Ascii.ascii)) (r : rate) : res (rate * list (option Ascii.ascii)) :=
  match l with
  | [] => Ok (r, o)
  | (now, i) :: l => let! (r, o) := encode now None i o r in encodes l o r
  end.
