(** Model of the formatting of sizes, times and numbers in utils/wvstrutils.cc. *)
From Verif Require Import Base Ctype IntFmtModel.
From Coq Require Import ZArith.
Local Open Scope Z_scope.

(** unsigned long long, and unsigned long on 64-bit hosts *)
Definition u64 (z : Z) : Z := z mod 2 ^ 64.
(** utils/wvstrutils.cc:489-524: the tables; a null name ends them, a base of 0 means too large *)
Definition si : list (option bytes * Z) :=
  [(Some (B "k"), 1000); (Some (B "M"), 1000000); (Some (B "G"), 1000000000); (Some (B "T"), 1000000000000);
   (Some (B "P"), 1000000000000000); (Some (B "E"), 1000000000000000000); (Some (B "Z"), 0); (Some (B "Y"), 0); (None, 0)].
Definition iec : list (option bytes * Z) :=
  [(Some (B "Ki"), 1024); (Some (B "Mi"), 1048576); (Some (B "Gi"), 1073741824); (Some (B "Ti"), 1099511627776);
   (Some (B "Pi"), 1125899906842624); (Some (B "Ei"), 1152921504606846976); (Some (B "Zi"), 0); (Some (B "Yi"), 0); (None, 0)].
Definition entry (t : list (option bytes * Z)) (i : Z) : res (option bytes * Z) :=
  if i <? 0 then Fault else of_opt (nth_error t (Z.to_nat i)).
(** include/wvstrutils.h:230-236 *)
Inductive rounding := ROUND_DOWN | ROUND_DOWN_AT_POINT_FIVE | ROUND_UP_AT_POINT_FIVE | ROUND_UP.
(** utils/wvstrutils.cc:527-556: _sizetoa_rounder; [u64 (d + 1)] for the increments *)
Definition rounder (m : rounding) (size remainder base : Z) : res Z :=
  if base =? 0 then Fault
  else
    let half := base / 2 in
    let d := size / base in
    Ok match m with
       | ROUND_DOWN => d
       | ROUND_UP => if negb (remainder =? 0) || negb (size mod base =? 0) then u64 (d + 1) else d
       | ROUND_UP_AT_POINT_FIVE => if half <=? size mod base then u64 (d + 1) else d
       | ROUND_DOWN_AT_POINT_FIVE =>
           let r := size mod base in
           if (half <? r) || (negb (remainder =? 0) && (r =? half)) then u64 (d + 1) else d
       end.
(** utils/wvstrutils.cc:586-592: the loop over the block size; gives the previous and
    the last block size and the shift *)
Fixpoint shrink (fuel : nat) (g bs prev shift : Z) : res (Z * Z * Z) :=
  match fuel with
  | O => NoFuel
  | S f => if g <=? bs then shrink f g (bs / g) bs (shift + 1) else Ok (bs, prev, shift)
  end.
(** utils/wvstrutils.cc:613-623: the loop over the prefixes *)
Fixpoint prefixes (fuel : nat) (m : rounding) (t : list (option bytes * Z)) (g size remainder shift p digits : Z) : res (Z * Z) :=
  match fuel with
  | O => NoFuel
  | S f =>
      if g <=? size then
        let p := p + 1 in
        let! (_, base) := entry t p in
        let! digits := rounder m (u64 (size * 10)) remainder base in
        if digits <? u64 (g * 10) then Ok (p, digits)
        else let! (name, _) := entry t (p + shift + 1) in
             match name with
             | None => Ok (p, digits)
             | Some _ => prefixes f m t g size remainder shift p digits
             end
      else Ok (p, digits)
  end.
(** utils/wvstrutils.cc:629-637: the loop that corrects for the block size *)
Fixpoint correct (fuel : nat) (m : rounding) (t : list (option bytes * Z)) (g shift p digits : Z) : res (Z * Z) :=
  match fuel with
  | O => NoFuel
  | S f =>
      if u64 (g * 10) <=? digits then
        let! (name, _) := entry t (p + shift + 1) in
        match name with
        | None => Ok (p, digits)
        | Some _ => let! digits := rounder m digits 0 g in correct f m t g shift (p + 1) digits
        end
      else Ok (p, digits)
  end.
(** utils/wvstrutils.cc:567-646: _sizetoa.  A missing prefix name is printed as "(nil)",
    as a null argument is. *)
Definition sizetoa_ (size blocksize : Z) (m : rounding) (t : list (option bytes * Z)) (unit : bytes) : res bytes :=
  if blocksize =? 0 then Fault
  else
    let! (_, g) := entry t 0 in
    let! (bs, prev, shift) := shrink 65 g blocksize 0 0 in
    let '(bs, shift) := if negb (prev =? 0) && negb (prev =? g) then (prev, shift - 1) else (bs, shift) in
    let digits := u64 (size * 10) in
    let '(size, remainder, shift) := if digits <? size then (size / g, size mod g, shift + 1) else (size, 0, shift) in
    let! (p, digits) := prefixes 10 m t g size remainder shift (-1) digits in
    let! (p, digits) := if 1 <? bs then correct 10 m t g shift p (u64 (digits * bs)) else Ok (p, digits) in
    let! (name, _) := entry t (p + shift) in
    let! a := string_of_unsigned (digits / 10) in
    let! b := string_of_unsigned (digits mod 10) in
    Ok (a ++ B "." ++ b ++ B " " ++ match name with Some n => n | None => B "(nil)" end ++ unit).
(** utils/wvstrutils.cc:648-659: sizetoa *)
Definition sizetoa (blocks blocksize : Z) (m : rounding) : res bytes :=
  let b := u64 (blocks * blocksize) in
  if (b <? 1000) && (blocks <=? b) then let! a := string_of_unsigned b in Ok (a ++ B " bytes")
  else sizetoa_ blocks blocksize m si (B "B").
(** utils/wvstrutils.cc:661-667: sizektoa *)
Definition sizektoa (kbytes : Z) (m : rounding) : res bytes :=
  if kbytes <? 1000 then let! a := string_of_unsigned kbytes in Ok (a ++ B " kB") else sizetoa kbytes 1000 m.
(** utils/wvstrutils.cc:669-680: sizeitoa *)
Definition sizeitoa (blocks blocksize : Z) (m : rounding) : res bytes :=
  let b := u64 (blocks * blocksize) in
  if (b <? 1024) && (blocks <=? b) then let! a := string_of_unsigned b in Ok (a ++ B " bytes")
  else sizetoa_ blocks blocksize m iec (B "B").
(** utils/wvstrutils.cc:682-688: sizekitoa *)
Definition sizekitoa (kbytes : Z) (m : rounding) : res bytes :=
  if kbytes <? 1024 then let! a := string_of_unsigned kbytes in Ok (a ++ B " KiB") else sizeitoa kbytes 1024 m.

(** utils/wvstrutils.cc:690-735: secondstoa; [unsigned int] argument, whose parts are
    smaller, so nothing wraps *)
Definition unless0 (b : bool) (x : res bytes) : res bytes := if b then x else Ok [].
Definition sep (n : Z) : bytes := if 1 <? n then B ", " else if n =? 1 then B " and " else [].
Definition one (b : bool) : Z := if b then 1 else 0.
Definition secondstoa (total : Z) : res bytes :=
  let days := total / (3600 * 24) in
  let total := total mod (3600 * 24) in
  let hours := total / 3600 in
  let total := total mod 3600 in
  let mins := total / 60 in
  let secs := total mod 60 in
  let n := one (0 <? days) + one (0 <? hours) + one (0 <? mins) in
  let! d := unless0 (0 <? days) (let! a := string_of_unsigned days in Ok (a ++ (if 1 <? days then B " days" else B " day") ++ sep (n - 1))) in
  let n := if 0 <? days then n - 1 else n in
  let! h := unless0 (0 <? hours) (let! a := string_of_unsigned hours in Ok (a ++ (if 1 <? hours then B " hours" else B " hour") ++ sep (n - 1))) in
  let! m := unless0 (0 <? mins) (let! a := string_of_unsigned mins in Ok (a ++ (if 1 <? mins then B " minutes" else B " minute"))) in
  let! s := unless0 ((days =? 0) && (hours =? 0) && (mins =? 0))
    (let! a := string_of_unsigned secs in Ok (a ++ (if negb (secs =? 1) then B " seconds" else B " second"))) in
  Ok (d ++ h ++ m ++ s).

(** utils/wvstrutils.cc:831-868: metriculate.  The text is stored from its end; [p] is
    the next position.  A store before the buffer, or a position never stored to, is a
    fault. *)
Fixpoint count_digits (fuel : nat) (j n : Z) : res Z :=
  match fuel with O => NoFuel | S f => if j =? 0 then Ok n else count_digits f (Z.quot j 10) (n + 1) end.
Fixpoint put_digits (fuel : nat) (digits digit j p : Z) (out : bytes) : res (Z * bytes) :=
  match fuel with
  | O => NoFuel
  | S f =>
      if digit <? digits then
        if p <? 0 then Fault
        else
          let out := ascii_of_nat (Z.to_nat (48 + Z.rem j 10)) :: out in
          let p := p - 1 in
          let j' := Z.quot j 10 in
          if (Z.rem (digit + 1) 3 =? 0) && (digit <? digits - 1)
          then if p <? 0 then Fault else put_digits f digits (digit + 1) j' (p - 1) (" "%char :: out)
          else put_digits f digits (digit + 1) j' p out
      else Ok (p, out)
  end.
Definition metriculate (i : Z) : res bytes :=
  let! digits := count_digits 65 i 0 in
  let room := digits + Z.quot (digits - 1) 3 + (if i <? 0 then 1 else 0) in
  let! (pre, start, j) := if i <? 0 then if i =? - 2 ^ 63 then Fault else Ok (B "-", 1, - i) else Ok ([], 0, i) in
  let p := start + digits + Z.quot (digits - 1) 3 in
  if room <? p then Fault
  else
    let! (p, out) := put_digits 65 digits 0 j (p - 1) [] in
    if p =? start - 1 then Ok (pre ++ out) else Fault.
