(** Model of UniConfGen::str2int: uniconf/uniconfgen.cc:126-152, which
    UniConf::getmeint (uniconf/uniconf.cc:77-80) uses on the text that
    UniConf::setmeint (89-92) stored. *)
From Verif Require Import Base Ctype KeyModel IntFmtModel.
Local Open Scope Z_scope.

(** strtol of the C library with base 0, long of 64 bits: blanks, an optional sign,
    then digits; 0x and a hexadecimal digit select base 16, another leading 0 base
    8; values outside long are clamped.  [None]: no number, [end] is the start. *)
Definition digit_val (c : byte) : Z :=
  if isdigit c then Z.of_nat (cc c) - 48
  else if isalpha c then Z.of_nat (cc (tolower c)) - 97 + 10 else 99.
Fixpoint digits_of (base : Z) (s : bytes) (acc : Z) : Z :=
  match s with
  | [] => acc
  | c :: r => if digit_val c <? base then digits_of base r (base * acc + digit_val c) else acc
  end.
Definition magnitude (s : bytes) : option Z :=
  match s with
  | [] => None
  | c :: r =>
      if (cc c =? 48)%nat then
        match r with
        | x :: h :: _ => if (cc (tolower x) =? 120)%nat && (digit_val h <? 16) then Some (digits_of 16 (tl r) 0) else Some (digits_of 8 s 0)
        | _ => Some (digits_of 8 s 0)
        end
      else if isdigit c then Some (digits_of 10 s 0) else None
  end.
Definition long_max : Z := 2 ^ 63 - 1.
Definition clamp_long (z : Z) : Z := Z.max (- 2 ^ 63) (Z.min long_max z).
Definition strtol0 (s : bytes) : option Z :=
  let s := skip_space s in
  match s with
  | [] => None
  | c :: r =>
      if (cc c =? 45)%nat then match magnitude r with Some m => Some (clamp_long (- m)) | None => None end
      else if (cc c =? 43)%nat then match magnitude r with Some m => Some (clamp_long m) | None => None end
      else match magnitude s with Some m => Some (clamp_long m) | None => None end
  end.
(** conversion of long to int, wrapping as gcc defines it *)
Definition to_int (z : Z) : Z := let m := z mod 2 ^ 32 in if m <? 2 ^ 31 then m else m - 2 ^ 32.

Definition strs : list bytes := [B "true"; B "yes"; B "on"; B "enabled"; B "false"; B "no"; B "off"; B "disabled"].
Fixpoint find_str (l : list bytes) (i : nat) (v : bytes) : option nat :=
  match l with
  | [] => None
  | s :: r => if strcasecmp v s =? 0 then Some i else find_str r (S i) v
  end.
Definition str2int (value : option bytes) (defvalue : Z) : Z :=
  match value with
  | None => defvalue
  | Some v =>
      match strtol0 v with
      | Some num => to_int num
      | None => match find_str strs 0 v with Some i => if (i <? 4)%nat then 1 else 0 | None => defvalue end
      end
  end.
(** uniconf/uniconf.cc:89-92 and 77-80, the value stored and read unchanged *)
Definition setint (i : Z) : res bytes := string_of_signed 32 i.
