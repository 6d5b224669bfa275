(** Model of WvFastString::do_format in utils/wvstring.cc. *)
From Verif Require Import Base Ctype IntFmtModel CowModel.
Local Open Scope Z_scope.

Definition is_ch (n : nat) (c : byte) : bool := Nat.eqb (cc c) n.
Definition percent : nat := 37.
Definition dollar : nat := 36.
Definition dot : nat := 46.

(** a scanning loop [for (; *cptr && !stop( *cptr ); cptr++)] *)
Fixpoint scan (stop : byte -> bool) (s : bytes) : bytes :=
  match s with [] => [] | c :: r => if stop c then s else scan stop r end.

Record spec := { zeropad : bool; justify : Z; maxlen : Z; argnum : Z }.
(** utils/wvstring.cc:461-494: pparse; [s] is the format from the percent sign on.
    On an early return at the end of the format the caller's assertion fails, so
    the unset fields do not matter. *)
Definition pparse (s : bytes) : res (bytes * spec) :=
  match s with
  | [] => Fault
  | c :: s =>
      if negb (is_ch percent c) then Fault else
      let zp := match s with c :: _ => is_ch 48 c | [] => false end in
      let! j := atoi s in
      let s := scan (fun c => is_ch dot c || is_ch percent c || is_ch dollar c || isalpha c) s in
      match s with
      | [] => Ok ([], {| zeropad := zp; justify := j; maxlen := 0; argnum := 0 |})
      | c :: r =>
          let! m := (if is_ch dot c then atoi r else Ok 0) in
          let s := scan (fun c => is_ch percent c || is_ch dollar c || isalpha c) s in
          match s with
          | [] => Ok ([], {| zeropad := zp; justify := j; maxlen := m; argnum := 0 |})
          | c :: r =>
              let! a := (if is_ch dollar c then atoi r else Ok 0) in
              let s := scan (fun c => is_ch percent c || isalpha c) s in
              Ok (s, {| zeropad := zp; justify := j; maxlen := m; argnum := a |})
          end
      end
  end.

(** utils/wvstring.cc:516, 548-552, 595-599: the argument of %s; the array has a
    fixed number of slots and reading past it faults *)
Definition blank : bytes := B "(nil)".
Definition arg_index (k : nat) (sp : spec) : nat := if 0 <? argnum sp then Z.to_nat (argnum sp - 1) else k.
Definition arg_of (args : list (option bytes)) (k : nat) (sp : spec) : res bytes :=
  let! a := of_opt (nth_error args (arg_index k sp)) in
  Ok (match a with None => blank | Some a => a end).
Definition next_arg (k : nat) (sp : spec) : nat := if argnum sp <=? 0 then S k else k.

(** utils/wvstring.cc:524-569: counting; an int total that overflows faults *)
Fixpoint count (fuel : nat) (args : list (option bytes)) (s : bytes) (k : nat) (total : Z) : res Z :=
  match fuel with
  | O => NoFuel
  | S fuel =>
      if negb (in_int total) then Fault else
      match s with
      | [] => Ok total
      | c :: r =>
          if negb (is_ch percent c) then count fuel args r k (total + 1) else
          let! (s, sp) := pparse s in
          match s with
          | [] => Fault
          | c :: r =>
              if is_ch percent c then count fuel args r k (total + 1)
              else if is_ch 115 c then
                let! arg := arg_of args k sp in
                if justify sp =? int_min then Fault else
                let ladd := Z.max (Z.abs (justify sp)) (Z.of_nat (length arg)) in
                let ladd := if negb (maxlen sp =? 0) && (maxlen sp <? ladd) then maxlen sp else ladd in
                count fuel args r (next_arg k sp) (total + ladd)
              else if is_ch 99 c then count fuel args r (next_arg k sp) (total + 1)
              else Fault
          end
      end
  end.

(** a memset or strncpy of [n] bytes at [o]; a negative count is a huge one *)
Definition put_bytes (m : mem) (o : nat) (s : bytes) : res (mem * nat) :=
  let! m := of_opt (store_seq m o s) in Ok (m, (o + length s)%nat).
Definition fill (m : mem) (o : nat) (c : byte) (n : Z) : res (mem * nat) :=
  if n <? 0 then Fault else put_bytes m o (repeat c (Z.to_nat n)).
(** utils/wvstring.cc:632-637: the argument of %c *)
Definition char_arg (args : list (option bytes)) (k : nat) (sp : spec) : res byte :=
  let! a := of_opt (nth_error args (arg_index k sp)) in
  let a := match a with None => B " " | Some [] => B " " | Some a => a end in
  let! n := atoi a in
  Ok (ascii_of_nat (Z.to_nat (n mod 256))).

(** utils/wvstring.cc:573-640: rendering *)
Fixpoint render (fuel : nat) (args : list (option bytes)) (s : bytes) (k : nat) (m : mem) (o : nat) : res (mem * nat) :=
  match fuel with
  | O => NoFuel
  | S fuel =>
      match s with
      | [] => let! m := of_opt (store m o nul) in Ok (m, o)
      | c :: r =>
          if negb (is_ch percent c) then let! (m, o) := put_bytes m o [c] in render fuel args r k m o else
          let! (s, sp) := pparse s in
          match s with
          | [] => let! m := of_opt (store m o nul) in Ok (m, o)
          | c :: r =>
              if is_ch percent c then let! (m, o) := put_bytes m o [c] in render fuel args r k m o
              else if is_ch 115 c then
                let! arg := arg_of args k sp in
                let aplen := Z.of_nat (length arg) in
                let aplen := if negb (maxlen sp =? 0) && (maxlen sp <? aplen) then maxlen sp else aplen in
                let padc := ascii_of_nat (if zeropad sp then 48 else 32) in
                let! (m, o) := (if aplen <? justify sp then fill m o padc (justify sp - aplen) else Ok (m, o)) in
                if aplen <? 0 then Fault else
                let! (m, o) := put_bytes m o (firstn (Z.to_nat aplen) arg) in
                let! (m, o) := (if (justify sp <? 0) && (aplen <? - justify sp)
                                then fill m o padc (- justify sp - aplen) else Ok (m, o)) in
                render fuel args r (next_arg k sp) m o
              else if is_ch 99 c then
                let! c := char_arg args k sp in
                let! (m, o) := put_bytes m o [c] in
                render fuel args r (next_arg k sp) m o
              else render fuel args r k m o
          end
      end
  end.

(** utils/wvstring.cc:513-641: do_format, and the text of the result *)
Definition do_format (fmt : bytes) (args : list (option bytes)) : res bytes :=
  let! total := count (S (length fmt)) args fmt 0 0 in
  if total <? 0 then Fault else
  let! (m, o) := render (S (length fmt)) args fmt 0 (calloc (room (Z.to_nat total))) 0 in
  Ok (cstr m).
