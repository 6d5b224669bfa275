(** Model of WvWordWrapEncoder, utils/wvwordwrap.cc. *)
From Verif Require Import Base EncoderModel.
Local Open Scope nat_scope.

Definition tab : byte := ascii_of_nat 9.
(** include/wvwordwrap.h:22-27: [line] holds [curindex] bytes of a block of [maxwidth]; the
    overflow of [width] after 2^31 blanks in a row is left out *)
Record wst := Wst { width : nat; line : bytes; wordindex : nat; inword : bool }.
(** utils/wvwordwrap.cc:24-30: _reset *)
Definition wreset : wst := Wst 0 [] 0 false.
(** utils/wvwordwrap.cc:106-111: flushline; gives what is put out *)
Definition flushline (s : wst) : wst * bytes := (Wst (width s) [] 0 false, line s).
(** [line\[curindex++\] = ch] *)
Definition put (m : nat) (l : bytes) (c : byte) : res bytes := if length l <? m then Ok (l ++ [c]) else Fault.
(** utils/wvwordwrap.cc:50-66: a blank; [w]: the position behind it *)
Definition blank_step (m : nat) (s : wst) (c : byte) (w : nat) : res (wst * bytes) :=
  let '(s, o) := if inword s then flushline s else (s, []) in
  let! l := (if w <=? m then put m (line s) c else Ok (line s)) in
  Ok (Wst w l (wordindex s) (inword s), o).
(** utils/wvwordwrap.cc:68-98: any other character *)
Definition other_step (m : nat) (s : wst) (c : byte) : res (wst * bytes) :=
  let '(s, o) :=
    if m <=? width s then
      let '(s, o) :=
        if negb (inword s) then (Wst 0 [] 0 (inword s), [])
        else if wordindex s =? 0 then let '(s, o) := flushline s in (Wst 0 (line s) (wordindex s) (inword s), o)
        else let l := skipn (wordindex s) (line s) in (Wst (length l) l 0 (inword s), []) in
      (s, o ++ [newline])
    else (s, []) in
  let s := if inword s then s else Wst (width s) (line s) (length (line s)) true in
  let! l := put m (line s) c in
  Ok (Wst (S (width s)) l (wordindex s) (inword s), o).
(** utils/wvwordwrap.cc:38-99: one character; [(width + 8) & ~7] *)
Definition wstep (m : nat) (s : wst) (c : byte) : res (wst * bytes) :=
  if Ascii.eqb c newline then
    let s := if inword s then s else Wst (width s) [] (wordindex s) (inword s) in
    let (s, o) := flushline s in Ok (Wst 0 (line s) (wordindex s) (inword s), o ++ [newline])
  else if Ascii.eqb c " " then blank_step m s c (S (width s))
  else if Ascii.eqb c tab then blank_step m s c (8 * S (width s / 8))
  else other_step m s c.
(** utils/wvwordwrap.cc:33-103: _encode *)
Fixpoint wloop (m : nat) (s : wst) (inp : bytes) : res (wst * bytes) :=
  match inp with
  | [] => Ok (s, [])
  | c :: r => let! (s, o) := wstep m s c in let! (s, o') := wloop m s r in Ok (s, o ++ o')
  end.
Definition wrap_encode (m : nat) (s : wst) (inp : bytes) (flush : bool) : res (enc_out wst) :=
  let! (s, o) := wloop m s inp in
  let '(s, o') := if flush then flushline s else (s, []) in
  Ok (EncOut s [] (o ++ o') true false false).
Definition wrap (m : nat) : encoder := Encoder wst wreset (wrap_encode m) (fun _ => Ok ([], true)).
