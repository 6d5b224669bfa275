(** Model of xplc-cxx/strtouuid.cc and xplc-cxx/uuidtostr.cc.  Strings end with the
    list; a member of the structure that was never written is None. *)
From Verif Require Import Base Ctype UuidSpec.
Local Open Scope char_scope.

(** A digit of strtoul(..., 16) *)
Definition hexval (c : byte) : option Z :=
  let n := nat_of_ascii c in
  if (Nat.leb 48 n && Nat.leb n 57)%bool then Some (Z.of_nat n - 48)%Z
  else if (Nat.leb 97 n && Nat.leb n 102)%bool then Some (Z.of_nat n - 87)%Z
  else if (Nat.leb 65 n && Nat.leb n 70)%bool then Some (Z.of_nat n - 55)%Z
  else None.
Fixpoint skip_space (s : bytes) : bytes := match s with c :: r => if isspace c then skip_space r else s | [] => [] end.
Fixpoint digits (acc : Z) (s : bytes) : Z * bytes :=
  match s with
  | [] => (acc, [])
  | c :: r => match hexval c with Some d => digits (16 * acc + d) r | None => (acc, s) end
  end.
Definition is_digit (s : bytes) : bool := match s with c :: _ => match hexval c with Some _ => true | None => false end | [] => false end.
(** strtoul(s, &end, 16) of the C library (C99 7.20.1.4): the value and [end].
    White space, a sign and a prefix 0x may come first; without a digit [end] is [s] *)
Definition strtoul16 (s : bytes) : Z * bytes :=
  let t := skip_space s in
  let '(neg, t) := match t with c :: r => if Ascii.eqb c "-" then (true, r) else if Ascii.eqb c "+" then (false, r) else (false, t) | [] => (false, t) end in
  let t := match t with
    | z :: x :: r => if (Ascii.eqb z "0" && (Ascii.eqb x "x" || Ascii.eqb x "X") && is_digit r)%bool then r else t
    | _ => t end in
  if is_digit t then
    let '(v, r) := digits 0 t in
    let v := Z.min v (2 ^ 64 - 1) in
    (if neg then (- v) mod 2 ^ 64 else v, r)%Z
  else (0%Z, s).

(** A number of [w] digits: strtoul(str, &end, 16) and "if(end != str + w) break;" *)
Definition field (w : nat) (s : bytes) : option (Z * bytes) :=
  let '(v, r) := strtoul16 s in if Nat.eqb (length s) (w + length r) then Some (v, r) else None.
(** strncpy(tmp, str, 2); ... if(end != tmp + 2) break; str += 2 *)
Definition octet (s : bytes) : option (Z * bytes) :=
  let tmp := firstn 2 s in
  let '(v, r) := strtoul16 tmp in
  if (Nat.eqb (length tmp) 2 && Nat.eqb (length r) 0)%bool then Some (v mod 256, skipn 2 s)%Z else None.
Definition literal (c : byte) (s : bytes) : option bytes :=
  match s with x :: r => if Ascii.eqb x c then Some r else None | [] => None end.

(** xplc-cxx/strtouuid.cc:83-90: "break" leaves this loop only; Data4[i] was already
    written, with what strtoul() returned, when it does *)
Fixpoint octet_loop (k : nat) (s : bytes) : list (option Z) * bytes :=
  match k with
  | 0 => ([], s)
  | S k =>
      match octet s with
      | Some (v, r) => let '(vs, r) := octet_loop k r in (Some v :: vs, r)
      | None => (Some (fst (strtoul16 (firstn 2 s)) mod 256)%Z :: repeat None k, s)
      end
  end.

(** What is returned: UUID_null, or a structure *)
Inductive parsed := Null | Struct (d1 d2 d3 : Z) (d4 : list (option Z)).

Notation "'get' p <- x ; k" := (match x with Some p => k | None => Null end) (at level 200, p pattern, right associativity).

(** xplc-cxx/strtouuid.cc:36-119: UuidFromString *)
Definition from_string (s : bytes) : parsed :=
  let '(format1, s) := match s with c :: r => if Ascii.eqb c "{" then (true, r) else (false, s) | [] => (false, s) end in
  get (d1, s) <- field 8 s;
  get s <- literal "-" s;
  get (d2, s) <- field 4 s;
  get s <- literal "-" s;
  get (d3, s) <- field 4 s;
  get s <- literal "-" s;
  get (o0, s) <- octet s;
  get (o1, s) <- octet s;
  get s <- literal "-" s;
  let '(os, s) := octet_loop 6 s in
  get s <- (if format1 : bool then literal "}" s else Some s);
  match s with [] => Struct (d1 mod 2 ^ 32) (d2 mod 2 ^ 16) (d3 mod 2 ^ 16) (Some o0 :: Some o1 :: os) | _ => Null end%Z.

(** xplc-cxx/uuidtostr.cc:36-46: UuidToString; printf's %0wx, for values of at most w digits *)
Definition hexchar (d : Z) : byte := if (d <? 10)%Z then ascii_of_nat (Z.to_nat d + 48) else ascii_of_nat (Z.to_nat d + 87).
Fixpoint hexpad (w : nat) (v : Z) : bytes :=
  match w with 0 => [] | S w => hexpad w (v / 16) ++ [hexchar (v mod 16)] end.
Definition to_string (u : uuid) : bytes :=
  "{" :: hexpad 8 (data1 u) ++ "-" :: hexpad 4 (data2 u) ++ "-" :: hexpad 4 (data3 u) ++ "-" ::
    concat (map (hexpad 2) (firstn 2 (data4 u))) ++ "-" :: concat (map (hexpad 2) (skipn 2 (data4 u))) ++ ["}"].
