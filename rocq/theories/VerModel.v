(** Model of utils/verstring.cc: version numbers and version strings. *)
From Verif Require Import Base VerSpec.
From Coq Require Import NArith.
Local Open Scope N_scope.

(** 32-bit unsigned arithmetic *)
Definition wrap (n : N) : N := n mod 2 ^ 32.
Definition shl (n k : N) : N := wrap (n * 2 ^ k).

(** The [k]-th hexadecimal digit *)
Definition nib (n k : N) : N := n / 16 ^ k mod 16.
Fixpoint unzero (l : bytes) : bytes := match l with [] => [] | c :: r => match r with [] => l | _ => if Ascii.eqb c "0" then unzero r else l end end.
(** sprintf's %x, %02x and %04x of numbers with at most four digits, as all are here *)
Definition x4 (n : N) : bytes := [hexch (nib n 3); hexch (nib n 2); hexch (nib n 1); hexch (nib n 0)].
Definition x2 (n : N) : bytes := [hexch (nib n 1); hexch (nib n 0)].
Definition x (n : N) : bytes := unzero (x4 n).

(** utils/verstring.cc:158-174: trim_verstr: from the end, zeroes that are not first or after a dot *)
Fixpoint trim_rev (r : bytes) : bytes :=
  match r with
  | [] => []
  | c :: q => match q with [] => r | d :: _ => if (Ascii.eqb c "0" && negb (Ascii.eqb d "."))%bool then trim_rev q else r end
  end.
Definition trim_verstr (s : bytes) : bytes := rev (trim_rev (rev s)).

(** utils/verstring.cc:16-25; [Fault] if the text and its NUL do not fit *)
Definition old_ver_to_string (v : N) : res bytes :=
  let s := x (v / 2 ^ 16) ++ B "." ++ x4 (v mod 2 ^ 16) in
  if Nat.ltb (length s) 10 then Ok (trim_verstr s) else Fault.
(** utils/verstring.cc:28-37 *)
Definition new_ver_to_string (v : N) : res bytes :=
  let s := x (v / 2 ^ 24) ++ B "." ++ x2 (v / 2 ^ 16 mod 2 ^ 8) ++ B "." ++ x4 (v mod 2 ^ 16) in
  if Nat.ltb (length s) 11 then Ok s else Fault.
(** utils/verstring.cc:142-145 *)
Definition is_new_ver (v : N) : bool := negb (v / 2 ^ 24 =? 0).
(** utils/verstring.cc:40-46 *)
Definition ver_to_string (v : N) : res bytes := if is_new_ver v then new_ver_to_string v else old_ver_to_string v.

(** strchr(lookup, tolower(c)) - lookup *)
Fixpoint index (c : ascii) (l : bytes) (i : N) : option N := match l with [] => None | d :: l => if Ascii.eqb c d then Some i else index c l (i + 1) end.
Definition tolow (c : ascii) : ascii := let n := N_of_ascii c in if ((65 <=? n) && (n <=? 90))%bool then ascii_of_N (n + 32) else c.
Definition digit (c : ascii) : option N := index (tolow c) (B "0123456789abcdef") 0.
Definition sep (c : ascii) : bool := (Ascii.eqb c "." || Ascii.eqb c "_")%bool.
(** The loop over the first number; what is left starts with what ended it *)
Fixpoint major (s : bytes) (n : N) : N * bytes :=
  match s with
  | [] => (n, [])
  | c :: r => if sep c then (n, s) else major r (match digit c with Some d => N.lor (shl n 4) d | None => n end)
  end.
(** The loops over the others: at most [bits] digits; [stop]: a separator ends it, too *)
Fixpoint minor (stop : bool) (s : bytes) (bits : nat) (n : N) : N * nat * bytes :=
  match bits, s with
  | O, _ | _, [] => (n, bits, s)
  | S b, c :: r => if (stop && sep c)%bool then (n, bits, s)
                   else match digit c with Some d => minor stop r b (N.lor (shl n 4) d) | None => minor stop r bits n end
  end.
(** utils/verstring.cc:49-79 *)
Definition string_to_old_ver (s : bytes) : N :=
  let '(maj, s) := major s 0 in
  let '(mi, bits, _) := minor false s 4 0 in
  N.lor (shl maj 16) (shl mi (4 * N.of_nat bits)).
(** utils/verstring.cc:82-130 *)
Definition string_to_new_ver (s : bytes) : N :=
  let '(maj, s) := major s 0 in
  let '(mi, _, s) := minor true (tl s) 2 0 in
  let '(rv, bits, _) := minor false s 4 0 in
  N.lor (N.lor (shl maj 24) (shl mi 16)) (shl rv (4 * N.of_nat bits)).
(** utils/verstring.cc:148-155 *)
Fixpoint after_dot (s : bytes) : option bytes := match s with [] => None | c :: r => if Ascii.eqb c "." then Some r else after_dot r end.
Definition is_new_verstr (s : bytes) : bool := match after_dot s with Some r => match after_dot r with Some _ => true | None => false end | None => false end.
(** utils/verstring.cc:133-139 *)
Definition string_to_ver (s : bytes) : N := if is_new_verstr s then string_to_new_ver s else string_to_old_ver s.
