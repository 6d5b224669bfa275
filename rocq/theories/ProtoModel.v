(** Model of streams/wvprotostream.cc: the tokenizer.  tokbuf is a list of bytes. *)
From Verif Require Import Base Ctype UrlModel.
Local Open Scope char_scope.

(** streams/wvprotostream.cc:53: whitespace[], with its final NUL *)
Definition whitespace : bytes := [" "; "009"; "013"; "010"; "000"].

(** utils/wvbuffer.cc:63-95: _match; [i] is offset + i *)
Fixpoint match_loop (chlist : bytes) (reverse : bool) (i : nat) (s : bytes) : nat :=
  match s with
  | [] => if reverse then i else 0
  | ch :: s => if Bool.eqb (existsb (Ascii.eqb ch) chlist) reverse then i else match_loop chlist reverse (S i) s
  end.
Definition buf_match (chlist s : bytes) : nat := match_loop chlist false 0 s.
Definition buf_notmatch (chlist s : bytes) : nat := match_loop chlist true 0 s.

(** streams/wvprotostream.cc:51-62: next_token; the new tokbuf and the token *)
Definition next_token (buf : bytes) : bytes * option bytes :=
  let buf := skipn (buf_match whitespace buf) buf in
  let len := buf_notmatch whitespace buf in
  match len with 0 => (buf, None) | _ => (skipn len buf, Some (firstn len buf)) end.

(** streams/wvprotostream.cc:65-73: next_token_str *)
Definition next_token_str (buf : bytes) : bytes * bytes :=
  let '(buf, t) := next_token buf in (buf, match t with None => [] | Some t => t end).

(** streams/wvprotostream.cc:76-80: token_remaining.  The NUL that is put after the
    rest ends it *)
Definition token_remaining (buf : bytes) : bytes * bytes := ([], trim_string buf).

(** streams/wvprotostream.cc:86-104: tokenize *)
Fixpoint tokenize_loop (fuel : nat) (buf : bytes) : res (bytes * list bytes) :=
  match fuel with
  | 0 => NoFuel
  | S fuel =>
      match next_token buf with
      | (buf, None) => Ok (buf, [])
      | (buf, Some t) => let! (buf, ts) := tokenize_loop fuel buf in Ok (buf, t :: ts)
      end
  end.
Definition tokenize (buf : bytes) : res (bytes * list bytes) := tokenize_loop (S (length buf)) buf.

(** streams/wvprotostream.cc:138-157: tokline; the log is left out *)
Definition tokline (line : bytes) : bytes * option bytes := next_token line.

(** strcasecmp() == 0, for the C locale *)
Definition tolower_c (c : byte) : byte :=
  if (Nat.leb 65 (nat_of_ascii c) && Nat.leb (nat_of_ascii c) 90)%bool then ascii_of_nat (nat_of_ascii c + 32) else c.
Fixpoint strcasecmp0 (a b : bytes) : bool :=
  match a, b with
  | [], [] => true
  | x :: a, y :: b => if Ascii.eqb (tolower_c x) (tolower_c y) then strcasecmp0 a b else false
  | _, _ => false
  end.
Fixpoint strcmp0 (a b : bytes) : bool :=
  match a, b with [], [] => true | x :: a, y :: b => if Ascii.eqb x y then strcmp0 a b else false | _, _ => false end.

(** streams/wvprotostream.cc:163-179: tokanal *)
Fixpoint tokanal_loop (t : bytes) (lookup : list bytes) (cs : bool) (i : Z) : Z :=
  match lookup with
  | [] => (-1)%Z
  | l :: lookup => if (negb cs && strcasecmp0 t l || cs && strcmp0 t l)%bool then i else tokanal_loop t lookup cs (i + 1)
  end.
Definition tokanal (t : bytes) (lookup : list bytes) (cs : bool) : Z := tokanal_loop t lookup cs 0.
