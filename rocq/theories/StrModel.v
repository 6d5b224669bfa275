(** Model of string helpers, utils/wvstrutils.cc.  A string is the bytes before its
    terminator; [None] is a null string. *)
From Verif Require Import Base Ctype.
From Coq Require Import ZArith.
Local Open Scope nat_scope.

(** strstr(): the text before the first place where [a] begins, and the text from there *)
Fixpoint begins (a s : bytes) : bool :=
  match a, s with
  | [], _ => true
  | x :: a, y :: s => Ascii.eqb x y && begins a s
  | _, [] => false
  end.
Fixpoint strstr (s a : bytes) : option (bytes * bytes) :=
  if begins a s then Some ([], s)
  else match s with
       | [] => None
       | c :: r => match strstr r a with Some (p, m) => Some (c :: p, m) | None => None end
       end.
(** utils/wvstrutils.cc:737-752: strreplace, its loop.  Null strings are read: undefined. *)
Fixpoint replace_loop (fuel : nat) (a b s : bytes) : res bytes :=
  match fuel with
  | O => NoFuel
  | S fuel => match strstr s a with
              | Some (p, m) => let! r := replace_loop fuel a b (skipn (length a) m) in Ok (p ++ b ++ r)
              | None => Ok s
              end
  end.
Definition strreplace (fuel : nat) (s a b : option bytes) : res bytes :=
  match s, a, b with Some s, Some a, Some b => replace_loop fuel a b s | _, _, _ => Fault end.
(** utils/wvstrutils.cc:754-775: undupe; [last]: the character before was [c] *)
Fixpoint undupe (last : bool) (s : bytes) (c : byte) : bytes :=
  match s with
  | [] => []
  | x :: r => if negb (Ascii.eqb x c) then x :: undupe false r c
              else if last then undupe last r c else c :: undupe true r c
  end.
(** utils/wvstrutils.cc:433-441: strcount; strchr() finds the terminator too, the search
    then goes on behind it *)
Fixpoint strcount (s : bytes) (c : byte) : res nat :=
  match s with
  | [] => if Ascii.eqb c nul then Fault else Ok 0
  | x :: r => let! n := strcount r c in Ok (if Ascii.eqb x c then S n else n)
  end.
(** operator! of a string: null or empty *)
Definition nothing (s : option bytes) : bool := match s with None | Some [] => true | _ => false end.
(** utils/wvstrutils.cc:870-883: afterstr *)
Definition afterstr (line a : option bytes) : option bytes :=
  if nothing line || nothing a then None
  else match line, a with
       | Some l, Some a => match strstr l a with None => Some [] | Some (_, m) => Some (skipn (length a) m) end
       | _, _ => None
       end.
(** utils/wvstrutils.cc:886-900: beforestr *)
Definition beforestr (line a : option bytes) : option bytes :=
  if nothing line || nothing a then None
  else match line, a with
       | Some l, Some a => match strstr l a with None => line | Some (p, _) => Some p end
       | _, _ => None
       end.
(** utils/wvstrutils.cc:903-916: substr; [pos], [len]: unsigned int, [line.len()]:
    size_t, so for an empty string [line.len()-1] is the greatest size_t.  A write beyond
    the copy's terminator is undefined (the few bytes by which buffers are rounded up are
    ignored). *)
Definition substr (line : option bytes) (pos len : Z) : res (option bytes) :=
  let n := Z.of_nat match line with Some l => length l | None => 0 end in
  if (pos >? (n - 1) mod 2 ^ 64)%Z then Ok (Some [])
  else if (pos >? n)%Z then Fault
  else
    match line with
    | None => if (pos =? 0)%Z then Ok None else Fault
    | Some l =>
        let ret := skipn (Z.to_nat pos) l in
        if ((pos + len) mod 2 ^ 32 <? n)%Z then
          if (len >? Z.of_nat (length ret))%Z then Fault else Ok (Some (firstn (Z.to_nat len) ret))
        else Ok (Some ret)
    end.
(** utils/wvstrutils.cc:1211-1221: depunctuate; an empty string is read before its start *)
Definition punct (c : byte) : bool := Ascii.eqb c "." || Ascii.eqb c "?" || Ascii.eqb c "!".
Definition depunctuate (line : bytes) : res bytes :=
  match rev line with
  | [] => Fault
  | c :: r => Ok (if punct c then rev r else line)
  end.
(** utils/wvstrutils.cc:114-151: spacecat; the loop that takes separators off the end of
    [a] does not stop at its start *)
Fixpoint lstrip (s : bytes) (c : byte) : bytes := match s with x :: r => if Ascii.eqb x c then lstrip r c else s | [] => [] end.
Definition spacecat (a b : bytes) (sep : byte) (onesep : bool) : res bytes :=
  if onesep then
    let a' := rev (lstrip (rev a) sep) in
    match a, a' with
    | _ :: _, [] => Fault
    | _, _ => if Ascii.eqb sep nul then Fault else Ok (a' ++ sep :: lstrip b sep)
    end
  else Ok (a ++ sep :: b).
(** utils/wvstrutils.cc:187-198: snip_string *)
Definition snip_string (haystack needle : option bytes) : option bytes :=
  match haystack, needle with
  | None, _ => None
  | _, None => haystack
  | Some h, Some n => match strstr h n with Some ([], _) => Some (skipn (length n) h) | _ => Some h end
  end.
(** utils/wvstrutils.cc:410-430: backslash_escape *)
Fixpoint bs_escape (s : bytes) : bytes :=
  match s with [] => [] | c :: r => if isalnum c then c :: bs_escape r else "\"%char :: c :: bs_escape r end.
Definition backslash_escape (s : option bytes) : bytes := match s with None => [] | Some s => bs_escape s end.

(** strrchr(s, '/'): what is before and behind the last slash *)
Fixpoint strrchr (s : bytes) : option (bytes * bytes) :=
  match s with
  | [] => None
  | c :: r => match strrchr r with
              | Some (p, q) => Some (c :: p, q)
              | None => if Ascii.eqb c "/" then Some ([], r) else None
              end
  end.
(** utils/wvstrutils.cc:444-459: getfilename *)
Fixpoint filename (fuel : nat) (s : bytes) : res bytes :=
  match fuel with
  | O => NoFuel
  | S fuel => match s with
              | [] => Ok []
              | _ => match strrchr s with
                     | None => Ok s
                     | Some (p, []) => filename fuel p
                     | Some (_, q) => Ok q
                     end
              end
  end.
Definition getfilename (s : bytes) : res bytes := filename (S (length s)) s.
(** utils/wvstrutils.cc:462-480: getdirname *)
Fixpoint dirname (fuel : nat) (s : bytes) : res bytes :=
  match fuel with
  | O => NoFuel
  | S fuel => match s with
              | [] => Ok []
              | _ => match strrchr s with
                     | None => Ok (B ".")
                     | Some (p, []) => dirname fuel p
                     | Some (p, _) => Ok (match p with [] => B "/" | _ => p end)
                     end
              end
  end.
Definition getdirname (s : bytes) : res bytes := dirname (S (length s)) s.
