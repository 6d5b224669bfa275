(** Patterns and what they match, and extended regular expressions (POSIX) as regcomp
    and regexec of the C library take them.  Independent of the model. *)
From Verif Require Import Base.
Local Open Scope nat_scope.

(** * Patterns *)
(** A character or a range in brackets *)
Inductive sitem := SChr (c : byte) | SRange (a b : byte).
Inductive glob := GEnd | GThen (i : item) (g : glob)
with item :=
  | ILit (c : byte)            (* a character that stands for itself *)
  | IEsc (c : byte)            (* a character after a backslash *)
  | IAny | IOne                (* star and question mark *)
  | ISet (neg : bool) (first : sitem) (s : list sitem)   (* brackets *)
  | IAlt (a : alts)            (* braces *)
with alts := AOne (g : glob) | AMore (g : glob) (a : alts).

Definition stext (i : sitem) : bytes := match i with SChr c => [c] | SRange a b => [a; "-"%char; b] end.
Fixpoint gtext (g : glob) : bytes := match g with GEnd => [] | GThen i g => itext i ++ gtext g end
with itext (i : item) : bytes :=
  match i with
  | ILit c => [c]
  | IEsc c => ["\"%char; c]
  | IAny => B "*"
  | IOne => B "?"
  | ISet neg f s => B "[" ++ (if neg then B "!" else []) ++ stext f ++ concat (map stext s) ++ B "]"
  | IAlt a => B "{" ++ atext a
  end
with atext (a : alts) : bytes := match a with AOne g => gtext g ++ B "}" | AMore g a => gtext g ++ B "," ++ atext a end.

Definition in_sitem (i : sitem) (c : byte) : Prop :=
  match i with SChr d => c = d | SRange a b => Ascii.nat_of_ascii a <= Ascii.nat_of_ascii c <= Ascii.nat_of_ascii b end.
Definition in_set (s : list sitem) (c : byte) : Prop := Exists (fun i => in_sitem i c) s.
(** The strings a pattern matches.  A negated set also matches a slash. *)
Fixpoint lang (g : glob) (s : bytes) : Prop :=
  match g with GEnd => s = [] | GThen i g => exists a b, s = a ++ b /\ ilang i a /\ lang g b end
with ilang (i : item) (s : bytes) : Prop :=
  match i with
  | ILit c | IEsc c => s = [c]
  | IAny => ~ In "/"%char s
  | IOne => exists c, s = [c] /\ c <> "/"%char
  | ISet neg f l => exists c, s = [c] /\ if neg then ~ in_set (f :: l) c else in_set (f :: l) c
  | IAlt a => alang a s
  end
with alang (a : alts) (s : bytes) : Prop := match a with AOne g => lang g s | AMore g a => lang g s \/ alang a s end.

(** Patterns that are written as above: literal characters are not special, within
    braces they are no comma and no closing brace; sets hold no slash, backslash is a
    character like others there, [-] stands only between the ends of a range, a closing
    bracket only first. *)
Definition plain_in_set (c : byte) : Prop := ~ In c (B "]/-[") /\ c <> nul.
Definition wf_sitem (i : sitem) : Prop :=
  match i with SChr c => plain_in_set c | SRange a b => plain_in_set a /\ plain_in_set b /\ Ascii.nat_of_ascii a <= Ascii.nat_of_ascii b end.
Definition starts (c : byte) (i : sitem) : Prop := exists r, stext i = c :: r.
(** The first of a set that is not negated: no exclamation mark; a circumflex is not the
    start of a range and no other follows it. *)
Definition wf_first (neg : bool) (f : sitem) (s : list sitem) : Prop :=
  if neg then wf_sitem f
  else (wf_sitem f \/ f = SChr "]") /\ ~ starts "!" f /\
       (starts "^" f -> f = SChr "^" /\ forall i r, s = i :: r -> ~ starts "^" i).
Fixpoint wf (inbrace : bool) (g : glob) : Prop := match g with GEnd => True | GThen i g => iwf inbrace i /\ wf inbrace g end
with iwf (inbrace : bool) (i : item) : Prop :=
  match i with
  | ILit c => ~ In c (B "\[*?{") /\ c <> nul /\ (inbrace = true -> ~ In c (B ",}"))
  | IEsc c => c <> nul
  | IAny | IOne => True
  | ISet neg f s => wf_first neg f s /\ Forall wf_sitem s
  | IAlt a => awf a
  end
with awf (a : alts) : Prop := match a with AOne g => wf true g | AMore g a => wf true g /\ awf a end.

(** * Extended regular expressions *)
Inductive re := REps | RChr (c : byte) | RDot | RSet (neg : bool) (s : list sitem) | RStar (r : re) | RCat (r r' : re) | RAlt (r r' : re) | RBol | REol.
Definition isin (l : bytes) (c : byte) : bool := existsb (Ascii.eqb c) l.
(** What is in brackets, after a circumflex: up to a closing bracket that is not first.
    None: classes, reversed ranges, no end. *)
Fixpoint p_set (fuel : nat) (first : bool) (s : bytes) : option (list sitem * bytes) :=
  match fuel with
  | O => None
  | S fuel =>
      match s with
      | [] => None
      | c :: r =>
          if negb first && Ascii.eqb c "]" then Some ([], r)
          else if Ascii.eqb c "[" && match r with d :: _ => isin (B ".=:") d | [] => false end then None
          else
            match r with
            | m :: d :: r2 =>
                if Ascii.eqb m "-" && negb (Ascii.eqb d "]") then
                  if Ascii.nat_of_ascii c <=? Ascii.nat_of_ascii d then
                    match p_set fuel false r2 with Some (l, r3) => Some (SRange c d :: l, r3) | None => None end
                  else None
                else match p_set fuel false r with Some (l, r3) => Some (SChr c :: l, r3) | None => None end
            | _ => match p_set fuel false r with Some (l, r3) => Some (SChr c :: l, r3) | None => None end
            end
      end
  end.
(** Alternatives, concatenations of pieces, atoms.  None: not a regular expression, or
    one whose meaning POSIX leaves open. *)
Fixpoint p_alt (fuel : nat) (s : bytes) : option (re * bytes) :=
  match fuel with
  | O => None
  | S fuel =>
      match p_cat fuel s with
      | Some (e, c :: r) => if Ascii.eqb c "|" then match p_alt fuel r with Some (e', r') => Some (RAlt e e', r') | None => None end else Some (e, c :: r)
      | x => x
      end
  end
with p_cat (fuel : nat) (s : bytes) : option (re * bytes) :=
  match fuel with
  | O => None
  | S fuel =>
      match s with
      | [] => Some (REps, [])
      | c :: _ =>
          if isin (B "|)") c then Some (REps, s)
          else
            match p_atom fuel s with
            | None => None
            | Some (e, r) =>
                match r with
                | q :: r2 =>
                    if Ascii.eqb q "*" then
                      match r2 with
                      | x :: _ => if isin (B "*+?{") x then None else match p_cat fuel r2 with Some (e', r') => Some (RCat (RStar e) e', r') | None => None end
                      | [] => Some (RCat (RStar e) REps, [])
                      end
                    else if isin (B "+?{") q then None
                    else match p_cat fuel r with Some (e', r') => Some (RCat e e', r') | None => None end
                | [] => Some (RCat e REps, [])
                end
            end
      end
  end
with p_atom (fuel : nat) (s : bytes) : option (re * bytes) :=
  match fuel with
  | O => None
  | S fuel =>
      match s with
      | [] => None
      | c :: r =>
          if Ascii.eqb c "(" then match p_alt fuel r with Some (e, d :: r') => if Ascii.eqb d ")" then Some (e, r') else None | _ => None end
          else if Ascii.eqb c "[" then
            match r with
            | d :: r2 => if Ascii.eqb d "^" then match p_set (S (length r2)) true r2 with Some (l, r') => Some (RSet true l, r') | None => None end
                         else match p_set (S (length r)) true r with Some (l, r') => Some (RSet false l, r') | None => None end
            | [] => None
            end
          else if Ascii.eqb c "\" then match r with d :: r' => if isin (B "^.[$()|*+?{\") d then Some (RChr d, r') else None | [] => None end
          else if Ascii.eqb c "^" then Some (RBol, r)
          else if Ascii.eqb c "$" then Some (REol, r)
          else if Ascii.eqb c "." then Some (RDot, r)
          else if isin (B "*+?{|)") c then None
          else Some (RChr c, r)
      end
  end.
Definition compiles (text : bytes) (e : re) : Prop := exists n, forall fuel, n <= fuel -> p_alt fuel text = Some (e, []).
(** [e] matches [mid] between [pre] and [post]. *)
Inductive mt : re -> bytes -> bytes -> bytes -> Prop :=
| M_eps pre post : mt REps pre [] post
| M_chr c pre post : mt (RChr c) pre [c] post
| M_dot c pre post : c <> nul -> mt RDot pre [c] post
| M_set (neg : bool) s c pre post : (if neg then ~ in_set s c else in_set s c) -> mt (RSet neg s) pre [c] post
| M_star0 r pre post : mt (RStar r) pre [] post
| M_star r pre a b post : mt r pre a (b ++ post) -> mt (RStar r) (pre ++ a) b post -> mt (RStar r) pre (a ++ b) post
| M_cat r r' pre a b post : mt r pre a (b ++ post) -> mt r' (pre ++ a) b post -> mt (RCat r r') pre (a ++ b) post
| M_alt1 r r' pre a post : mt r pre a post -> mt (RAlt r r') pre a post
| M_alt2 r r' pre a post : mt r' pre a post -> mt (RAlt r r') pre a post
| M_bol post : mt RBol [] [] post
| M_eol pre : mt REol pre [] [].
(** regexec: somewhere in the text *)
Definition found (e : re) (s : bytes) : Prop := exists pre mid post, s = pre ++ mid ++ post /\ mt e pre mid post.
