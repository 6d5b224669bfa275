(** Model of WvGlob::glob_to_regex, utils/wvglob.cc.  Strings are the bytes before the
    terminator.  Errors are told apart without the index in their text. *)
From Verif Require Import Base.
Local Open Scope nat_scope.

(** utils/wvglob.cc:29-95: the tables of characters to stop at *)
Definition normal_quit (c : byte) : bool := false.
Definition brace_quit (c : byte) : bool := Ascii.eqb c "," || Ascii.eqb c "}".
Inductive gstate := NORMAL | BACKSLASH | BRACKET | BRACKET_FIRST.
Inductive gerr := EBrace | EBracket | EBackslash | ESlash | ENull.
(** What was not used, and what was written; or an error *)
Inductive conv_out := COk (left out : bytes) | CErr (e : gerr).
Definition emit (o : bytes) (r : res conv_out) : res conv_out :=
  let! r := r in Ok (match r with COk l out => COk l (o ++ out) | CErr e => CErr e end).
Definition one_of (l : bytes) (c : byte) : bool := existsb (Ascii.eqb c) l.
(** utils/wvglob.cc:197-203 *)
Definition re_special : byte -> bool := one_of (B "^.$()|+").
(** utils/wvglob.cc:220-231 *)
Definition bs_special : byte -> bool := one_of (B "^.$()|+[{*?\").
(** utils/wvglob.cc:104-316: glob_to_regex with its loop; [conv] is the rest of the loop
    in state [st], [brace] the loop of lines 172-193.  [dst] is NULL in the first pass,
    which only counts; the bytes written are the same. *)
Fixpoint conv (fuel : nat) (quit : byte -> bool) (st : gstate) (src : bytes) : res conv_out :=
  match fuel with
  | O => NoFuel
  | S fuel =>
      match src with
      | [] => Ok (match st with NORMAL => COk [] [] | BACKSLASH => CErr EBackslash | _ => CErr EBracket end)
      | c :: r =>
          match st with
          | NORMAL =>
              if quit c then Ok (COk src [])
              else if Ascii.eqb c "\" then conv fuel quit BACKSLASH r
              else if Ascii.eqb c "[" then
                match r with
                | a :: b :: r2 => if Ascii.eqb a "^" && Ascii.eqb b "]" then emit (B "\^") (conv fuel quit NORMAL r2)
                                  else emit (B "(") (conv fuel quit BRACKET_FIRST r)
                | _ => emit (B "(") (conv fuel quit BRACKET_FIRST r)
                end
              else if Ascii.eqb c "*" then emit (B "([^/]*)") (conv fuel quit NORMAL r)
              else if Ascii.eqb c "?" then emit (B "([^/])") (conv fuel quit NORMAL r)
              else if Ascii.eqb c "{" then emit (B "(") (brace fuel quit r)
              else if re_special c then emit ["\"%char; c] (conv fuel quit NORMAL r)
              else emit [c] (conv fuel quit NORMAL r)
          | BACKSLASH => emit (if bs_special c then ["\"%char; c] else [c]) (conv fuel quit NORMAL r)
          | BRACKET_FIRST =>
              if Ascii.eqb c "!" then emit (B "[^") (conv fuel quit BRACKET r)
              else if Ascii.eqb c "^" then emit (B "\^|[") (conv fuel quit BRACKET r)
              else if Ascii.eqb c "/" then Ok (CErr ESlash)
              else emit ["["%char; c] (conv fuel quit BRACKET r)
          | BRACKET =>
              if Ascii.eqb c "]" then emit (B "])") (conv fuel quit NORMAL r)
              else if Ascii.eqb c "/" then Ok (CErr ESlash)
              else emit [c] (conv fuel quit BRACKET r)
          end
      end
  end
with brace (fuel : nat) (quit : byte -> bool) (src : bytes) : res conv_out :=
  match fuel with
  | O => NoFuel
  | S fuel =>
      let! r := conv fuel brace_quit NORMAL src in
      match r with
      | CErr e => Ok (CErr e)
      | COk l o =>
          match l with
          | c :: l => if Ascii.eqb c "}" then emit (o ++ B ")") (conv fuel quit NORMAL l)
                      else if Ascii.eqb c "," then emit (o ++ B "|") (brace fuel quit l)
                      else Ok (CErr EBrace)
          | [] => Ok (CErr EBrace)
          end
      end
  end.
(** utils/wvglob.cc:318-353: glob_to_regex; 18-27: set(), which compiles what it
    returns *)
Definition glob_to_regex (glob : option bytes) : res (gerr + bytes) :=
  match glob with
  | None => Ok (inl ENull)
  | Some g =>
      let! r := conv (2 * length g + 1) normal_quit NORMAL g in
      match r with
      | CErr e => Ok (inl e)
      | COk _ o => Ok (inr (B "^" ++ o ++ B "$"))
      end
  end.
