(** Model of the text format of UniIniGen, uniconf/uniinigen.cc: save and the
    parsing part of refresh.  The tree is that of TempModel, the quoting functions
    those of TclModel, keys those of KeyModel.
    Simplifications: the save callback, log messages and read errors are left out;
    strings are shorter than 2^31; WvString and WvFile do what they say. *)
From Verif Require Import Base Ctype TclModel KeyModel UrlModel TempModel.
Local Open Scope char_scope.
Local Open Scope list_scope.

Definition cr : byte := ascii_of_nat 13.
Definition tab : byte := ascii_of_nat 9.

(** uniconf/uniinigen.cc:367-385: the loop of absolutely_needs_escape, and 386-392,
    what follows it.  [n] is numbraces. *)
Fixpoint needs_loop (seps : bytes) (n : Z) (inescape inspace : bool) (s : bytes) : bool :=
  match s with
  | [] => inescape || inspace || negb (n =? 0)%Z
  | c :: r =>
      if negb inescape && (n =? 0)%Z && in_set seps c then true
      else
        let n' := if inescape then n
                  else if Ascii.eqb c "\" then n
                  else if Ascii.eqb c "{" then (n + 1)%Z
                  else if Ascii.eqb c "}" then (n - 1)%Z else n in
        if (n' <? 0)%Z then false
        else needs_loop seps n' (negb inescape && Ascii.eqb c "\") (isspace c) r
  end.
(** uniconf/uniinigen.cc:356-393: absolutely_needs_escape *)
Definition absolutely_needs_escape (s seps : bytes) : bool :=
  match s with
  | c :: _ => if isspace c then true else needs_loop seps 0 false false s
  | [] => needs_loop seps 0 false false s
  end.

(** wvtcl_escape and wvtcl_unescape of a string that is not null *)
Definition escape_str (nasties : mask) (s : bytes) : res bytes :=
  let! o := wvtcl_escape nasties (Some s) in of_opt o.
Definition unescape_str (s : bytes) : res bytes :=
  let! o := wvtcl_unescape (Some s) in of_opt o.

(** uniconf/uniinigen.cc:399-402, 420-422: the characters that make a name or a
    value be escaped, and those the escaping hides. *)
Definition section_seps : bytes := [cr; newline; "["; "]"].
Definition section_nasties : mask := Mask (in_set [cr; newline; "["; "]"]) cr.
Definition key_seps : bytes := [cr; newline; "["; "]"; "="; "#"; """"].
Definition key_nasties : mask := Mask (in_set [cr; newline; tab; " "; "["; "]"; "="; "#"]) cr.
Definition value_seps : bytes := [cr; newline].

(** uniconf/uniinigen.cc:396-413: printsection.  What is printed, one string for
    each call of print(). *)
Definition printsection (k : key) : res (list bytes) :=
  let s := printable k in
  let! s := if absolutely_needs_escape s section_seps then escape_str section_nasties s else Ok s in
  Ok [newline :: B "["; s; B "]" ++ [newline]].
(** uniconf/uniinigen.cc:416-446: printkey *)
Definition printkey (k : key) (v : bytes) : res (list bytes) :=
  let s := printable k in
  let! s := if absolutely_needs_escape s key_seps then escape_str key_nasties s
            else Ok (match s with [] => B "/" | _ => s end) in
  let! v := if absolutely_needs_escape v value_seps then escape_str WVTCL_NASTY_SPACES v else Ok v in
  Ok [s; B " = "; v; [newline]].

(** The loop over the children, with the flag printedsection *)
Definition each {A} (f : A -> bool -> res (list bytes * bool)) : list A -> bool -> res (list bytes * bool) :=
  fix go (l : list A) (printed : bool) :=
    match l with
    | [] => Ok ([], printed)
    | x :: r =>
        let! (o, printed) := f x printed in
        let! (o', printed) := go r printed in
        Ok (o ++ o', printed)
    end.
(** uniconf/uniinigen.cc:449-483: save_sect, one round of the loop for the child
    [node]; [top] is the full key of toplevel, [rel] that of the parent relative to
    toplevel. *)
Fixpoint save_node (top rel : key) (recursive : bool) (node : tree bytes) (printed : bool) : res (list bytes * bool) :=
  match node with
  | Node k v ch =>
      let! (o, printed) :=
        match v with
        | [] => Ok ([], printed)
        | _ =>
            let! o := if printed : bool then Ok [] else printsection top in
            let! o' := printkey (rel ++ [k]) v in
            Ok (o ++ o', true)
        end in
      if recursive then
        let! (o', printed) := each (save_node top (rel ++ [k]) true) ch printed in
        Ok (o ++ o', printed)
      else Ok (o, printed)
  end.
Definition save_sect (top rel : key) (recursive : bool) (t : tree bytes) (printed : bool) : res (list bytes * bool) :=
  each (save_node top rel recursive) (tch t) printed.
(** uniconf/uniinigen.cc:486-514: save(file, root) *)
Definition save (root : option (tree bytes)) : res (list bytes) :=
  match root with
  | None => Ok []
  | Some t =>
      let! o1 := match tval t with [] => Ok [] | v => printkey (collapse [tkey t]) v end in
      let! (o2, _) := save_sect [] [] false t false in
      let! (o3, _) := each (fun c _ => save_sect [tkey c] [] true c false) (tch t) false in
      Ok (o1 ++ o2 ++ o3)
  end.

(** UniConfKey::prepend, uniconf/uniconfkey.cc:152-171, on a key that was parsed
    from text (KeyHeapModel has the storage). *)
Definition kprepend (section k : key) : key := collapse (filter (fun s => negb (isnil s)) section ++ k).

(** The section in force and the tree built so far *)
Definition pstate := (key * gen)%type.
(** trim_string() writes NULs at the end of the string it is given and returns a
    pointer past the white space at its start: the string itself keeps that. *)
Definition rtrim (s : bytes) : bytes := rev (drop_space (rev s)).
Definition equals : mask := Mask (in_set ["="]) "=".
(** uniconf/uniinigen.cc:116-169: what is done with one word of the file *)
Definition take_word (w0 : bytes) (st : pstate) : res pstate :=
  let '(section, g) := st in
  let w := rtrim w0 in
  let str := drop_space w in
  match str with
  | [] => Ok st
  | c :: r =>
      if Ascii.eqb c "#" then Ok st
      else if Ascii.eqb c "[" && Ascii.eqb (last str nul) "]" then
        let! name := unescape_str (trim_string (List.removelast r)) in
        let! k := parse (Some name) in
        Ok (k, g)
      else
        let! (name, line) := wvtcl_getword equals false w in
        match name, line with
        | Some name, e :: value =>
            let! name := unescape_str (trim_string name) in
            match name with
            | [] => Ok st
            | _ =>
                let! k := parse (Some name) in
                if Ascii.eqb e "=" then
                  let! value := unescape_str (trim_string value) in
                  Ok (section, fst (tset g (kprepend section k) (Some value)))
                else Fault
            end
        | _, _ => Ok st
        end
  end.
(** uniconf/uniinigen.cc:110-175: the loop over the words in the buffer.  Each
    word shortens the buffer. *)
Fixpoint take_words (fuel : nat) (buf : bytes) (st : pstate) : res (bytes * pstate) :=
  match fuel with
  | O => NoFuel
  | S fuel =>
      let! (w, buf') := wvtcl_getword WVTCL_NASTY_NEWLINES false buf in
      match w with
      | None => Ok (buf', st)
      | Some w => let! st := take_word w st in take_words fuel buf' st
      end
  end.
(** uniconf/uniinigen.cc:97-175 while lines can be read: each is put into the
    buffer with a newline.  A line is a C string. *)
Fixpoint read_lines (lines : list bytes) (buf : bytes) (st : pstate) : res (bytes * pstate) :=
  match lines with
  | [] => Ok (buf, st)
  | l :: r =>
      let b := buf ++ cstr l ++ [newline] in
      let! (buf, st) := take_words (S (length b)) b st in
      read_lines r buf st
  end.
(** WvBufBase::strchr, utils/wvbuffer.cc:47-61: the number of bytes up to and with
    the character, 0 if there is none. *)
Fixpoint buf_strchr (b : bytes) (c : byte) : nat :=
  match b with
  | [] => 0
  | x :: r => if Ascii.eqb x c then 1 else match buf_strchr r c with O => 0 | n => S n end
  end.
(** uniconf/uniinigen.cc:97-188 after the end of the file *)
Fixpoint at_eof (fuel : nat) (buf : bytes) (st : pstate) : res pstate :=
  match fuel with
  | O => NoFuel
  | S fuel =>
      match buf with
      | [] => Ok st
      | _ =>
          let! (buf, st) := take_words (S (length buf)) buf st in
          match buf with
          | [] => Ok st
          | _ => match buf_strchr buf newline with
                 | O => Fault
                 | n => at_eof fuel (skipn n buf) st
                 end
          end
      end
  end.
(** What blocking_getline() hands out in turn for the content of a file: the text
    between newlines, and the rest if it is not empty. *)
Fixpoint lines_of (cur : bytes) (s : bytes) : list bytes :=
  match s with
  | [] => match cur with [] => [] | _ => [cur] end
  | c :: r => if Ascii.eqb c newline then cur :: lines_of [] r else lines_of (cur ++ [c]) r
  end.
(** uniconf/uniinigen.cc:91-188: the tree that refresh() builds from a file. *)
Definition load (content : bytes) : res gen :=
  let g := fst (tset tinit [] (Some [])) in
  let! (buf, st) := read_lines (lines_of [] content) [] ([], g) in
  let! (_, g) := at_eof (S (length buf)) buf st in
  Ok g.
