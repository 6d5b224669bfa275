(** Model of WvConf: configfile/wvconf.cc, cfgsection.cc, cfgentry.cc.  Strings hold no
    NUL; null names are not modelled (they would be read). *)
From Verif Require Import Base Ctype UrlModel IniModel IntFmtModel.
Local Open Scope nat_scope.

(** strcasecmp() == 0, C locale *)
Fixpoint same (a b : bytes) : bool :=
  match a, b with
  | [], [] => true
  | c :: a, d :: b => Ascii.eqb (tolower c) (tolower d) && same a b
  | _, _ => false
  end.
(** strcmp() == 0, WvString == *)
Fixpoint exact (a b : bytes) : bool :=
  match a, b with
  | [], [] => true
  | c :: a, d :: b => Ascii.eqb c d && exact a b
  | _, _ => false
  end.
Definition empty (s : bytes) : bool := match s with [] => true | _ => false end.

(** ** Sections *)
(** include/wvconf.h:34-71: a section holds entries (name, value) in order *)
Definition entries := list (bytes * bytes).
(** configfile/cfgsection.cc:26-44: operator[], get *)
Fixpoint find_entry (l : entries) (e : bytes) : option bytes :=
  match l with [] => None | (n, v) :: r => if same n e then Some v else find_entry r e end.
Fixpoint set_first (l : entries) (e v : bytes) : entries :=
  match l with [] => [] | (n, w) :: r => if same n e then (n, v) :: r else (n, w) :: set_first r e v end.
Fixpoint remove_first (l : entries) (e : bytes) : entries :=
  match l with [] => [] | (n, w) :: r => if same n e then r else (n, w) :: remove_first r e end.
(** configfile/cfgsection.cc:47-65: set.  trim_string() removes white space only at the
    end of its argument: its result is not used. *)
Definition sect_set (l : entries) (e v : bytes) : entries :=
  let e := rtrim e in
  if empty v then remove_first l e
  else match find_entry l e with Some _ => set_first l e v | None => l ++ [(e, v)] end.
(** configfile/cfgsection.cc:68-73: quick_set *)
Definition quick_set (l : entries) (e v : bytes) : entries := l ++ [(rtrim e, v)].
(** configfile/cfgsection.cc:76-88: dump *)
Definition line_of (x : bytes * bytes) : bytes :=
  if empty (snd x) then fst x ++ B " =" ++ [newline] else fst x ++ B " = " ++ snd x ++ [newline].
Definition dump (l : entries) : bytes := flat_map line_of l.

(** ** Configurations *)
(** include/wvconf.h:77-90: a callback; the section and entry may be blank *)
Record callback := Cb { cb_id : nat; cb_sect : bytes; cb_entry : bytes; cb_cookie : nat }.
Definition call : Type := nat * bytes * bytes * bytes * bytes.
Record conf := Conf { sects : list (bytes * entries); glob : entries; dirty : bool; error : bool; loaded : bool; cbs : list callback }.
Definition with_sects (c : conf) (s : list (bytes * entries)) (g : entries) (d : bool) : conf := Conf s g d (error c) (loaded c) (cbs c).
(** configfile/wvconf.cc:413-425: operator[] *)
Fixpoint find_sect (l : list (bytes * entries)) (s : bytes) : option (bytes * entries) :=
  match l with [] => None | x :: r => if same (fst x) s then Some x else find_sect r s end.
Fixpoint upd_sect (l : list (bytes * entries)) (s : bytes) (f : entries -> entries) : list (bytes * entries) :=
  match l with [] => [] | x :: r => if same (fst x) s then (fst x, f (snd x)) :: r else x :: upd_sect r s f end.
Fixpoint del_sect (l : list (bytes * entries)) (s : bytes) : list (bytes * entries) :=
  match l with [] => [] | x :: r => if same (fst x) s then r else x :: del_sect r s end.
(** configfile/wvconf.cc:276-278: where the search goes on *)
Definition parent (c : conf) (l : entries) : option (bytes * entries) :=
  match find_entry l (B "Inherits") with Some v => find_sect (sects c) v | None => None end.
(** configfile/wvconf.cc:276-283, 316-323, 340-347: the search in a section and those it
    inherits from; [cache]: the names of the sections seen.  Gives the value found and
    the cache. *)
Fixpoint search (fuel : nat) (c : conf) (cache : list bytes) (s : option (bytes * entries)) (e : bytes) : res (option bytes * list bytes) :=
  match s with
  | None => Ok (None, cache)
  | Some (n, l) =>
      if existsb (exact n) cache then Ok (None, cache)
      else match find_entry l e with
           | Some v => Ok (Some v, cache)
           | None => match fuel with O => NoFuel | S f => search f c (n :: cache) (parent c l) e end
           end
  end.
Definition enough (c : conf) : nat := S (length (sects c)).
Definition or_else (a b : option bytes) : option bytes := match a with Some _ => a | None => b end.
(** configfile/wvconf.cc:270-286: get *)
Definition get (c : conf) (s e : bytes) (def : option bytes) : res (option bytes) :=
  let! (v, _) := search (enough c) c [] (find_sect (sects c) s) e in
  Ok (or_else v (or_else (find_entry (glob c) e) def)).
(** configfile/wvconf.cc:331-351: fuzzy_get with one entry *)
Fixpoint fuzzy1 (c : conf) (cache : list bytes) (ss : list bytes) (e : bytes) : res (option bytes * list bytes) :=
  match ss with
  | [] => Ok (None, cache)
  | s :: r =>
      let! (v, cache) := search (enough c) c cache (find_sect (sects c) s) e in
      match v with Some _ => Ok (v, cache) | None => fuzzy1 c cache r e end
  end.
Definition fuzzy_get1 (c : conf) (ss : list bytes) (e : bytes) (def : option bytes) : res (option bytes) :=
  let! (v, _) := fuzzy1 c [] ss e in Ok (or_else v def).
(** configfile/wvconf.cc:305-328: fuzzy_get with a list of entries; the cache is kept from
    one entry to the next *)
Fixpoint fuzzy_entries (c : conf) (cache : list bytes) (s : bytes) (es : list bytes) : res (option bytes * list bytes) :=
  match es with
  | [] => Ok (None, cache)
  | e :: r =>
      let! (v, cache) := search (enough c) c cache (find_sect (sects c) s) e in
      match v with Some _ => Ok (v, cache) | None => fuzzy_entries c cache s r end
  end.
Fixpoint fuzzy (c : conf) (cache : list bytes) (ss es : list bytes) : res (option bytes * list bytes) :=
  match ss with
  | [] => Ok (None, cache)
  | s :: r =>
      let! (v, cache) := fuzzy_entries c cache s es in
      match v with Some _ => Ok (v, cache) | None => fuzzy c cache r es end
  end.
Definition fuzzy_get (c : conf) (ss es : list bytes) (def : option bytes) : res (option bytes) :=
  let! (v, _) := fuzzy c [] ss es in Ok (or_else v def).

(** configfile/wvconf.cc:564-578: run_callbacks; callbacks do not change the list *)
Definition wants (cb : callback) (s e : bytes) : bool :=
  (empty (cb_sect cb) || same (cb_sect cb) s) && (empty (cb_entry cb) || same (cb_entry cb) e).
Definition run_callbacks (c : conf) (s e old new : bytes) : list call :=
  map (fun cb => (cb_id cb, s, e, old, new)) (filter (fun cb => wants cb s e) (cbs c)).
(** configfile/wvconf.cc:581-587: run_all_callbacks *)
Definition run_all (c : conf) : list call := map (fun cb => (cb_id cb, [], [], [], [])) (cbs c).
(** configfile/wvconf.cc:539-561: add_callback, del_callback *)
Definition add_callback (c : conf) (cb : callback) : conf := Conf (sects c) (glob c) (dirty c) (error c) (loaded c) (cbs c ++ [cb]).
Fixpoint del_cb (l : list callback) (s e : bytes) (cookie : nat) : list callback :=
  match l with
  | [] => []
  | cb :: r => if (cb_cookie cb =? cookie) && exact (cb_sect cb) s && exact (cb_entry cb) e then r else cb :: del_cb r s e cookie
  end.
Definition del_callback (c : conf) (s e : bytes) (cookie : nat) : conf := Conf (sects c) (glob c) (dirty c) (error c) (loaded c) (del_cb (cbs c) s e cookie).
(** configfile/wvconf.cc:354-382: set; gives the calls made, which come before the change *)
Definition conf_set (c : conf) (s e : bytes) (value : option bytes) : conf * list call :=
  let v := match value with Some v => v | None => [] end in
  match find_sect (sects c) s, empty v with
  | None, true => (c, [])
  | f, _ =>
      let l := match f with None => sects c ++ [(s, [])] | Some _ => sects c end in
      let old := match find_sect l s with Some x => match find_entry (snd x) e with Some o => o | None => [] end | None => [] end in
      if exact old v then (with_sects c l (glob c) (dirty c), [])
      else (with_sects c (upd_sect l s (fun x => sect_set x e v)) (glob c) true, run_callbacks c s e old v)
  end.
(** configfile/wvconf.cc:405-410: maybeset *)
Definition maybeset (c : conf) (s e : bytes) (value : option bytes) : res (conf * list call) :=
  match value with
  | None => Ok (c, [])
  | Some _ => let! old := get c s e None in match old with None => Ok (conf_set c s e value) | Some _ => Ok (c, []) end
  end.
(** configfile/wvconf.cc:428-436: delete_section *)
Definition delete_section (c : conf) (s : bytes) : conf :=
  match find_sect (sects c) s with Some _ => with_sects c (del_sect (sects c) s) (glob c) true | None => c end.

(** configfile/wvconf.cc:66-80: check_for_bool_string *)
Definition bool_string (s : bytes) : res Z :=
  if same s (B "off") || same s (B "false") || same (firstn 2 s) (B "no") then Ok 0%Z
  else if same s (B "on") || same s (B "true") || same s (B "yes") then Ok 1%Z
  else atoi s.
(** configfile/wvconf.cc:134-138, 161-165: getint, setint *)
Definition getint (c : conf) (s e : bytes) (def : Z) : res Z :=
  let! d := string_of_signed 32 def in
  let! v := get c s e (Some d) in
  match v with Some v => bool_string v | None => Fault end.
Definition setint (c : conf) (s e : bytes) (i : Z) : res (conf * list call) :=
  let! d := string_of_signed 32 i in Ok (conf_set c s e (Some d)).

(** What is before and behind the first [c] *)
Fixpoint cut (s : bytes) (c : byte) : option (bytes * bytes) :=
  match s with
  | [] => None
  | x :: r => if Ascii.eqb x c then Some ([], r) else match cut r c with Some (a, b) => Some (x :: a, b) | None => None end
  end.
(** configfile/wvconf.cc:96-129: parse_wvconf_request *)
Inductive request := Bad (code : Z) | Request (s e : bytes) (v : option bytes).
Definition parse_request (r : bytes) : request :=
  match cut r "[" with
  | None => Bad (-1)
  | Some (_, r) =>
      match cut r "]" with
      | None => Bad (-2)
      | Some (s, r) =>
          let '(e, v) := match cut r "=" with None => (r, None) | Some (e, v) => (e, Some (trim_string v)) end in
          if empty (trim_string s) then Bad (-3) else Request (trim_string s) (trim_string e) v
      end
  end.
(** configfile/wvconf.cc:292-302, 389-401: getraw, setraw *)
Definition getraw (c : conf) (r : bytes) : res (option bytes * Z) :=
  match parse_request r with Bad z => Ok (None, z) | Request s e v => let! x := get c s e v in Ok (x, 0%Z) end.
Definition setraw (c : conf) (r : bytes) : res (conf * list call * option bytes * Z) :=
  match parse_request r with
  | Bad z => Ok (c, [], None, z)
  | Request s e v => let (c, l) := conf_set c s e v in let! x := get c s e v in Ok (c, l, x, 0%Z)
  end.

(** ** Files *)
(** The lines that getline() gives: each ends at its NUL if it has one *)
Fixpoint split_lines (cur : bytes) (s : bytes) : list bytes :=
  match s with
  | [] => if empty cur then [] else [rev cur]
  | c :: r => if Ascii.eqb c newline then rev cur :: split_lines [] r else split_lines (c :: cur) r
  end.
Definition lines (s : bytes) : list bytes := map cstr (split_lines [] s).
(** configfile/wvconf.cc:439-452: parse_section *)
Definition parse_section (s : bytes) : option bytes :=
  match s with
  | c :: r => if Ascii.eqb c "[" then match cut r "]" with Some (n, []) => Some (trim_string n) | _ => None end else None
  | [] => None
  end.
(** configfile/wvconf.cc:455-466: parse_value, with the name and the missing value as
    load_file() takes them (236-241) *)
Definition parse_value (s : bytes) : bytes * bytes :=
  match cut s "=" with None => (trim_string s, []) | Some (n, v) => (trim_string n, trim_string v) end.
(** configfile/wvconf.cc:213-250: a line; [cur]: the current section, [None] for the global
    one; [quick]: quick_mode *)
Definition load_line (x : list (bytes * entries) * entries * option bytes * bool) (line : bytes) : list (bytes * entries) * entries * option bytes * bool :=
  let '(ss, g, cur, quick) := x in
  let line := trim_string line in
  match parse_section line with
  | Some p =>
      if empty p then (ss, g, None, false)
      else match find_sect ss p with
           | Some _ => (ss, g, Some p, false)
           | None => (ss ++ [(p, [])], g, Some p, true)
           end
  | None =>
      let (n, v) := parse_value line in
      if empty n then x
      else match cur with
           | None => (ss, if quick then quick_set g n v else sect_set g n v, cur, quick)
           | Some p => (upd_sect ss p (fun l => if quick then quick_set l n v else sect_set l n v), g, cur, quick)
           end
  end.
Definition load_text (ss : list (bytes * entries)) (g : entries) (text : bytes) : list (bytes * entries) * entries :=
  let '(ss, g, _, _) := fold_left load_line (lines text) (ss, g, None, false) in (ss, g).
(** What open() and fstat() tell; [Sticky]: the sticky bit is set; [Unreadable]: another
    error than ENOENT *)
Inductive view := Absent | Unreadable | Sticky | Text (b : bytes).
(** configfile/wvconf.cc:177-256: load_file *)
Definition load_file (c : conf) (f : view) : conf * list call :=
  match f with
  | Absent => (c, [])
  | Unreadable | Sticky => (Conf (sects c) (glob c) (dirty c) (error c || negb (loaded c)) (loaded c) (cbs c), [])
  | Text b => let (ss, g) := load_text (sects c) (glob c) b in (Conf ss g (dirty c) (error c) true (cbs c), run_all c)
  end.
(** configfile/wvconf.cc:55-62: the constructor *)
Definition new_conf (f : view) : conf := fst (load_file (Conf [] [] false false false []) f).
(** configfile/wvconf.cc:498-507: the text that is saved *)
Definition sect_text (x : bytes * entries) : bytes := [newline] ++ B "[" ++ fst x ++ B "]" ++ [newline] ++ dump (snd x).
Definition save_text (c : conf) : bytes := dump (glob c) ++ flat_map sect_text (sects c).
(** A file: its contents and its sticky bit *)
Definition disk := option (bytes * bool).
Definition see (d : disk) : view := match d with None => Absent | Some (b, true) => Sticky | Some (b, false) => Text b end.
(** configfile/wvconf.cc:474-516: the states of the file while it is saved, in order, after
    the one before: open() truncates it, keeping its mode, then the sticky bit is set, the
    text is written in pieces, and the old mode is set *)
Fixpoint writes (done : bytes) (pieces : list bytes) : list disk :=
  match pieces with [] => [] | p :: r => Some (done ++ p, true) :: writes (done ++ p) r end.
Definition save_trace (d : disk) (pieces : list bytes) : list disk :=
  let old := match d with Some (_, s) => s | None => false end in
  Some ([], old) :: Some ([], true) :: writes [] pieces ++ [Some (concat pieces, old)].
(** How open() for writing ends *)
Inductive opens := Opened | NoDirectory | Refused.
(** configfile/wvconf.cc:469-536: save, flush *)
Definition save (c : conf) (o : opens) (d : disk) : conf * disk :=
  if error c then (c, d)
  else match o with
       | Opened => (c, Some (save_text c, match d with Some (_, s) => s | None => false end))
       | NoDirectory => (c, d)
       | Refused => (Conf (sects c) (glob c) (dirty c) true (loaded c) (cbs c), d)
       end.
Definition flush (c : conf) (o : opens) (d : disk) : conf * disk :=
  if negb (dirty c) || error c then (c, d)
  else let (c, d) := save c o d in (Conf (sects c) (glob c) false (error c) (loaded c) (cbs c), d).
