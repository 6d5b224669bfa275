(** Model of utils/wvtclstring.cc and utils/wvstringmask.cc. *)
From Verif Require Import Base.
Local Open Scope char_scope.
Local Open Scope list_scope.

(** utils/wvstringmask.cc:24-33, include/wvstringmask.h: a 256-entry lookup
    table and the first character put into it. *)
Record mask := Mask { mset : byte -> bool; mfirst : byte }.

(** utils/wvstringmask.cc:35-39 *)
Definition mask_zap : mask := Mask (fun _ => false) nul.

(** utils/wvstringmask.cc:41-47: [set(char, bool)].  [char] is signed on the
    supported platforms, so [_set[unsigned(c)]] with c >= 0x80 indexes far
    outside the table: [Fault]. *)
Definition mask_set_char (m : mask) (c : byte) (v : bool) : res mask :=
  if Nat.leb 128 (nat_of_ascii c) then Fault
  else Ok (Mask (fun x => if Ascii.eqb x c then v else mset m x)
                (if Ascii.eqb (mfirst m) nul then c else mfirst m)).

(** utils/wvstringmask.cc:58-62: the loop of [set(WvStringParm, bool)]. *)
Fixpoint mask_set_loop (m : mask) (s : bytes) (v : bool) : res mask :=
  match s with
  | [] => Ok m
  | c :: r =>
      if Nat.leb 128 (nat_of_ascii c) then Fault
      else mask_set_loop (Mask (fun x => if Ascii.eqb x c then v else mset m x)
                               (mfirst m)) r v
  end.

(** utils/wvstringmask.cc:49-64: [set(WvStringParm, bool)]; a null string does
    nothing.  [_first = *c] reads the terminator for an empty string. *)
Definition mask_set_str (m : mask) (s : option bytes) (v : bool) : res mask :=
  match s with
  | None => Ok m
  | Some s =>
      let f := if Ascii.eqb (mfirst m) nul then hd nul s else mfirst m in
      mask_set_loop (Mask (mset m) f) s v
  end.

(** utils/wvstringmask.cc:12-22: the constructors. *)
Definition mask_of (s : option bytes) : res mask := mask_set_str mask_zap s true.
Definition mask_of_char (c : byte) : res mask := mask_set_char mask_zap c true.

(** include/wvtclstring.h:50 WVTCL_ALWAYS_NASTY_CASE *)
Definition always_nasty (c : byte) : bool :=
  Ascii.eqb c "{" || Ascii.eqb c "}" || Ascii.eqb c "\" || Ascii.eqb c """".

(** utils/wvtclstring.cc:56-65 and 92-101: does this character need a
    backslash? *)
Definition doit (nasties : mask) (c : byte) : bool :=
  always_nasty c || mset nasties c.

(** State of the first loop of wvtcl_escape. *)
Record escst := EscSt
  { e_len : nat; e_unprint : nat; e_brace : Z; e_bs : bool; e_esc : bool }.

(** utils/wvtclstring.cc:43-73: one iteration.  Simplification: [int] counters
    are unbounded (strings shorter than 2^31). *)
Definition esc_step (nasties : mask) (st : escst) (c : byte) : escst :=
  let br := if negb (e_esc st) && Ascii.eqb c "{" then (e_brace st + 1)%Z
            else if negb (e_esc st) && Ascii.eqb c "}" then (e_brace st - 1)%Z
            else e_brace st in
  EscSt (S (e_len st))
        (if doit nasties c then S (e_unprint st) else e_unprint st)
        br
        (if (br <? 0)%Z then true else e_bs st)
        (if Ascii.eqb c "\" then negb (e_esc st) else false).

Definition esc_init : escst := EscSt 0 0 0%Z false false.
Definition esc_scan (nasties : mask) (s : bytes) : escst :=
  fold_left (esc_step nasties) s esc_init.

(** utils/wvtclstring.cc:75-85: which of the three encodings is used. *)
Inductive escmode := Verbatim | Backslash | Embrace.
Definition esc_mode (st : escst) : escmode :=
  let backslashify :=
    e_bs st || negb (Z.eqb (e_brace st) 0) || e_esc st in
  if negb backslashify && Nat.eqb (e_unprint st) 0 then Verbatim
  else if backslashify then Backslash else Embrace.

(** utils/wvtclstring.cc:17-125 with dst = NULL: announced size and the
    [verbatim] flag. *)
Definition escape_size (nasties : mask) (s : option bytes) : nat * bool :=
  match s with
  | None => (0, false)
  | Some [] => (2, false)
  | Some s =>
      let st := esc_scan nasties s in
      match esc_mode st with
      | Verbatim => (e_len st, true)
      | Backslash => (e_len st + e_unprint st, false)
      | Embrace => (e_len st + 2, false)
      end
  end.

(** utils/wvtclstring.cc:90-106: the backslash output loop. *)
Fixpoint backslash_out (nasties : mask) (s : bytes) : bytes :=
  match s with
  | [] => []
  | c :: r => (if doit nasties c then ["\"; c] else [c]) ++ backslash_out nasties r
  end.

(** utils/wvtclstring.cc:17-125 with dst != NULL, writing into block [m] at
    offset [off]: new memory and number of bytes written.  The first loop
    copies the string verbatim before the decision (line 46). *)
Definition escape_write (nasties : mask) (m : mem) (off : nat) (s : option bytes)
  : res (mem * nat) :=
  match s with
  | None => Ok (m, 0)
  | Some [] => let! m := of_opt (store_seq m off ["{"; "}"]) in Ok (m, 2)
  | Some s =>
      let st := esc_scan nasties s in
      let! m := of_opt (store_seq m off s) in
      match esc_mode st with
      | Verbatim => Ok (m, e_len st)
      | Backslash =>
          let out := backslash_out nasties s in
          let! m := of_opt (store_seq m off out) in Ok (m, length out)
      | Embrace =>
          let out := "{" :: s ++ ["}"] in
          let! m := of_opt (store_seq m off out) in Ok (m, length out)
      end
  end.

(** utils/wvtclstring.cc:128-142: wvtcl_escape.  A string is [option bytes],
    [None] being the null string. *)
Definition wvtcl_escape (nasties : mask) (s : option bytes) : res (option bytes) :=
  let '(len, verbatim) := escape_size nasties s in
  if verbatim then Ok s
  else
    let! (m, e) := escape_write nasties (setsize len) 0 s in
    let! m := of_opt (store m e nul) in
    Ok (Some (cstr m)).

(** utils/wvtclstring.cc:178-199: the unbackslashify loop: bytes emitted. *)
Fixpoint unbackslash (inescape : bool) (s : bytes) : bytes :=
  match s with
  | [] => []
  | c :: r =>
      if Ascii.eqb c "\" then
        if inescape then c :: unbackslash false r else unbackslash true r
      else c :: unbackslash false r
  end.

(** utils/wvtclstring.cc:145-201 on a non-null s with s_len = length s: the
    bytes it emits.  Both passes run the same code, so the announced length is
    the length of this list.  For the one-character string consisting of a
    quote the pointer [start] is already past [end] and the loop condition
    [start != end] never becomes false: [Fault].  For s_len = 0 the test reads
    s[0], the terminator, and fails. *)
Definition unescape_emit (s : bytes) : res bytes :=
  match s with
  | [] => Ok []
  | c :: r =>
      if Ascii.eqb c "{" && Ascii.eqb (last s nul) "}" then
        Ok (removelast r)
      else if Ascii.eqb c """" && Ascii.eqb (last s nul) """" then
        match r with
        | [] => Fault
        | _ => Ok (unbackslash false (removelast r))
        end
      else Ok (unbackslash false s)
  end.

(** The allocate / fill / terminate sequence of lines 212-217, 374-378 and
    399-404: [setsize(len+1)], write the emitted bytes, store the NUL, and
    read the result as a C string. *)
Definition make_string (len : nat) (out : bytes) : res bytes :=
  let! m := of_opt (store_seq (setsize (len + 1)) 0 out) in
  let! m := of_opt (store m (length out) nul) in
  Ok (cstr m).

(** utils/wvtclstring.cc:204-218: wvtcl_unescape. *)
Definition wvtcl_unescape (s : option bytes) : res (option bytes) :=
  match s with
  | None => Ok None
  | Some s =>
      let! out := unescape_emit s in
      let! r := make_string (length out) out in
      Ok (Some r)
  end.

(** utils/wvtclstring.cc:228-232: the sizing loop of wvtcl_encode. *)
Definition encode_size (nasties : mask) (l : list (option bytes)) : nat :=
  fold_left (fun size s => size + fst (escape_size nasties s)) l 0.

(** utils/wvtclstring.cc:239-244: the writing loop. *)
Fixpoint encode_write (nasties : mask) (sep : byte) (m : mem) (p : nat)
    (l : list (option bytes)) : res (mem * nat) :=
  match l with
  | [] => Ok (m, p)
  | s :: r =>
      let! (m, n) := escape_write nasties m p s in
      match r with
      | [] => Ok (m, p + n)
      | _ => let! m := of_opt (store m (p + n) sep) in
             encode_write nasties sep m (S (p + n)) r
      end
  end.

(** utils/wvtclstring.cc:221-248: wvtcl_encode; the block size is
    size+(count-1)+1 = size+count. *)
Definition wvtcl_encode (nasties split : mask) (l : list (option bytes)) : res bytes :=
  let size := encode_size nasties l in
  let! (m, p) := encode_write nasties (mfirst split) (setsize (size + length l)) 0 l in
  let! m := of_opt (store m p nul) in
  Ok (cstr m).

(** utils/wvtclstring.cc:264-269: skip leading separators. *)
Fixpoint skip_seps (split : mask) (s : bytes) : bytes :=
  match s with
  | [] => []
  | c :: r => if mset split c then skip_seps split r else s
  end.

(** State of the main loop of wvtcl_getword. *)
Record gwst := GwSt { g_esc : bool; g_cont : bool; g_brace : nat }.

(** utils/wvtclstring.cc:284-340, one iteration: [None] is the [break] at a
    separator (eptr stays on it); [Some (st, true)] is the [break] at a closing
    quote (eptr moves past it). *)
Definition gw_step (split : mask) (inquote : bool) (st : gwst) (ch : byte)
  : option (gwst * bool) :=
  if g_esc st then
    Some (GwSt false (Ascii.eqb ch newline) (g_brace st), false)
  else if Ascii.eqb ch "\" then
    Some (GwSt true false (g_brace st), false)
  else if Nat.eqb (g_brace st) 0 && negb inquote && mset split ch then None
  else if Nat.eqb (g_brace st) 0 && inquote && Ascii.eqb ch """" then
    Some (GwSt false false (g_brace st), true)
  else
    let br := if inquote then g_brace st
              else if Ascii.eqb ch "{" then S (g_brace st)
              else if Nat.ltb 0 (g_brace st) && Ascii.eqb ch "}" then g_brace st - 1
              else g_brace st in
    Some (GwSt false false br, false).

(** utils/wvtclstring.cc:284-340: bytes passed over, remaining bytes, final
    state.  A break at a separator happens before [incontinuation] can be
    true for that character (line 288 clears it). *)
Fixpoint gw_scan (split : mask) (inquote : bool) (st : gwst) (s : bytes)
  : bytes * bytes * gwst :=
  match s with
  | [] => ([], [], st)
  | ch :: r =>
      match gw_step split inquote st ch with
      | None => ([], s, GwSt false false (g_brace st))
      | Some (st', true) => ([ch], r, st')
      | Some (st', false) =>
          let '(t, rest, st'') := gw_scan split inquote st' r in
          (ch :: t, rest, st'')
      end
  end.

(** Result of scanning for one word. *)
Inductive gwres :=
| GNone                              (* WVTCL_GETWORD_NONE *)
| GWord (out rest : bytes).          (* emitted bytes, bytes from *end on *)

(** utils/wvtclstring.cc:252-356. *)
Definition getword_scan (split : mask) (do_unescape : bool) (s : bytes) : res gwres :=
  match skip_seps split s with
  | [] => Ok GNone
  | c :: r =>
      let inquote := Ascii.eqb c """" in
      let '(t, rest, st) :=
        if inquote then
          let '(t, rest, st) := gw_scan split true (GwSt false false 0) r in
          (c :: t, rest, st)
        else gw_scan split false (GwSt false false 0) (c :: r) in
      if negb (Nat.eqb (g_brace st) 0)
         || (match t with [] => true | _ => false end)
         || inquote || g_esc st || g_cont st
      then Ok GNone
      else if do_unescape then let! out := unescape_emit t in Ok (GWord out rest)
      else Ok (GWord t rest)
  end.

(** utils/wvtclstring.cc:359-383: wvtcl_getword on a buffer: returned string
    and buffer content afterwards. *)
Definition wvtcl_getword (split : mask) (do_unescape : bool) (buf : bytes)
  : res (option bytes * bytes) :=
  let! r := getword_scan split do_unescape buf in
  match r with
  | GNone => Ok (None, buf)
  | GWord out rest =>
      let! w := make_string (length out) out in
      Ok (Some w, skipn (length buf - length rest) buf)
  end.

(** utils/wvtclstring.cc:391-409: the loop of wvtcl_decode. *)
Fixpoint decode_loop (fuel : nat) (split : mask) (do_unescape : bool) (s : bytes)
  : res (list bytes) :=
  match fuel with
  | O => NoFuel
  | S fuel =>
      let! r := getword_scan split do_unescape s in
      match r with
      | GNone => Ok []
      | GWord out rest =>
          let! w := make_string (length out) out in
          let! l := decode_loop fuel split do_unescape rest in
          Ok (w :: l)
      end
  end.

(** utils/wvtclstring.cc:386-410: wvtcl_decode (appends to an empty list). *)
Definition wvtcl_decode (split : mask) (do_unescape : bool) (s : bytes)
  : res (list bytes) :=
  decode_loop (S (length s)) split do_unescape s.

(** include/wvtclstring.h:42-57: the default masks. *)
Definition in_set (l : bytes) (c : byte) : bool := existsb (Ascii.eqb c) l.
Definition spaces : bytes := [" "; ascii_of_nat 9; newline; ascii_of_nat 13].
Definition WVTCL_NASTY_SPACES : mask := Mask (in_set spaces) " ".
Definition WVTCL_SPLITCHARS : mask := Mask (in_set spaces) " ".
Definition WVTCL_NASTY_NEWLINES : mask :=
  Mask (in_set [newline; ascii_of_nat 13]) newline.
