(** Model of log receivers: WvLogRcv (streams/wvlog.cc:220-440,
    include/wvlogrcv.h), the console (streams/wvlog.cc:443-462) and the log buffer
    (streams/wvlogbuffer.cc). *)
From Verif Require Import Base Ctype UrlModel.
Local Open Scope Z_scope.

(** include/wvlog.h:58-71: the number of log levels. *)
Definition num_loglevels : Z := 10.
(** streams/wvlog.cc:24-35: loglevels[].  An index outside the table is a fault. *)
Definition loglevels : list bytes := map B ["Crit"; "Err"; "Warn"; "Notice"; "Info"; "*1"; "*2"; "*3"; "*4"; "*5"]%string.
Definition level_name (v : Z) : res bytes :=
  if v <? 0 then Fault else match nth_error loglevels (Z.to_nat v) with Some n => Ok n | None => Fault end.

(** utils/wvstring.cc:516: how the format code shows a null string. *)
Definition shown (s : option bytes) : bytes := match s with Some x => x | None => B "(nil)" end.

(** utils/wvstring.cc:387-396: equality of WvStrings. *)
Definition str_eqb (a b : option bytes) : bool :=
  match a, b with
  | None, None => true
  | Some x, Some y => if list_eq_dec Ascii.ascii_dec x y then true else false
  | _, _ => false
  end.

(** What a receiver is told to do: the virtual functions _begin_line, _mid_line and
    _end_line.  A begin carries the prefix and an end the source and level, which the
    subclass reads from the members. *)
Inductive event := Begin (prefix : bytes) | Mid (s : bytes) | End (source : option bytes) (level : Z).

(** include/wvlogrcv.h:30-36: the members of WvLogRcv.  custom_levels is a list in
    the order in which the table is iterated. *)
Record rcv := { last_source : option bytes; max_level : Z; last_level : Z; last_time : Z;
                at_newline : bool; prefix : bytes; custom : list (bytes * Z); force : bool }.

(** streams/wvlog.cc:225-232: the constructor, and force_new_line, which subclasses
    may set. *)
Definition new (max : Z) (custom : list (bytes * Z)) (force : bool) : rcv :=
  {| last_source := None; max_level := max; last_level := num_loglevels; last_time := 0;
     at_newline := true; prefix := []; custom := custom; force := force |}.
Definition with_newline (r : rcv) (b : bool) : rcv :=
  {| last_source := last_source r; max_level := max_level r; last_level := last_level r; last_time := last_time r;
     at_newline := b; prefix := prefix r; custom := custom r; force := force r |}.
Definition with_prefix (r : rcv) (p : bytes) : rcv :=
  {| last_source := last_source r; max_level := max_level r; last_level := last_level r; last_time := last_time r;
     at_newline := at_newline r; prefix := p; custom := custom r; force := force r |}.
Definition with_time (r : rcv) (t : Z) : rcv :=
  {| last_source := last_source r; max_level := max_level r; last_level := last_level r; last_time := t;
     at_newline := at_newline r; prefix := prefix r; custom := custom r; force := force r |}.
Definition with_head (r : rcv) (s : option bytes) (v : Z) (t : Z) : rcv :=
  {| last_source := s; max_level := max_level r; last_level := v; last_time := t;
     at_newline := at_newline r; prefix := prefix r; custom := custom r; force := force r |}.

(** streams/wvlog.cc:240-245: _make_prefix. *)
Definition make_prefix (r : rcv) : res rcv :=
  let! n := level_name (last_level r) in
  Ok (with_prefix r (shown (last_source r) ++ B "<" ++ n ++ B ">: ")).
(** include/wvlogrcv.h:70-71: begin_line. *)
Definition begin_line (r : rcv) : rcv * list event :=
  if at_newline r then (with_newline r false, [Begin (prefix r)]) else (r, []).
(** include/wvlogrcv.h:72-74: mid_line. *)
Definition mid_line (r : rcv) (s : bytes) : rcv * list event :=
  (match rev s with c :: _ => if Ascii.eqb c newline then with_newline r true else r | [] => r end, [Mid s]).
(** include/wvlogrcv.h:85-87: end_line. *)
Definition end_line (r : rcv) : rcv * list event :=
  if at_newline r then (r, []) else (with_newline r true, [Mid [newline]; End (last_source r) (last_level r)]).

(** streams/wvlog.cc:262-269: my_isprint. *)
Definition my_isprint (c : byte) : bool := isprint c || (128 <=? cc c)%nat.
(** snprintf(hex, 5, "[%02x]", c) for a byte below 0x80: the other bytes count as
    printable and never get here. *)
Definition hexes : bytes := B "0123456789abcdef".
Definition hex (c : byte) : bytes :=
  B "[" ++ [nth (cc c / 16) hexes nul; nth (cc c mod 16) hexes nul] ++ B "]".
(** streams/wvlog.cc:344-349: the longest run without a newline or an unprintable. *)
Fixpoint span (s : bytes) : bytes * bytes :=
  match s with
  | c :: r => if Ascii.eqb c newline || negb (my_isprint c) then ([], s) else let (a, b) := span r in (c :: a, b)
  | [] => ([], [])
  end.
Definition cr : byte := ascii_of_nat 13.
Definition tab : byte := ascii_of_nat 9.
(** streams/wvlog.cc:322-366: the loop over the text. *)
Fixpoint log_loop (fuel : nat) (r : rcv) (buf : bytes) : res (rcv * list event) :=
  match fuel with
  | O => NoFuel
  | S fuel =>
      match buf with
      | [] => Ok (r, [])
      | c :: rest =>
          if Ascii.eqb c newline || Ascii.eqb c cr then
            let (r1, e1) := end_line r in
            let! (r2, e2) := log_loop fuel r1 rest in Ok (r2, e1 ++ e2)
          else
            let (r1, e1) := begin_line r in
            if Ascii.eqb c tab then
              let (r2, e2) := mid_line r1 (B " ") in
              let! (r3, e3) := log_loop fuel r2 rest in Ok (r3, e1 ++ e2 ++ e3)
            else if negb (my_isprint c) then
              let (r2, e2) := mid_line r1 (hex c) in
              let! (r3, e3) := log_loop fuel r2 rest in Ok (r3, e1 ++ e2 ++ e3)
            else
              let (run, rest') := span buf in
              let (r2, e2) := mid_line r1 run in
              let! (r3, e3) := log_loop fuel r2 rest' in Ok (r3, e1 ++ e2 ++ e3)
      end
  end.

(** strstr: does [sub] occur in [s]? *)
Fixpoint starts_with (s sub : bytes) : bool :=
  match sub, s with
  | [], _ => true
  | a :: sub', c :: s' => Ascii.eqb a c && starts_with s' sub'
  | _ :: _, [] => false
  end.
Fixpoint strstr (s sub : bytes) : bool :=
  starts_with s sub || match s with [] => false | _ :: r => strstr r sub end.
(** streams/wvlog.cc:277-292: the threshold.  strstr of a null name is a fault. *)
Fixpoint threshold (rules : list (bytes * Z)) (name : option bytes) (max : Z) : res Z :=
  match rules with
  | [] => Ok max
  | (sub, lvl) :: r =>
      match name with
      | None => Fault
      | Some n => if strstr (map tolower n) sub then Ok lvl else threshold r name max
      end
  end.
(** streams/wvlog.cc:272-367: WvLogRcv::log; [now] is the clock reading. *)
Definition log (r : rcv) (source : option bytes) (loglevel : Z) (text : bytes) (now : Z) : res (rcv * list event) :=
  let! th := threshold (custom r) source (max_level r) in
  if th <? loglevel then Ok (r, []) else
  let! (r2, e2) :=
    if negb (str_eqb source (last_source r)) || negb (loglevel =? last_level r) || force r then
      let (r1, e1) := end_line r in
      let! r2 := make_prefix (with_head r1 source loglevel now) in Ok (r2, e1)
    else if (last_time r =? 0) || negb (now =? last_time r) then
      let r1 := with_time r now in
      if at_newline r then let! r2 := make_prefix r1 in Ok (r2, []) else Ok (r1, [])
    else Ok (r, []) in
  let! (r3, e3) := log_loop (S (length text)) r2 text in
  Ok (r3, e2 ++ e3).

(** Calls a user makes: log, and an explicit end_line (which messages() and the
    destructors do). *)
Inductive op := Log (source : option bytes) (level : Z) (text : bytes) (now : Z) | Flush.
Definition step (r : rcv) (o : op) : res (rcv * list event) :=
  match o with Log s v t n => log r s v t n | Flush => Ok (end_line r) end.
Fixpoint run (r : rcv) (l : list op) : res (rcv * list event) :=
  match l with
  | [] => Ok (r, [])
  | o :: rest => let! (r1, e1) := step r o in let! (r2, e2) := run r1 rest in Ok (r2, e1 ++ e2)
  end.

(** streams/wvlog.cc:459-462 with WvLogRcv::_begin_line (248-251): the bytes the
    console writes.  Simplification: every write to the descriptor succeeds. *)
Definition console (e : event) : bytes := match e with Begin p => p | Mid s => s | End _ _ => [] end.

(** streams/wvlogbuffer.cc:13-17: a message.  [ident] stands for its address;
    the time stamp is left out. *)
Record msg := { ident : nat; level : Z; source : option bytes; message : bytes }.
(** include/wvlogbuffer.h:53-62: the members of WvLogBuffer.  The table of counters
    is a finite map from "source:level" to a list of messages; [next] makes fresh
    addresses. *)
Record logbuf := { msgs : list msg; counters : list (bytes * list msg); current : bytes; max_lines : Z; next : nat }.
Definition new_buf (max : Z) : logbuf := {| msgs := []; counters := []; current := []; max_lines := max; next := 0 |}.

Definition beq (a b : bytes) : bool := if list_eq_dec Ascii.ascii_dec a b then true else false.
Fixpoint find (t : bytes) (l : list (bytes * list msg)) : option (list msg) :=
  match l with (k, v) :: r => if beq k t then Some v else find t r | [] => None end.
Fixpoint put (t : bytes) (v : list msg) (l : list (bytes * list msg)) : list (bytes * list msg) :=
  match l with (k, w) :: r => if beq k t then (k, v) :: r else (k, w) :: put t v r | [] => [(t, v)] end.
(** Unlinking an element from a list, by its address. *)
Fixpoint unlink (m : msg) (l : list msg) : list msg :=
  match l with x :: r => if (ident x =? ident m)%nat then r else x :: unlink m r | [] => [] end.
(** Conversion of an int to size_t. *)
Definition size_t (z : Z) : Z := z mod 2 ^ 64.
(** streams/wvlogbuffer.cc:19-32: MsgCounter::add; the list and what to delete. *)
Definition counter_add (l : list msg) (m : msg) (max : Z) : list msg * option msg :=
  let l' := l ++ [m] in
  if size_t max <? Z.of_nat (length l') then
    match l' with k :: r => (r, Some k) | [] => (l', None) end
  else (l', None).
(** streams/wvlogbuffer.cc:54-74: handle_msg.  Only levels 0 to 9 get here (see
    [level_name] and [buf_event]), so the level is written as one digit. *)
Definition handle_msg (b : logbuf) (src : option bytes) (lvl : Z) (text : bytes) : logbuf :=
  let m := {| ident := next b; level := lvl; source := src; message := text |} in
  let type := shown src ++ B ":" ++ [ascii_of_nat (48 + Z.to_nat lvl)] in
  let l := match find type (counters b) with Some l => l | None => [] end in
  let (l', kill) := counter_add l m (max_lines b) in
  {| msgs := match kill with Some k => unlink k (msgs b ++ [m]) | None => msgs b ++ [m] end;
     counters := put type l' (counters b); current := current b; max_lines := max_lines b; next := S (next b) |}.
(** streams/wvlogbuffer.cc:48-51 and 76-89: _mid_line and _end_line. *)
Definition buf_event (b : logbuf) (e : event) : logbuf :=
  match e with
  | Begin _ => b
  | Mid s => {| msgs := msgs b; counters := counters b; current := current b ++ s; max_lines := max_lines b; next := next b |}
  | End src lvl =>
      let text := current b in
      let b0 := {| msgs := msgs b; counters := counters b; current := []; max_lines := max_lines b; next := next b |} in
      if lvl <? num_loglevels then handle_msg b0 src lvl (trim_string (cstr text)) else b0
  end.
(** include/wvlogbuffer.h:77-78: messages(), after any calls on a new buffer. *)
Definition messages (max : Z) (r : rcv) (l : list op) : res (list msg) :=
  let! (r', e) := run r (l ++ [Flush]) in Ok (msgs (fold_left buf_event e (new_buf max))).
(** streams/wvlogbuffer.cc:91-101: feed_receiver: the calls it makes on the other
    receiver. *)
Definition feed (ms : list msg) (now : Z) : list op := map (fun m => Log (source m) (level m) (message m) now) ms.
