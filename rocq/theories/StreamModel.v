(** Model of WvStream (streams/wvstream.cc) over an arbitrary device: buffering,
    flushing, closing, reading and lines, with the select of WvFdStream
    (streams/wvfdstream.cc). *)
From Verif Require Import Base.
Local Open Scope Z_scope.

(** What a user, or a close callback, may call.  A callback is a name and the calls
    it makes.  Simplification: callbacks do not read from the stream. *)
Inductive act :=
| Write (buf : bytes)
| Flush (msec : Z)
| Close
| SetErr (e : Z)
| SetCloseCallback (c : option (nat * list act))
| NoRead | NoWrite
| FlushThenClose
| Limit (n : Z)
| Delay (b : bool)
| AutoFlush (b : bool).
Definition cbk : Type := nat * list act.

(** What happened, in order.  [Sent] and [Got] are the device's side, the others the
    user's: a write of [buf] that returned [n], data and lines returned (the line
    and the separator that ended it, if any), callbacks registered and called, the
    moment of closing, a limit set while [used] bytes were buffered. *)
Inductive event :=
| Sent (b : bytes) | Wrote (buf : bytes) (n : nat)
| Got (b : bytes) | ReadEv (b : bytes) | Line (l : bytes) (sep : option byte)
| Reg (c : option nat) | Closed | Called (c : nat)
| LimitEv (n : Z) (used : nat).

(** One answer of the world.  Every call of uwrite, uread, select and every look at
    the clock takes the next answer and uses the parts it needs: how many bytes the
    device takes, how many the buffer hands out in one piece, what the device
    delivers, whether it fails (an error of 0 is a close without error), what select
    says, and whether the time is up.  When no answer is left the run is NoFuel: the
    call has not returned yet. *)
Record answer := { take : nat; chunk : nat; data : bytes; wfail : option Z; rfail : option Z;
                   sfail : option Z; ready : bool; flushable : bool; late : bool }.

(** The members of WvStream (include/wvstream.h:600-660), the answers to come and the
    history.  The buffers are byte queues; the properties of WvDynBuf are a separate
    model.  [autoclose] is autoclose_time != 0. *)
Record st := { out : bytes; inb : bytes; closed : bool; err : Z; stop_r : bool; stop_w : bool; limit : Z; delayed : bool; auto_fl : bool; want : bool; flushing : bool; qmin : nat; autoclose : bool; closecb : option cbk; env : list answer; tr : list event }.
Definition set_out (x : bytes) (s : st) : st := {| out := x; inb := inb s; closed := closed s; err := err s; stop_r := stop_r s; stop_w := stop_w s; limit := limit s; delayed := delayed s; auto_fl := auto_fl s; want := want s; flushing := flushing s; qmin := qmin s; autoclose := autoclose s; closecb := closecb s; env := env s; tr := tr s |}.
Definition set_inb (x : bytes) (s : st) : st := {| out := out s; inb := x; closed := closed s; err := err s; stop_r := stop_r s; stop_w := stop_w s; limit := limit s; delayed := delayed s; auto_fl := auto_fl s; want := want s; flushing := flushing s; qmin := qmin s; autoclose := autoclose s; closecb := closecb s; env := env s; tr := tr s |}.
Definition set_closed (x : bool) (s : st) : st := {| out := out s; inb := inb s; closed := x; err := err s; stop_r := stop_r s; stop_w := stop_w s; limit := limit s; delayed := delayed s; auto_fl := auto_fl s; want := want s; flushing := flushing s; qmin := qmin s; autoclose := autoclose s; closecb := closecb s; env := env s; tr := tr s |}.
Definition set_err (x : Z) (s : st) : st := {| out := out s; inb := inb s; closed := closed s; err := x; stop_r := stop_r s; stop_w := stop_w s; limit := limit s; delayed := delayed s; auto_fl := auto_fl s; want := want s; flushing := flushing s; qmin := qmin s; autoclose := autoclose s; closecb := closecb s; env := env s; tr := tr s |}.
Definition set_stop_r (x : bool) (s : st) : st := {| out := out s; inb := inb s; closed := closed s; err := err s; stop_r := x; stop_w := stop_w s; limit := limit s; delayed := delayed s; auto_fl := auto_fl s; want := want s; flushing := flushing s; qmin := qmin s; autoclose := autoclose s; closecb := closecb s; env := env s; tr := tr s |}.
Definition set_stop_w (x : bool) (s : st) : st := {| out := out s; inb := inb s; closed := closed s; err := err s; stop_r := stop_r s; stop_w := x; limit := limit s; delayed := delayed s; auto_fl := auto_fl s; want := want s; flushing := flushing s; qmin := qmin s; autoclose := autoclose s; closecb := closecb s; env := env s; tr := tr s |}.
Definition set_limit (x : Z) (s : st) : st := {| out := out s; inb := inb s; closed := closed s; err := err s; stop_r := stop_r s; stop_w := stop_w s; limit := x; delayed := delayed s; auto_fl := auto_fl s; want := want s; flushing := flushing s; qmin := qmin s; autoclose := autoclose s; closecb := closecb s; env := env s; tr := tr s |}.
Definition set_delayed (x : bool) (s : st) : st := {| out := out s; inb := inb s; closed := closed s; err := err s; stop_r := stop_r s; stop_w := stop_w s; limit := limit s; delayed := x; auto_fl := auto_fl s; want := want s; flushing := flushing s; qmin := qmin s; autoclose := autoclose s; closecb := closecb s; env := env s; tr := tr s |}.
Definition set_auto_fl (x : bool) (s : st) : st := {| out := out s; inb := inb s; closed := closed s; err := err s; stop_r := stop_r s; stop_w := stop_w s; limit := limit s; delayed := delayed s; auto_fl := x; want := want s; flushing := flushing s; qmin := qmin s; autoclose := autoclose s; closecb := closecb s; env := env s; tr := tr s |}.
Definition set_want (x : bool) (s : st) : st := {| out := out s; inb := inb s; closed := closed s; err := err s; stop_r := stop_r s; stop_w := stop_w s; limit := limit s; delayed := delayed s; auto_fl := auto_fl s; want := x; flushing := flushing s; qmin := qmin s; autoclose := autoclose s; closecb := closecb s; env := env s; tr := tr s |}.
Definition set_flushing (x : bool) (s : st) : st := {| out := out s; inb := inb s; closed := closed s; err := err s; stop_r := stop_r s; stop_w := stop_w s; limit := limit s; delayed := delayed s; auto_fl := auto_fl s; want := want s; flushing := x; qmin := qmin s; autoclose := autoclose s; closecb := closecb s; env := env s; tr := tr s |}.
Definition set_qmin (x : nat) (s : st) : st := {| out := out s; inb := inb s; closed := closed s; err := err s; stop_r := stop_r s; stop_w := stop_w s; limit := limit s; delayed := delayed s; auto_fl := auto_fl s; want := want s; flushing := flushing s; qmin := x; autoclose := autoclose s; closecb := closecb s; env := env s; tr := tr s |}.
Definition set_autoclose (x : bool) (s : st) : st := {| out := out s; inb := inb s; closed := closed s; err := err s; stop_r := stop_r s; stop_w := stop_w s; limit := limit s; delayed := delayed s; auto_fl := auto_fl s; want := want s; flushing := flushing s; qmin := qmin s; autoclose := x; closecb := closecb s; env := env s; tr := tr s |}.
Definition set_closecb (x : option cbk) (s : st) : st := {| out := out s; inb := inb s; closed := closed s; err := err s; stop_r := stop_r s; stop_w := stop_w s; limit := limit s; delayed := delayed s; auto_fl := auto_fl s; want := want s; flushing := flushing s; qmin := qmin s; autoclose := autoclose s; closecb := x; env := env s; tr := tr s |}.
Definition set_env (x : list answer) (s : st) : st := {| out := out s; inb := inb s; closed := closed s; err := err s; stop_r := stop_r s; stop_w := stop_w s; limit := limit s; delayed := delayed s; auto_fl := auto_fl s; want := want s; flushing := flushing s; qmin := qmin s; autoclose := autoclose s; closecb := closecb s; env := x; tr := tr s |}.
Definition set_tr (x : list event) (s : st) : st := {| out := out s; inb := inb s; closed := closed s; err := err s; stop_r := stop_r s; stop_w := stop_w s; limit := limit s; delayed := delayed s; auto_fl := auto_fl s; want := want s; flushing := flushing s; qmin := qmin s; autoclose := autoclose s; closecb := closecb s; env := env s; tr := x |}.

(** streams/wvstream.cc:245-268: the constructor. *)
Definition new (l : Z) (e : list answer) : st :=
  {| out := []; inb := []; closed := false; err := 0; stop_r := false; stop_w := false; limit := l;
     delayed := false; auto_fl := true; want := true; flushing := false; qmin := 0; autoclose := false;
     closecb := None; env := e; tr := [] |}.
(** streams/wvstream.cc:448-451: isok. *)
Definition isok (s : st) : bool := negb (closed s) && (err s =? 0).
Definition emit (e : event) (s : st) : st := set_tr (tr s ++ [e]) s.
(** Take the next answer of the world. *)
Definition ask (s : st) : res (st * answer) :=
  match env s with a :: r => Ok (set_env r s, a) | [] => NoFuel end.
Definition is_nil (b : bytes) : bool := match b with [] => true | _ => false end.

(** The internal calls, which may call each other and, through a close callback,
    the user. *)
Inductive cmd :=
| DoClose | DoFlush (msec : Z) | DoFlushOut (msec : Z) | DoSelect (rd : bool) | DoErr (e : Z) | DoAuto
| DoAct (a : act) | DoCall (c : cbk).

Section Calls.
(** How the calls made from a function body are run. *)
Variable call : cmd -> st -> res (st * bool).

(** The device's write; streams/wvfdstream.cc:176-198. *)
Definition uwrite (buf : bytes) (s : st) : res (st * nat) :=
  if negb (isok s) then Ok (s, 0%nat) else
  let! (s, a) := ask s in
  let real := Nat.min (take a) (length buf) in
  let s := emit (Sent (firstn real buf)) s in
  match wfail a with
  | None => Ok (s, real)
  | Some e => let! (s, _) := call (DoErr e) s in Ok (s, real)
  end.
(** The device's read; streams/wvfdstream.cc:151-173. *)
Definition uread (n : nat) (s : st) : res (st * bytes) :=
  if negb (isok s) then Ok (s, []) else
  let! (s, a) := ask s in
  let d := firstn n (data a) in
  let s := emit (Got d) s in
  match rfail a with
  | None => Ok (s, d)
  | Some e => let! (s, _) := call (DoErr e) s in Ok (s, d)
  end.
(** streams/wvstream.cc:585-589: maybe_autoclose. *)
Definition maybe_autoclose (s : st) : res (st * bool) :=
  if stop_r s && stop_w s && is_nil (out s) && is_nil (inb s) && negb (closed s) then call DoClose s else Ok (s, true).
(** streams/wvstream.cc:343-361: close. *)
Definition close (s : st) : res (st * bool) :=
  let! (s, _) := call (DoFlush 2000) s in
  let s := emit Closed (set_closed true s) in
  match closecb s with
  | Some cb => call (DoCall cb) (set_closecb None s)
  | None => Ok (s, true)
  end.
(** streams/wvstream.cc:454-461: seterr. *)
Definition seterr (e : Z) (s : st) : res (st * bool) :=
  if err s =? 0 then call DoClose (set_err e s) else Ok (s, true).
(** streams/wvstream.cc:706-722: flush. *)
Definition flush (msec : Z) (s : st) : res (st * bool) :=
  if flushing s then Ok (s, false) else
  let! (s, b) := call (DoFlushOut msec) (set_want true (set_flushing true s)) in
  Ok (set_flushing false s, b).
(** streams/wvstream.cc:748-780: the loop of flush_outbuf; [used] is
    outbuf_was_used. *)
Fixpoint flush_loop (fuel : nat) (msec : Z) (s : st) (used : bool) : res (st * bool) :=
  match fuel with
  | O => NoFuel
  | S fuel =>
      if negb (used && isok s) then Ok (s, used) else
      let! (s, a) := ask s in
      let attempt := Nat.max 1 (Nat.min (chunk a) (length (out s))) in
      let blk := firstn attempt (out s) in
      let! (s, real) := uwrite blk (set_out (skipn attempt (out s)) s) in
      let s := if isok s && (real <? length blk)%nat then set_out (skipn real blk ++ out s) s else s in
      if msec =? 0 then Ok (s, used) else
      if 0 <=? msec then
        let! (s, a) := ask s in
        if late a then Ok (s, used) else
        let! (s, b) := call (DoSelect false) s in
        if negb b then Ok (s, used) else flush_loop fuel msec s (negb (is_nil (out s)))
      else flush_loop fuel msec s (negb (is_nil (out s)))
  end.
(** streams/wvstream.cc:730-806: flush_outbuf. *)
Definition flush_outbuf (msec : Z) (s : st) : res (st * bool) :=
  let used := negb (is_nil (out s)) in
  if negb used && negb (autoclose s) && negb (delayed s) then
    let! (s, _) := call DoAuto s in Ok (s, true)
  else
    let! (s, used) := flush_loop (S (length (env s))) msec s used in
    let! s :=
      if autoclose s && isok s then
        let! (s, a) := ask s in
        if is_nil (out s) || late a then let! (s, _) := call DoClose (set_autoclose false s) in Ok s else Ok s
      else Ok s in
    let s := if delayed s && negb used then set_want false s else s in
    let s := if used && negb (isok s) then set_out [] s else s in
    let! (s, _) := call DoAuto s in
    Ok (s, negb used).
(** streams/wvstream.cc:845-910, 1003-1022 and streams/wvfdstream.cc:233-303: select,
    reduced to what changes the stream: an automatic close, a failing select, the
    two flushes of post_select, and the answer. *)
Definition select (rd : bool) (s : st) : res (st * bool) :=
  let! (s, _) := call DoAuto s in
  let! (s, a) := ask s in
  match sfail a with
  | Some e => let! (s, _) := call (DoErr e) s in Ok (s, false)
  | None =>
      let! s := if want s then let! (s, _) := call (DoFlush 0) s in Ok s else Ok s in
      let res := rd && negb (is_nil (inb s)) && (qmin s <=? length (inb s))%nat in
      if isok s && (negb (is_nil (out s)) || autoclose s) && flushable a && want s then
        let! (s, _) := call (DoFlushOut 0) s in
        if negb (isok s) then Ok (s, res) else Ok (s, ready a || res)
      else Ok (s, ready a || res)
  end.
(** Unsigned 64-bit subtraction. *)
Definition sub_size (a b : Z) : Z := (a - b) mod 2 ^ 64.
(** streams/wvstream.cc:534-568: write. *)
Definition write (buf : bytes) (s : st) : res (st * bool) :=
  if negb (isok s) || is_nil buf || stop_w s then Ok (emit (Wrote buf 0) s, true) else
  let! (s, wrote) := if negb (delayed s) && is_nil (out s) then uwrite buf s else Ok (s, 0%nat) in
  let rest := skipn wrote buf in
  let count := if limit s =? 0 then length rest
               else let can := sub_size (limit s) (Z.of_nat (length (out s))) in
                    if can <? Z.of_nat (length rest) then Z.to_nat can else length rest in
  let s := emit (Wrote buf (wrote + count)) (set_out (out s ++ firstn count rest) s) in
  if want s then (if auto_fl s then call (DoFlush 0) s else call (DoFlushOut 0) s) else Ok (s, true).
(** streams/wvstream.cc:1181-1194: setclosecallback. *)
Definition setclosecallback (c : option cbk) (s : st) : res (st * bool) :=
  let s := emit (Reg (option_map fst c)) s in
  if isok s then Ok (set_closecb c s, true) else
  let s := set_closecb None s in
  match c with Some cb => call (DoCall cb) s | None => Ok (s, true) end.
(** streams/wvstream.cc:571-582 (noread, nowrite), 828-843 (flush_then_close) and
    include/wvstream.h:129-130, 246-259 (outbuf_limit, delay_output, auto_flush). *)
Definition do_act (a : act) (s : st) : res (st * bool) :=
  match a with
  | Write buf => write buf s
  | Flush msec => call (DoFlush msec) s
  | Close => call DoClose s
  | SetErr e => call (DoErr e) s
  | SetCloseCallback c => setclosecallback c s
  | NoRead => call DoAuto (set_stop_r true s)
  | NoWrite => call DoAuto (set_stop_w true s)
  | FlushThenClose => call (DoFlush 0) (set_autoclose true s)
  | Limit n => Ok (set_limit n (emit (LimitEv n (length (out s))) s), true)
  | Delay b => Ok (set_want (negb b) (set_delayed b s), true)
  | AutoFlush b => Ok (set_auto_fl b s, true)
  end.
(** A close callback runs: the calls it makes, one after the other. *)
Fixpoint acts (l : list act) (s : st) : res (st * bool) :=
  match l with [] => Ok (s, true) | a :: r => let! (s, _) := call (DoAct a) s in acts r s end.
Definition body (c : cmd) (s : st) : res (st * bool) :=
  match c with
  | DoClose => close s
  | DoFlush m => flush m s
  | DoFlushOut m => flush_outbuf m s
  | DoSelect rd => select rd s
  | DoErr e => seterr e s
  | DoAuto => maybe_autoclose s
  | DoAct a => do_act a s
  | DoCall (i, l) => acts l (emit (Called i) s)
  end.
End Calls.

(** Calls nested at most [depth] deep. *)
Fixpoint exec (depth : nat) (c : cmd) (s : st) : res (st * bool) :=
  match depth with O => NoFuel | S d => body (exec d) c s end.

Section Reading.
Variable depth : nat.
(** streams/wvstream.cc:492-531: read.  While the device reads into inbuf the space
    allocated for it counts as used. *)
Definition read (count : nat) (s : st) : res st :=
  let! s :=
    if (length (inb s) <? qmin s)%nat then
      let old := inb s in
      let n := (qmin s - length old)%nat in
      let! (s, d) := uread (exec depth) n (set_inb (old ++ repeat nul n) s) in Ok (set_inb (old ++ d) s)
    else Ok s in
  if (length (inb s) <? qmin s)%nat then
    let! (s, _) := exec depth DoAuto s in Ok (emit (ReadEv []) s)
  else if is_nil (inb s) then
    let! (s, d) := uread (exec depth) count s in
    let s := emit (ReadEv d) s in
    let! (s, _) := exec depth DoAuto s in Ok s
  else
    let s := emit (ReadEv (firstn count (inb s))) (set_inb (skipn count (inb s)) s) in
    let! (s, _) := exec depth DoAuto s in Ok s.
(** utils/wvbuffer.cc: WvBuf::strchr: the number of bytes up to and including the
    first [c], 0 if there is none. *)
Fixpoint strchr (l : bytes) (c : byte) : nat :=
  match l with
  | [] => 0
  | x :: r => if Ascii.eqb x c then 1 else match strchr r c with O => O | S n => S (S n) end
  end.
(** streams/wvstream.cc:618-667: the loop of blocking_getline; true if the line is
    to be taken, false for NULL. *)
Fixpoint getline_loop (fuel : nat) (wait : Z) (sep : byte) (ahead : nat) (s : st) : res (st * bool) :=
  match fuel with
  | O => NoFuel
  | S fuel =>
      if negb (isok s) then Ok (s, true) else
      let s := set_qmin 0 s in
      if (0 <? strchr (inb s) sep)%nat then Ok (s, true) else
      if stop_r s then Ok (s, true) else
      let s := set_qmin (length (inb s) + 1) s in
      let! (s, wait) := if 0 <? wait then let! (s, a) := ask s in Ok (s, if late a then 0 else wait) else Ok (s, wait) in
      let! (s, has) := exec depth (DoSelect true) s in
      if negb (isok s) then Ok (s, true) else
      let! (s, has) := if has then let! (s, d) := uread (exec depth) ahead s in
                                   Ok (set_inb (inb s ++ d) s, negb (is_nil d))
                       else Ok (s, has) in
      if negb (isok s) then Ok (s, true) else
      if negb has && (wait =? 0) then Ok (s, false) else getline_loop fuel wait sep ahead s
  end.
(** streams/wvstream.cc:604-689: blocking_getline, without continue_select. *)
Definition getline (wait : Z) (sep : byte) (ahead : nat) (s : st) : res st :=
  let! (s, _) := exec depth DoAuto s in
  let! (s, b) := getline_loop (S (length (env s))) wait sep ahead s in
  if negb b || is_nil (inb s) then Ok s else
  match strchr (inb s) sep with
  | S i => Ok (emit (Line (firstn i (inb s)) (Some sep)) (set_inb (skipn (S i) (inb s)) s))
  | O => Ok (emit (Line (inb s) None) (set_inb [] s))
  end.

(** Everything a user may call. *)
Inductive op := Do (a : act) | Read (count : nat) | GetLine (wait : Z) (sep : byte) (ahead : nat) | QueueMin (n : nat).
Definition step (o : op) (s : st) : res st :=
  match o with
  | Do a => let! (s, _) := exec depth (DoAct a) s in Ok s
  | Read n => read n s
  | GetLine w c a => getline w c a s
  | QueueMin n => Ok (set_qmin n s)
  end.
Fixpoint run (l : list op) (s : st) : res st :=
  match l with [] => Ok s | o :: r => let! s := step o s in run r s end.
End Reading.
