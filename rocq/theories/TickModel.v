(** Model of streams/wvtimestream.cc.  [now] is wvstime(). *)
From Verif Require Import Base TimeModel.
Local Open Scope Z_scope.

(** include/wvtimestream.h:24-26 *)
Record ticker := Ticker { last : wvtime; next : wvtime; ms_per_tick : Z }.

(** streams/wvtimestream.cc:9-12 *)
Definition create : ticker := Ticker {| sec := 0; usec := 0 |} {| sec := 0; usec := 0 |} 0.

(** include/wvtimeutils.h:33-34: "a <= b" compares the two as long longs *)
Definition time_le (a b : wvtime) : res bool := let! x := to_ll a in let! y := to_ll b in Ok (x <=? y).

(** streams/wvtimestream.cc:15-22: set_timer *)
Definition set_timer (now : wvtime) (ms : Z) : res ticker :=
  let ms := if 0 <? ms then ms else 0 in
  let! n := msecadd now ms in
  Ok (Ticker now n ms).

(** streams/wvtimestream.cc:31-61: pre_select; [timeout] is what was asked for
    before (also by the base class, which is left out) *)
Definition pre_select (now : wvtime) (timeout : Z) (s : ticker) : res (ticker * Z) :=
  if ms_per_tick s =? 0 then Ok (s, timeout)
  else
    let! back := time_lt now (last s) in
    let! n := if back then let! d := tvdiff (last s) now in tvdiff (next s) d else Ok (next s) in
    let s := Ticker now n (ms_per_tick s) in
    let! due := time_le n now in
    if due then Ok (s, 0)
    else
      let! d := msecdiff n now in
      let d := if d <? 0 then 0 else d in
      Ok (s, if (d <? timeout) || (timeout <? 0) then d else timeout).

(** streams/wvtimestream.cc:64-69: post_select *)
Definition post_select (now : wvtime) (s : ticker) : res bool :=
  if ms_per_tick s =? 0 then Ok false else time_le (next s) now.

(** streams/wvtimestream.cc:72-97: execute; [ticking] is alarm_was_ticking *)
Definition execute (now : wvtime) (ticking : bool) (s : ticker) : res ticker :=
  if ticking then Ok s
  else
    let! n := msecadd (next s) (ms_per_tick s) in
    let! ahead := msecdiff n now in
    let! behind := msecdiff now n in
    let! m100 := i64 (ms_per_tick s * 100) in
    if (m100 <? ahead) || (m100 <? behind) then
      let! n := msecadd now (ms_per_tick s) in Ok (Ticker now n (ms_per_tick s))
    else
      let! m10 := i64 (ms_per_tick s * 10) in
      if m10 <? ahead then let! n := msecadd now (ms_per_tick s) in Ok (Ticker (last s) n (ms_per_tick s))
      else Ok (Ticker (last s) n (ms_per_tick s)).

(** One round of the main loop, in which the stepped time stands still: whether
    the timer ticked. *)
Definition round (now : wvtime) (s : ticker) : res (ticker * bool) :=
  let! (s, _) := pre_select now (-1) s in
  let! b := post_select now s in
  if b then let! s := execute now false s in Ok (s, true) else Ok (s, false).

Fixpoint rounds (ts : list wvtime) (s : ticker) : res (ticker * list bool) :=
  match ts with
  | [] => Ok (s, [])
  | t :: ts => let! (s, b) := round t s in let! (s, bs) := rounds ts s in Ok (s, b :: bs)
  end.
