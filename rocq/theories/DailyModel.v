(** WvDailyEvent (streams/wvdailyevent.cc, include/wvdailyevent.h).

    localtime() and mktime() are those of a zone that is always [off] seconds
    ahead of UTC (no daylight saving).  WvStream::pre_select and post_select
    are left out (a stream that is ok, without alarm or data).  Times are
    seconds where the code has a time_t; what gettimeofday() says is a WvTime
    given in microseconds (TimeModel). *)
From Verif Require Import Base TimeModel.
Local Open Scope Z_scope.

Definition day : Z := 86400.           (* NUM_SECS_IN_DAY, wvdailyevent.cc:26-27 *)

(** include/wvdailyevent.h:82-88 *)
Record event := Event {
  first_hour : Z; num_per_day : Z; need_reset : bool; skip_first : bool; prev : Z; not_until : Z }.

(** localtime(&t)->tm_hour *)
Definition hour_of (off t : Z) : Z := ((t + off) mod day) / 3600.
(** mktime of localtime(&t) with another hour, and no minutes and seconds *)
Definition at_hour (off h t : Z) : Z := (t + off) / day * day + h * 3600 - off.

(** wvdailyevent.cc:144-145: while (skip_first && next < not_until) *)
Fixpoint skip_loop (n : nat) (next until interval : Z) : res Z :=
  if next <? until then
    match n with
    | O => NoFuel
    | S n => skip_loop n (next + interval) until interval
    end
  else Ok next.

(** streams/wvdailyevent.cc:113-148: next_event; a failed assert() is a fault. *)
Definition next_event (off : Z) (e : event) : res Z :=
  if num_per_day e =? 0 then Ok 0
  else if prev e =? 0 then Fault
  else
    let interval := Z.quot day (num_per_day e) in
    let start := prev e + interval in
    let start := if hour_of off start <? first_hour e then prev e - day + 1 else start in
    let start := at_hour off (first_hour e) start in
    let next := prev e + interval in
    let next := if Z.rem (next - start) interval =? 0 then next
                else start + Z.quot (next - start) interval * interval in
    if next <=? 100000 then Fault
    else if skip_first e then skip_loop (Z.to_nat (not_until e - next)) next (not_until e) interval
    else Ok next.

Definition set_prev (p : Z) (e : event) : event :=
  Event (first_hour e) (num_per_day e) (need_reset e) (skip_first e) p (not_until e).
Definition set_reset (b : bool) (e : event) : event :=
  Event (first_hour e) (num_per_day e) b (skip_first e) (prev e) (not_until e).

(** streams/wvdailyevent.cc:39-64: pre_select; [now] is wvstime().tv_sec and
    [timeout] what was asked for before.  msecdiff(now, next) converts two
    time_t with WvTime(long long), which takes microseconds. *)
Definition pre_select (off now timeout : Z) (e : event) : res (event * Z) :=
  let! (e, timeout) :=
    if num_per_day e =? 0 then Ok (e, timeout)
    else
      let! next := next_event off e in
      if (prev e <=? 100000) || (next <=? 100000) then Fault
      else if now <? next then let! m := msecdiff (of_ll now) (of_ll next) in Ok (e, m)
      else if need_reset e then Ok (e, timeout)
      else Ok (set_prev next (set_reset true e), timeout) in
  Ok (e, if need_reset e then 0 else timeout).

(** streams/wvdailyevent.cc:68-80: post_select; [now] is wvtime().  "prev =
    next" converts a WvTime with operator long long. *)
Definition post_select (off : Z) (now : wvtime) (e : event) : res (event * bool) :=
  let! n := next_event off e in
  let next := {| sec := n; usec := 0 |} in
  let! b := time_lt next now in
  let! e := if b then let! p := to_ll next in Ok (set_prev p e) else Ok e in
  Ok (e, need_reset e || b).

(** streams/wvdailyevent.cc:83-99; [now] is wvstime().tv_sec *)
Definition set_num_per_day (now n : Z) (e : event) : event :=
  let n := if n <? 0 then 1 else n in
  let n := if day <? n then day else n in
  let max := if n =? 0 then 6 * 60 * 60 else Z.quot day n in
  let max := if 6 * 60 * 60 <? max then 6 * 60 * 60 else max in
  Event (first_hour e) n (need_reset e) (skip_first e) now (now + max).

(** streams/wvdailyevent.cc:102-112 *)
Definition configure (now h n : Z) (skip : bool) (e : event) : event :=
  let n := if 24 * 60 <? n then 24 * 60 else n in
  set_num_per_day now n (Event h (num_per_day e) (need_reset e) skip (prev e) (not_until e)).

(** streams/wvdailyevent.cc:29-35 *)
Definition create (now h n : Z) (skip : bool) : event :=
  configure now h n skip (Event 0 0 false false now 0).

(** One select(): pre_select at the stepped time [fst], post_select at the
    time [snd]; what post_select says. *)
Definition round (off : Z) (r : Z * wvtime) (e : event) : res (event * bool) :=
  let! (e, _) := pre_select off (fst r) (-1) e in post_select off (snd r) e.

Fixpoint rounds (off : Z) (l : list (Z * wvtime)) (e : event) : res (event * list bool) :=
  match l with
  | [] => Ok (e, [])
  | r :: l => let! (e, b) := round off r e in let! (e, bs) := rounds off l e in Ok (e, b :: bs)
  end.
