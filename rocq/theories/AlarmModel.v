(** Model of the alarm of a WvStream (streams/wvstream.cc).  [now] is wvstime(). *)
From Verif Require Import Base TimeModel.
Local Open Scope Z_scope.

(** include/wvstream.h: alarm_time, last_alarm_check, alarm_was_ticking *)
Record alarms := Alarms { alarm_time : wvtime; last_check : wvtime; ticking : bool }.

Definition zero : wvtime := {| sec := 0; usec := 0 |}.

(** streams/wvstream.cc:256-269: the constructor *)
Definition create : alarms := Alarms zero zero false.

(** streams/wvstream.cc:1056-1062: alarm *)
Definition alarm (now : wvtime) (ms : Z) (s : alarms) : res alarms :=
  if 0 <=? ms then let! t := msecadd now ms in Ok (Alarms t (last_check s) (ticking s))
  else Ok (Alarms zero (last_check s) (ticking s)).

(** streams/wvstream.cc:1065-1093: alarm_remaining *)
Definition remaining (now : wvtime) (s : alarms) : res (alarms * Z) :=
  if sec (alarm_time s) =? 0 then Ok (s, -1)
  else
    let! back := time_lt now (last_check s) in
    let! t := if back then let! d := tvdiff (last_check s) now in tvdiff (alarm_time s) d else Ok (alarm_time s) in
    let! r := msecdiff t now in
    Ok (Alarms t now (ticking s), if r <? 0 then 0 else r).

(** streams/wvstream.cc:403-414: the part of callback() that looks at the alarm *)
Definition callback (now : wvtime) (s : alarms) : res alarms :=
  let! (s, r) := remaining now s in
  Ok (if r =? 0 then Alarms zero (last_check s) true else Alarms (alarm_time s) (last_check s) false).

(** streams/wvstream.cc:850-855, 871-873: what pre_select() makes of a timeout,
    for a stream that is ok and has nothing buffered; [inherit] is
    si.inherit_request *)
Definition pre_select (now : wvtime) (inherit : bool) (timeout : Z) (s : alarms) : res (alarms * Z) :=
  let! (s, rest) := remaining now s in
  if negb inherit && (rest =? 0) then Ok (s, 0)
  else Ok (s, if (0 <=? rest) && ((rest <? timeout) || (timeout <? 0)) then rest + 10 else timeout).

(** streams/wvstream.cc:894-895: what post_select() says because of the alarm *)
Definition post_select (now : wvtime) (s : alarms) : res (alarms * bool) :=
  let! (s, rest) := remaining now s in Ok (s, rest =? 0).

(** Looking at the alarm at each of these times. *)
Fixpoint checks (ts : list wvtime) (s : alarms) : res (alarms * list Z) :=
  match ts with
  | [] => Ok (s, [])
  | t :: ts => let! (s, r) := remaining t s in let! (s, rs) := checks ts s in Ok (s, r :: rs)
  end.

(** callback() at each of these times: the alarm_was_ticking of each. *)
Fixpoint callbacks (ts : list wvtime) (s : alarms) : res (alarms * list bool) :=
  match ts with
  | [] => Ok (s, [])
  | t :: ts => let! s := callback t s in let b := ticking s in let! (s, bs) := callbacks ts s in Ok (s, b :: bs)
  end.
