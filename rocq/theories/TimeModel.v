(** Model of utils/wvtimeutils.cc and include/wvtimeutils.h.  time_t, long and
    long long are 64 bits; overflow is a fault. *)
From Verif Require Import Base.
Local Open Scope Z_scope.

(** include/wvtimeutils.h:19-37: WvTime, a struct timeval *)
Record wvtime := { sec : Z; usec : Z }.
(** Signed 64-bit arithmetic. *)
Definition i64 (z : Z) : res Z := if (- 2 ^ 63 <=? z) && (z <? 2 ^ 63) then Ok z else Fault.
(** utils/wvtimeutils.cc: INT_MAX and INT_MIN of <limits.h> *)
Definition int_max : Z := 2 ^ 31 - 1.
Definition int_min : Z := - 2 ^ 31.

(** include/wvtimeutils.h:24-25: WvTime(long long) *)
Definition of_ll (t : Z) : wvtime := {| sec := Z.quot t 1000000; usec := Z.rem t 1000000 |}.
(** include/wvtimeutils.h:33-34: operator long long *)
Definition to_ll (t : wvtime) : res Z := let! a := i64 (sec t * 1000000) in i64 (a + usec t).
(** include/wvtimeutils.h:62-67: normalize *)
Definition normalize (t : wvtime) : res wvtime :=
  let! q := if usec t <? 0 then i64 (Z.quot (usec t) 1000000 - 1) else Ok (Z.quot (usec t) 1000000) in
  let! s := i64 (sec t + q) in
  let u := Z.rem (usec t) 1000000 in
  let! u := i64 (u + if u <? 0 then 1000000 else 0) in
  Ok {| sec := s; usec := u |}.
(** utils/wvtimeutils.cc:14-28: msecdiff *)
Definition msecdiff (a b : wvtime) : res Z :=
  let! secdiff := i64 (sec a - sec b) in
  let! usecdiff := i64 (usec a - usec b) in
  let! m := i64 (secdiff * 1000) in
  let! msecs := i64 (m + Z.quot usecdiff 1000) in
  Ok (if int_max <? msecs then int_max else if msecs <? int_min then int_min else msecs).
(** utils/wvtimeutils.cc:39-46: msecadd *)
Definition msecadd (a : wvtime) (msec : Z) : res wvtime :=
  let! s := i64 (sec a + Z.quot msec 1000) in
  let! u := i64 (usec a + Z.rem msec 1000 * 1000) in
  normalize {| sec := s; usec := u |}.
(** utils/wvtimeutils.cc:49-64: tvdiff *)
Definition tvdiff (a b : wvtime) : res wvtime :=
  let! s := i64 (sec a - sec b) in
  let! (s, u) := if usec a <? usec b then let! s := i64 (s - 1) in let! u := i64 (usec a + 1000000) in Ok (s, u) else Ok (s, usec a) in
  let! u := i64 (u - usec b) in
  normalize {| sec := s; usec := u |}.
(** include/wvtimeutils.h:33-34: "a < b" compares the two as long longs *)
Definition time_lt (a b : wvtime) : res bool := let! x := to_ll a in let! y := to_ll b in Ok (x <? y).
(** utils/wvtimeutils.cc:67-99: the stepped time and what changes it.  The clock
    reading taken by each call is an argument. *)
Inductive step := Sync (now : wvtime) | SyncForward (now : wvtime) | SetTime (t : wvtime).
Definition do_step (cur : wvtime) (s : step) : res wvtime :=
  match s with
  | Sync now => Ok now
  | SyncForward now => let! b := time_lt cur now in Ok (if b then now else cur)
  | SetTime t => Ok t
  end.
Fixpoint do_steps (cur : wvtime) (l : list step) : res wvtime :=
  match l with [] => Ok cur | s :: r => let! c := do_step cur s in do_steps c r end.
