(** Model of utils/wvsubproc.cc: waiting for subprocesses and stopping them. *)
From Verif Require Import Base SubSpec.
From Coq Require Import ZArith.
Local Open Scope Z_scope.

(** include/wvsubproc.h: pid, running, estatus ([None]: copied from a variable that was never written), old_pids; fork() sets it to 0 *)
Record st := St { pid : Z; running : bool; estatus : option Z; old_pids : list Z }.
(** utils/wvsubproc.cc:232-252 *)
Definition pidfile_pid (t : tick) : Z := if pidfile t <=? 0 then -1 else pidfile t.
Definition isempty (l : list Z) : bool := match l with [] => true | _ => false end.
(** assert(!running || pid > 0 || !old_pids.isempty()) *)
Definition sane (s : st) : bool := (negb (running s) || (0 <? pid s) || negb (isempty (old_pids s)))%bool.

(** utils/wvsubproc.cc:348-360: the main process is dead; [status] is the local variable *)
Definition dead (s : st) (status : option Z) (t : tick) : st :=
  let p2 := pidfile_pid t in
  St (if pid s =? p2 then -1 else p2) (running s) status (old_pids s ++ [pid s]).
(** utils/wvsubproc.cc:337-387: a round of the loop; [status] is kept between rounds; the last is xrunning *)
Definition round (s : st) (status : option Z) (children : bool) (t : tick) : st * option Z * bool :=
  let '(s, status) :=
    if 0 <? pid s then
      match answer t with
      | Exited x => (dead s (Some x) t, Some x)
      | NoChild => (dead s status t, status)
      | Still | Failed => (s, status)
      end
    else (s, status) in
  if pid s <? 0 then
    let l := filter (alive t) (old_pids s) in
    (St (pid s) (running s) (estatus s) l, status, (children && negb (isempty l))%bool)
  else (s, status, true).
(** utils/wvsubproc.cc:335-399; the rounds that are left come back, too; [NoFuel]: still waiting after all of them *)
Fixpoint loop (delay : Z) (children : bool) (ts : list tick) (s : st) (status : option Z) : res (st * list tick) :=
  match ts with
  | [] => NoFuel
  | t :: ts =>
      let '(s, status, x) := round s status children t in
      if (x && negb (delay =? 0) && ((delay <? 0) || negb (late t)))%bool then loop delay children ts s status
      else Ok (St (pid s) (if x then running s else false) (estatus s) (old_pids s), ts)
  end.
(** utils/wvsubproc.cc:315-400 *)
Definition wait (delay : Z) (children : bool) (ts : list tick) (s : st) : res (st * list tick) :=
  if sane s then
    if (running s || (children && negb (isempty (old_pids s))))%bool then loop delay children ts s None else Ok (s, ts)
  else Fault.
(** utils/wvsubproc.cc:280-286; the signals sent *)
Definition kill_primary (sig : Z) (s : st) : res (list signal) :=
  if sane s then Ok (if (running s && (0 <? pid s))%bool then [(pid s, sig)] else []) else Fault.
(** utils/wvsubproc.cc:255-277; [gone]: there is no such group *)
Fixpoint kill_old (sig : Z) (gone : Z -> bool) (l : list Z) : res (list signal) :=
  match l with
  | [] => Ok []
  | p :: l =>
      if ((p =? 1) || (p =? -1))%bool then Fault
      else let! r := kill_old sig gone l in Ok ((- p, sig) :: (if gone p then [(p, sig)] else []) ++ r)
  end.
Definition kill (sig : Z) (gone : Z -> bool) (s : st) : res (list signal) :=
  if sane s then
    let! a := if 0 <? pid s then
                if pid s =? 1 then Fault
                else if gone (pid s) then let! b := kill_primary sig s in Ok ((- pid s, sig) :: b) else Ok [(- pid s, sig)]
              else Ok [] in
    let! b := kill_old sig gone (old_pids s) in
    Ok (a ++ b)
  else Fault.
Definition kill_or_primary (children : bool) (sig : Z) (gone : Z -> bool) (s : st) : res (list signal) := if children then kill sig gone s else kill_primary sig s.
(** utils/wvsubproc.cc:289-312 *)
Definition stop (delay : Z) (children : bool) (gone : Z -> bool) (ts : list tick) (s : st) : res (st * list tick * list signal) :=
  let! (s, ts) := wait 0 true ts s in
  let! (s, ts, a) := if running s then let! a := kill_or_primary children TERM gone s in let! (s, ts) := wait delay children ts s in Ok (s, ts, a) else Ok (s, ts, []) in
  if running s then let! b := kill_or_primary children KILL gone s in let! (s, ts) := wait (-1) children ts s in Ok (s, ts, a ++ b) else Ok (s, ts, a).
