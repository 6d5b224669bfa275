(** Model of WvSubProcQueue: utils/wvsubprocqueue.cc.  Processes are numbers; which
    of them have ended when go() looks is an argument. *)
From Verif Require Import Base.
Local Open Scope nat_scope.

(** include/wvsubprocqueue.h:118-137: an entry; cookie 0 is NULL *)
Record ent := { cookie : nat; proc : nat; redo : bool }.
Definition set_redo (e : ent) (b : bool) : ent := {| cookie := cookie e; proc := proc e; redo := b |}.
(** include/wvsubprocqueue.h:140-141 *)
Record queue := { runq : list ent; waitq : list ent }.
Definition empty : queue := {| runq := []; waitq := [] |}.
(** What can be seen: processes start, and are found to have ended. *)
Inductive event := Start (cookie proc : nat) | Finish (cookie proc : nat).

(** utils/wvsubprocqueue.cc:27-46: the search in add(); [None] when not found *)
Fixpoint mark (c : nat) (l : list ent) : option (list ent) :=
  match l with
  | [] => None
  | e :: r =>
      if cookie e =? c then Some ((match r with [] => e | _ => set_redo e true end) :: r)
      else match mark c r with Some r' => Some (e :: r') | None => None end
  end.
(** utils/wvsubprocqueue.cc:23-50: add.  The process must not be null or running. *)
Definition add (q : queue) (c p : nat) : queue :=
  let fresh := {| runq := runq q; waitq := waitq q ++ [{| cookie := c; proc := p; redo := false |}] |} in
  if c =? 0 then fresh
  else match mark c (waitq q) with Some w => {| runq := runq q; waitq := w |} | None => fresh end.
(** utils/wvsubprocqueue.cc:80-101: the first loop of go(): entries kept, entries
    to be queued again, what is seen *)
Fixpoint cleanup (ended : nat -> bool) (l : list ent) : list ent * list ent * list event :=
  match l with
  | [] => ([], [], [])
  | e :: r =>
      let '(keep, again, ev) := cleanup ended r in
      if ended (proc e)
      then (keep, (if redo e then [set_redo e false] else []) ++ again, Finish (cookie e) (proc e) :: ev)
      else (e :: keep, again, ev)
  end.
(** utils/wvsubprocqueue.cc:62-69: cookie_running *)
Definition cookie_running (l : list ent) : bool := existsb (fun e => negb (cookie e =? 0)) l.
Definition isempty {A} (l : list A) : bool := match l with [] => true | _ => false end.
(** utils/wvsubprocqueue.cc:103-127: the second loop of go(), which looks at the
    first waiting entry only *)
Fixpoint start (max : nat) (rq wq : list ent) : list ent * list ent * list event :=
  match wq with
  | [] => (rq, wq, [])
  | e :: r =>
      if length rq <? max then
        if negb (cookie e =? 0) && negb (isempty rq) then (rq, wq, [])
        else if cookie_running rq then (rq, wq, [])
        else let '(rq', wq', ev) := start max (rq ++ [e]) r in (rq', wq', Start (cookie e) (proc e) :: ev)
      else (rq, wq, [])
  end.
(** utils/wvsubprocqueue.cc:72-131: go, with its final assertion *)
Definition go (max : nat) (ended : nat -> bool) (q : queue) : res (queue * list event) :=
  let '(keep, again, ev1) := cleanup ended (runq q) in
  let '(rq, wq, ev2) := start max keep (waitq q ++ again) in
  if length rq <=? max then Ok ({| runq := rq; waitq := wq |}, ev1 ++ ev2) else Fault.
(** Histories of calls. *)
Inductive op := Add (c p : nat) | Go (ended : nat -> bool).
Definition step (max : nat) (q : queue) (o : op) : res (queue * list event) :=
  match o with Add c p => Ok (add q c p, []) | Go e => go max e q end.
Fixpoint run (max : nat) (q : queue) (l : list op) : res (queue * list event) :=
  match l with
  | [] => Ok (q, [])
  | o :: r => let! (q, e1) := step max q o in let! (q, e2) := run max q r in Ok (q, e1 ++ e2)
  end.
