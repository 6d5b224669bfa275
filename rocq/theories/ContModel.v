(** Model of WvCont (utils/wvcont.cc) on top of WvTaskMan (utils/wvtask.cc).  A task's stack is a
    [ctx]: what setjmp saved, that is where the task is and what it does next.  Left out: stacks
    that overflow, the end of WvTaskMan itself, the debugger. *)
From Verif Require Import Base.
Local Open Scope nat_scope.

(** User code, of the main program or of a callback: what it does next.  [Say] stands for anything
    that can be seen.  WvCont objects are named by numbers; a callback by its number in a table. *)
Inductive code :=
| Ret (v : Z)                                  (** return v *)
| Say (o : Z) (k : code)
| Yield (v : Z) (k : Z -> code)                (** WvCont::yield(v) *)
| Call (h : nat) (v : Z) (k : Z -> code)       (** h(v) *)
| New (f size : nat) (k : nat -> code)         (** WvCont(f, size) *)
| Copy (h : nat) (k : nat -> code)             (** WvCont(h) *)
| Drop (h : nat) (k : code)                    (** ~WvCont of h *)
| Current (k : nat -> code)                    (** WvCont::current() *)
| IsOk (k : bool -> code).                     (** WvCont::isok() *)

(** utils/wvcont.cc:14-46, WvCont::Data *)
Record data := Data { links : nat; mydepth : nat; finishing : bool; size : nat; task : option nat; fn : nat; ret : Z; p1 : Z }.
(** What follows _call: the caller's code, or the rest of the destructor of [d] *)
Inductive after := ToCode (k : Z -> code) | ToDtor (d : nat) (k : code).
(** Where a task, or the main program, has left its stack: in the loop of do_task; in yield; in
    run, called by _call of [d], with its [olddata] and [old_task] *)
Inductive ctx := Loop | AtYield (k : Z -> code) | InRun (d : nat) (olddata old_task : option nat) (a : after).
(** include/wvtask.h: WvTask; [arg]: userdata; [saved]: mystate *)
Record tsk := Tsk { running : bool; recycled : bool; arg : nat; stacksize : nat; saved : ctx }.
(** [cur]: current_task; [depth]: taskdepth; [top]: toplevel; [objs]: the objects that were not
    destroyed, with their Data *)
Record st := St { datas : nat -> option data; ndata : nat; tasks : nat -> tsk; ntask : nat; free : list nat;
                  objs : nat -> option nat; nobj : nat; cur : option nat; curdata : option nat; depth : nat; top : ctx; said : list Z }.
(** Code is run; longjmp was done to a context; the main program has ended; an assertion fails or
    something is used after it was deleted *)
Inductive mode := Exec (c : code) | Back (x : ctx) | Done (v : Z) | Abort.

Definition upd {A} (f : nat -> A) (n : nat) (x : A) : nat -> A := fun m => if Nat.eqb m n then x else f m.
Definition init : st := St (fun _ => None) 0 (fun _ => Tsk false false 0 0 Loop) 0 [] (fun _ => None) 0 None None 0 Loop [].
Definition set_data s d x := St (upd (datas s) d x) (ndata s) (tasks s) (ntask s) (free s) (objs s) (nobj s) (cur s) (curdata s) (depth s) (top s) (said s).
Definition set_task s t x := St (datas s) (ndata s) (upd (tasks s) t x) (ntask s) (free s) (objs s) (nobj s) (cur s) (curdata s) (depth s) (top s) (said s).
Definition set_free s x := St (datas s) (ndata s) (tasks s) (ntask s) x (objs s) (nobj s) (cur s) (curdata s) (depth s) (top s) (said s).
Definition set_obj s h x := St (datas s) (ndata s) (tasks s) (ntask s) (free s) (upd (objs s) h x) (nobj s) (cur s) (curdata s) (depth s) (top s) (said s).
Definition set_cur s x := St (datas s) (ndata s) (tasks s) (ntask s) (free s) (objs s) (nobj s) x (curdata s) (depth s) (top s) (said s).
Definition set_curdata s x := St (datas s) (ndata s) (tasks s) (ntask s) (free s) (objs s) (nobj s) (cur s) x (depth s) (top s) (said s).
Definition set_depth s x := St (datas s) (ndata s) (tasks s) (ntask s) (free s) (objs s) (nobj s) (cur s) (curdata s) x (top s) (said s).
Definition set_top s x := St (datas s) (ndata s) (tasks s) (ntask s) (free s) (objs s) (nobj s) (cur s) (curdata s) (depth s) x (said s).
Definition say s o := St (datas s) (ndata s) (tasks s) (ntask s) (free s) (objs s) (nobj s) (cur s) (curdata s) (depth s) (top s) (said s ++ [o]).
Definition add_obj s d := St (datas s) (ndata s) (tasks s) (ntask s) (free s) (upd (objs s) (nobj s) (Some d)) (S (nobj s)) (cur s) (curdata s) (depth s) (top s) (said s).
Definition add_data s x := St (upd (datas s) (ndata s) (Some x)) (S (ndata s)) (tasks s) (ntask s) (free s) (objs s) (nobj s) (cur s) (curdata s) (depth s) (top s) (said s).
Definition add_task s x := St (datas s) (ndata s) (upd (tasks s) (ntask s) x) (S (ntask s)) (free s) (objs s) (nobj s) (cur s) (curdata s) (depth s) (top s) (said s).
Definition with_links x n := Data n (mydepth x) (finishing x) (size x) (task x) (fn x) (ret x) (p1 x).
Definition with_depth x n := Data (links x) n (finishing x) (size x) (task x) (fn x) (ret x) (p1 x).
Definition with_task x t := Data (links x) (mydepth x) (finishing x) (size x) t (fn x) (ret x) (p1 x).
Definition with_ret x v := Data (links x) (mydepth x) (finishing x) (size x) (task x) (fn x) v (p1 x).
Definition with_p1 x v := Data (links x) (mydepth x) (finishing x) (size x) (task x) (fn x) (ret x) v.
(** data->finishing = true; data->p1 = NULL *)
Definition finish x := Data (links x) (mydepth x) true (size x) (task x) (fn x) (ret x) 0.
Definition save (y : tsk) (x : ctx) := Tsk (running y) (recycled y) (arg y) (stacksize y) x.

(** data->task && data->task->isrunning() *)
Definition is_running (s : st) (x : data) : bool := match task x with Some t => running (tasks s t) | None => false end.
(** utils/wvtask.cc:120-129: recycle *)
Definition recycle (s : st) (t : nat) : option st :=
  let y := tasks s t in
  if running y then None
  else if recycled y then Some s
  else Some (set_free (set_task s t (Tsk false true (arg y) (stacksize y) (saved y))) (free s ++ [t])).
(** utils/wvcont.cc:41-42, unlink, and 97-113, ~Data *)
Definition unlink (s : st) (d : nat) : option st :=
  match datas s d with
  | None => None
  | Some x =>
      match links x with
      | O => None
      | S O => match task x with
               | Some t => match recycle s t with Some s => Some (set_data s d None) | None => None end
               | None => Some (set_data s d None)
               end
      | S n => Some (set_data s d (Some (with_links x n)))
      end
  end.
(** utils/wvtask.cc:109-117: start *)
Definition start (s : st) (t d : nat) : st := set_task s t (Tsk true false d (stacksize (tasks s t)) (saved (tasks s t))).
(** utils/wvtask.cc:216-240: WvTaskMan::start, with the constructor of WvTask (82-97) and get_stack
    (332-362) which leaves the new task in do_task *)
Fixpoint take (s : st) (n : nat) (l : list nat) : option (nat * list nat) :=
  match l with
  | [] => None
  | t :: r => if n <=? stacksize (tasks s t) then Some (t, r) else match take s n r with Some (u, r) => Some (u, t :: r) | None => None end
  end.
Definition start_new (s : st) (d n : nat) : st * nat :=
  match take s n (free s) with
  | Some (t, r) => (start (set_free s r) t d, t)
  | None => (start (add_task s (Tsk false false d n Loop)) (ntask s) d, ntask s)
  end.
(** utils/wvtask.cc:243-284: run, called by _call of [d] *)
Definition run (s : st) (d : nat) (old : option nat) (a : after) : mode * st :=
  match datas s d with
  | Some x =>
      match task x with
      | Some t =>
          if recycled (tasks s t) then (Abort, s)
          else
            let here := InRun d old (cur s) a in
            let s' := match cur s with None => set_top s here | Some c => set_task s c (save (tasks s c) here) end in
            match cur s with
            | Some c => if Nat.eqb c t then (Back here, s) else (Back (saved (tasks s' t)), set_cur s' (Some t))
            | None => (Back (saved (tasks s' t)), set_cur s' (Some t))
            end
      | None => (Abort, s)
      end
  | None => (Abort, s)
  end.
(** utils/wvcont.cc:151-176: _call, up to run *)
Definition call (s : st) (d : nat) (a : after) : mode * st :=
  match datas s d with
  | Some x =>
      if Nat.eqb (mydepth x) 0 then
        let s' := set_data (set_depth (set_curdata s (Some d)) (S (depth s))) d (Some (with_depth (with_links x (S (links x))) (S (depth s)))) in
        run s' d (curdata s) a
      else (Abort, s)
  | None => (Abort, s)
  end.
(** utils/wvcont.cc:83-94: the loop of the destructor, and unlink *)
Definition dtor (s : st) (d : nat) (k : code) : mode * st :=
  match datas s d with
  | Some x =>
      if is_running s x then call s d (ToDtor d k)
      else match unlink s d with Some s => (Exec k, s) | None => (Abort, s) end
  | None => (Abort, s)
  end.
(** utils/wvcont.cc:177-193: _call, after run *)
Definition called (s : st) (d : nat) (old : option nat) (a : after) : mode * st :=
  match datas s d with
  | Some x =>
      let x := if Nat.eqb (links x) 1 then finish x else x in
      let s := set_data s d (Some x) in
      if finishing x && is_running s x then run s d old a
      else if mydepth x <? depth s then run s d old a
      else if Nat.eqb (depth s) (mydepth x) then
        let s := set_data (set_depth s (depth s - 1)) d (Some (with_depth x 0)) in
        match unlink s d with
        | Some s =>
            let s := set_curdata s old in
            match a with ToCode k => (Exec (k (ret x)), s) | ToDtor d k => dtor s d k end
        | None => (Abort, s)
        end
      else (Abort, s)
  | None => (Abort, s)
  end.
(** utils/wvtask.cc:287-329: WvTaskMan::yield *)
Definition task_yield (s : st) (x : ctx) : mode * st :=
  match cur s with Some t => (Back (top s), set_task s t (save (tasks s t) x)) | None => (Abort, s) end.
(** The assertions on curdata *)
Definition current (s : st) : option (nat * data) :=
  match curdata s with
  | Some d => match datas s d with
              | Some x => match task x, cur s with Some t, Some c => if Nat.eqb t c then Some (d, x) else None | _, _ => None end
              | None => None
              end
  | None => None
  end.

(** [fns]: the callbacks *)
Definition step (fns : nat -> Z -> code) (m : mode) (s : st) : mode * st :=
  match m with
  | Exec (Say o k) => (Exec k, say s o)
  (** utils/wvcont.cc:249-257: bouncer; utils/wvtask.cc:486-505: do_task, which yields, as below, and
      stays in its loop *)
  | Exec (Ret v) =>
      match cur s with
      | None => (Done v, s)
      | Some t =>
          let y := tasks s t in
          match datas s (arg y) with
          | Some x => (Back (top s), set_task (set_data s (arg y) (Some (with_ret x v))) t (Tsk false (recycled y) (arg y) (stacksize y) Loop))
          | None => (Abort, s)
          end
      end
  (** utils/wvcont.cc:222-235 *)
  | Exec (Yield v k) =>
      match current s with
      | Some (d, x) => if finishing x then (Abort, s) else task_yield (set_data s d (Some (with_ret x v))) (AtYield k)
      | None => (Abort, s)
      end
  (** utils/wvcont.cc:196-210: operator() *)
  | Exec (Call h v k) =>
      match objs s h with
      | Some d =>
          match datas s d with
          | Some x =>
              let x := with_ret x (-42) in
              let (s, x) := match task x with
                            | None => let (s, t) := start_new s d (size x) in (s, with_task x (Some t))
                            | Some t => (if running (tasks s t) then s else start s t d, x)
                            end in
              call (set_data s d (Some (with_p1 x v))) d (ToCode k)
          | None => (Abort, s)
          end
      | None => (Abort, s)
      end
  (** utils/wvcont.cc:70-73 and 28-35 *)
  | Exec (New f n k) => (Exec (k (nobj s)), add_obj (add_data s (Data 1 0 false n None f 0 0)) (ndata s))
  (** utils/wvcont.cc:55-67 *)
  | Exec (Copy h k) =>
      match objs s h with
      | Some d => match datas s d with Some x => (Exec (k (nobj s)), add_obj (set_data s d (Some (with_links x (S (links x))))) d) | None => (Abort, s) end
      | None => (Abort, s)
      end
  (** utils/wvcont.cc:83-94 *)
  | Exec (Drop h k) =>
      match objs s h with
      | Some d =>
          match datas s d with
          | Some x =>
              let s := set_obj s h None in
              if Nat.eqb (links x) 1 then dtor (set_data s d (Some (finish x))) d k
              else match unlink s d with Some s => (Exec k, s) | None => (Abort, s) end
          | None => (Abort, s)
          end
      | None => (Abort, s)
      end
  (** utils/wvcont.cc:213-219, 76-80 *)
  | Exec (Current k) =>
      match current s with
      | Some (d, x) => if finishing x then (Abort, s) else (Exec (k (nobj s)), add_obj (set_data s d (Some (with_links x (S (links x))))) d)
      | None => (Abort, s)
      end
  (** utils/wvcont.cc:238-246 *)
  | Exec (IsOk k) =>
      match curdata s with
      | None => (Exec (k false), s)
      | Some _ => match current s with Some (_, x) => (Exec (k (negb (finishing x))), s) | None => (Abort, s) end
      end
  (** back in run: current_task = old_task *)
  | Back (InRun d old own a) => called (set_cur s own) d old a
  (** back in yield: utils/wvcont.cc:234 *)
  | Back (AtYield k) =>
      match curdata s with
      | Some d => match datas s d with Some x => (Exec (k (p1 x)), s) | None => (Abort, s) end
      | None => (Abort, s)
      end
  (** utils/wvtask.cc:486-505: the loop of do_task *)
  | Back Loop =>
      match cur s with
      | Some t =>
          if running (tasks s t) then match datas s (arg (tasks s t)) with Some x => (Exec (fns (fn x) (p1 x)), s) | None => (Abort, s) end
          else task_yield s Loop
      | None => (Abort, s)
      end
  | Done v => (Done v, s)
  | Abort => (Abort, s)
  end.
Fixpoint steps (fns : nat -> Z -> code) (n : nat) (c : mode * st) : mode * st :=
  match n with O => c | S n => steps fns n (step fns (fst c) (snd c)) end.
