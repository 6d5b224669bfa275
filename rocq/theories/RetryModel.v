(** UniRetryGen (uniconf/uniretrygen.cc, include/uniretrygen.h) over
    UniFilterGen (uniconf/unifiltergen.cc).

    Everything outside is an environment that may depend on all that happened:
    the clock, the moniker's generators, what they answer, and what the user
    does in the callbacks.  Times are microseconds (struct timeval and msecadd
    of utils/wvtimeutils.cc:39-46 without their limits).  Keys are their
    printed form; the log messages are left out. *)
From Verif Require Import Base RetrySpec.
Local Open Scope Z_scope.
Local Open Scope list_scope.

Record env := Env {
  clock : list ev -> Z;                (* wvtime() *)
  create : list ev -> bool;            (* wvcreate<IUniConfGen>(moniker) gives one *)
  okay : list ev -> nat -> bool;       (* isok() of a generator *)
  answer : list ev -> nat -> op -> ans;(* what a generator answers *)
  joining : list ev -> option op;      (* what the user's reconnect_callback does next *)
  told : list ev -> option op;         (* what the user's callbacks for changes do next,
                                          which a generator may call while it works *)
  user : list ev -> option op;         (* what the user does next otherwise *)
  has_cb : bool;                       (* !!reconnect_callback *)
  interval : Z }.                      (* retry_interval_ms * 1000 *)

(** include/uniretrygen.h:55-60 and xinner of include/unifiltergen.h; [made]
    numbers the generators, [hist] is the history (newest first). *)
Record st := St { inner : option nat; next_ : Z; made : nat; hist : list ev }.

Definition say (e : ev) (s : st) : st := St (inner s) (next_ s) (made s) (e :: hist s).
Definition setinner (i : option nat) (s : st) : st := St i (next_ s) (made s) (hist s).
Definition setnext (t : Z) (s : st) : st := St (inner s) t (made s) (hist s).
Definition setmade (n : nat) (s : st) : st := St (inner s) (next_ s) n (hist s).

(** [Stuck] is an execution that has not come to its end (yet). *)
Inductive res := Done (a : ans) (s : st) | Stuck (s : st).

Definition bind (r : res) (f : ans -> st -> res) : res :=
  match r with Done a s => f a s | Stuck s => Stuck s end.

(** What calls happen: an operation, or the user's code in one of three places. *)
Inductive cmd := Op (o : op) | Visit (w : env -> list ev -> option op).

(** isok() of the generator [g]: uniconf/unifiltergen.cc:127-133 *)
Definition ask (e : env) (g : nat) (s : st) : bool * st :=
  let b := okay e (hist s) g in (b, say (Ok g b) s).

(** uniconf/unifiltergen.cc:127-133 *)
Definition filter_isok (e : env) (s : st) : bool * st :=
  match inner s with
  | Some g => ask e g s
  | None => (false, s)
  end.

(** uniconf/uniretrygen.cc:102-119 *)
Definition maybe_disconnect (e : env) (s : st) : st :=
  match inner s with
  | Some g =>
      let (b, s) := ask e g s in
      if b then s
      else
        let s := say (Release g) (setinner None s) in
        let t := clock e (hist s) in
        setnext (t + interval e) (say (Stamp t) s)
  | None => s
  end.

(** Its answers without xinner. *)
Definition filter_default (o : op) : ans :=
  match o with
  | Get _ => Str None
  | Exists _ => Bool false
  | o => default o
  end.

(** The calls of UniFilterGen (uniconf/unifiltergen.cc:52-151) to xinner; the
    keymap is the identity (37-49).  [visit] runs the user's callbacks while
    the generator works. *)
Definition filter_call (e : env) (visit : st -> res) (o : op) (s : st) : res :=
  match inner s with
  | Some g =>
      bind (visit (say (Call g o) s))
        (fun _ s => let a := answer e (hist s) g o in Done a (say (Back g a) s))
  | None => Done (filter_default o) s
  end.

(** uniconf/uniretrygen.cc:67-100; [visit] runs the reconnect_callback. *)
Definition maybe_reconnect (e : env) (visit : st -> res) (s : st) : res :=
  match inner s with
  | Some _ => Done Unit s
  | None =>
      let t := clock e (hist s) in
      let s := say (Now t) s in
      if t <? next_ s then Done Unit s
      else if create e (hist s) then
        let g := made s in
        let s := setmade (S g) (say (Make (Some g)) s) in
        let (b, s) := ask e g s in
        if b then
          let s := setinner (Some g) s in
          if has_cb e then visit (say (Joined g) s) else Done Unit s
        else
          let s := say (Release g) s in
          Done Unit (setnext (next_ s + interval e) s)
      else Done Unit (say (Make None) s)
  end.

(** The operations: uniconf/uniretrygen.cc:122-287, setv of
    unifiltergen.cc:97-101, flush_buffers of uniretrygen.h:73; and the code of
    the user. *)
Fixpoint run (n : nat) (e : env) (c : cmd) (s : st) : res :=
  match n with
  | O => Stuck s
  | S n' =>
      match c with
      | Visit w =>
          match w e (hist s) with
          | None => Done Unit s
          | Some o => bind (run n' e (Op o) s) (fun _ s => run n' e (Visit w) s)
          end
      | Op o =>
          let s := say (Enter o) s in
          bind
            (match o with
             | Flush => Done Unit s
             | SetAll _ => filter_call e (run n' e (Visit told)) o s
             | IterateAll _ =>
                 bind (maybe_reconnect e (run n' e (Visit joining)) s) (fun _ s =>
                 bind (filter_call e (run n' e (Visit told)) o s) (fun a s =>
                 Done a (maybe_disconnect e s)))
             | IsOk =>
                 bind (maybe_reconnect e (run n' e (Visit joining)) s) (fun _ s =>
                 let (b, s) := filter_isok e s in
                 Done (Bool b) (maybe_disconnect e s))
             | _ =>
                 bind (maybe_reconnect e (run n' e (Visit joining)) s) (fun _ s =>
                 let (b, s) := filter_isok e s in
                 bind (if b then filter_call e (run n' e (Visit told)) o s
                       else Done (default o) s) (fun a s =>
                 Done a (maybe_disconnect e s)))
             end)
            (fun a s => Done a (say (Leave o a) s))
      end
  end.

(** uniconf/uniretrygen.cc:51-65 *)
Definition construct (n : nat) (e : env) : res :=
  let t := clock e [] in
  maybe_reconnect e (run n e (Visit joining)) (St None t 0 [Stamp t]).

(** uniconf/unifiltergen.cc:18-23 *)
Definition destroy (s : st) : st :=
  match inner s with
  | Some g => say (Release g) (setinner None s)
  | None => s
  end.

(** A whole life: construction, what the user does, destruction. *)
Definition life (n : nat) (e : env) : res :=
  bind (construct n e) (fun _ s =>
  bind (run n e (Visit user) s) (fun a s => Done a (destroy s))).
