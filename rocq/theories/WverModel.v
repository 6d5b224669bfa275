(** Model of utils/wverror.cc and include/wverror.h: WvErrorBase and WvError, without
    win32.  A failed assert() is Fault.  [strerror] is the system's; the callback is
    there from the start, and only takes notes. *)
From Verif Require Import Base WverSpec.
Local Open Scope Z_scope.

(** include/wverror.h:30-35; [calls] is what the callback saw *)
Record err := Err { errnum : Z; errstring : option bytes; calls : list error }.
(** include/wverror.h:38-41, 92-93: the constructor and noerr *)
Definition fresh : err := Err 0 None [].
Definition noerr (s : err) : err := Err 0 None (calls s).
(** !!errstring *)
Definition given (t : option bytes) : bool := match t with Some (_ :: _) => true | _ => false end.
(** include/wverror.h:53-63: isok, geterr *)
Definition isok (s : err) : bool := errnum s =? 0.
Definition geterr (s : err) : Z := errnum s.

(** utils/wverror.cc:90-123: strerror asserts that the number is not negative *)
Definition str_error (strerror : Z -> bytes) (n : Z) : res bytes := if n <? 0 then Fault else Ok (strerror n).
(** utils/wverror.cc:126-140: errstr *)
Definition err_str (strerror : Z -> bytes) (n : Z) (t : option bytes) : res bytes :=
  if n <? 0 then match t with Some (c :: r) => Ok (c :: r) | _ => Fault end
  else match t with Some (c :: r) => Ok (c :: r) | _ => str_error strerror n end.
Definition errstr (strerror : Z -> bytes) (s : err) : res bytes := err_str strerror (errnum s) (errstring s).

(** utils/wverror.cc:143-158: seterr(int) *)
Definition seterr (n : Z) (s : err) : res err :=
  if errnum s =? 0 then
    if (negb (n =? -1) || given (errstring s))%bool then
      Ok (Err n (errstring s) (if n =? 0 then calls s else calls s ++ [(n, errstring s)]))
    else Fault
  else Ok s.
(** utils/wverror.cc:180-188: seterr_both *)
Definition seterr_both (n : Z) (t : bytes) (s : err) : res err :=
  if given (Some t) then
    if errnum s =? 0 then seterr n (Err (errnum s) (Some t) (calls s)) else Ok s
  else Fault.
(** utils/wverror.cc:161-164: seterr(WvStringParm) *)
Definition seterr_text (t : bytes) (s : err) : res err := seterr_both (-1) t s.
(** utils/wverror.cc:167-177: seterr(const WvErrorBase &) *)
Definition seterr_from (strerror : Z -> bytes) (e : other) (s : err) : res err :=
  if errnum s =? 0 then
    let! s := if given (o_text e) then let! t := err_str strerror (o_num e) (o_text e) in Ok (Err (errnum s) (Some t) (calls s)) else Ok s in
    seterr (o_num e) s
  else Ok s.
(** include/wverror.h:145-151: WvError::set(prefix, e) *)
Definition set_prefix (strerror : Z -> bytes) (p : bytes) (e : other) (s : err) : res err :=
  if o_ok e then Ok s
  else let! t := err_str strerror (o_num e) (o_text e) in seterr_both (o_num e) (p ++ B ": " ++ t) s.
(** include/wverror.h:42-45, 129-132: the copy constructor and operator=, of another object *)
Definition assign (strerror : Z -> bytes) (e : other) (s : err) : res err := seterr_from strerror e (noerr s).
(** The same object seen as another one *)
Definition seen (s : err) : other := Other (isok s) (errnum s) (errstring s).
(** operator= of an object to itself: noerr() comes first *)
Definition assign_self (strerror : Z -> bytes) (s : err) : res err := let s := noerr s in seterr_from strerror (seen s) s.

Definition call (strerror : Z -> bytes) (o : op) (s : err) : res err :=
  match o with
  | SetNum n => seterr n s
  | SetText t => seterr_text t s
  | SetBoth n t => seterr_both n t s
  | SetFrom e => seterr_from strerror e s
  | SetPrefix p e => set_prefix strerror p e s
  | Assign e => assign strerror e s
  | Clear => Ok (noerr s)
  end.
Fixpoint run (strerror : Z -> bytes) (ops : list op) (s : err) : res err :=
  match ops with [] => Ok s | o :: ops => let! s := call strerror o s in run strerror ops s end.
