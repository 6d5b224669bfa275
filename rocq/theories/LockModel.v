(** Model of WvLockFile (streams/wvlockfile.cc) and WvLockDev (streams/wvlockdev.cc, the part
    without liblockdev): processes that take turns after each system call and may end at any
    time. *)
From Verif Require Import Base Ctype UrlModel IntFmtModel.
Local Open Scope nat_scope.

(** ** Programs as sequences of system calls *)
(** open(O_CREAT|O_EXCL): the new file, EEXIST, or another error *)
Inductive made := Created (i : nat) | Exists | NotCreated.
Inductive prog :=
| Ret (r : Z)
| Access (k : bool -> prog)                 (** true: denied *)
| OpenNew (k : made -> prog)
| OpenOld (k : option nat -> prog)
| Print (i : nat) (t : bytes) (k : prog)    (** into the file [i], with or without a name *)
| Getline (i : nat) (k : option bytes -> prog)
| Kill (p : Z) (k : bool -> prog)           (** kill(p, 0); true: ESRCH *)
| Unlink (k : bool -> prog)                 (** true: done *)
| Undef.                                    (** undefined behaviour *)
(** blocking_getline(-1) on a file that holds [t] (streams/wvstream.cc:604-689) *)
Fixpoint upto_newline (t : bytes) : bytes :=
  match t with [] => [] | c :: r => if Ascii.eqb c newline then [] else c :: upto_newline r end.
Definition first_line (t : bytes) : option bytes :=
  match t with [] => None | _ => Some (cstr (upto_newline t)) end.

(** ** WvLockFile *)
(** streams/wvlockfile.cc:75-80: the lock file cannot be read, or is blank *)
Definition blank_file (k : Z -> prog) : prog := Unlink (fun _ => k 0%Z).
(** streams/wvlockfile.cc:68-73, 83: what kill() said *)
Definition asked (k : Z -> prog) (pid : Z) (gone : bool) : prog :=
  if gone then Unlink (fun _ => k 0%Z) else k pid.
(** streams/wvlockfile.cc:64-80 *)
Definition got_line (k : Z -> prog) (line : option bytes) : prog :=
  match line with
  | None => blank_file k
  | Some line =>
      match atoi line with
      | Ok pid => if (pid =? -1)%Z then k pid else Kill pid (asked k pid)
      | _ => Undef
      end
  end.
(** streams/wvlockfile.cc:63 *)
Definition opened (k : Z -> prog) (o : option nat) : prog :=
  match o with None => blank_file k | Some i => Getline i (got_line k) end.
(** streams/wvlockfile.cc:52-84: readpid; the calls of access() are taken as one, which may
    say no at any time *)
Definition readpid (k : Z -> prog) : prog :=
  Access (fun denied => if denied then k (-1)%Z else OpenOld (opened k)).
Definition of_bool (b : bool) : Z := if b then 1%Z else 0%Z.
(** streams/wvlockfile.cc:20-24: isok *)
Definition is_ours (me pid : Z) : bool := (pid =? 0)%Z || (pid =? me)%Z.
Definition file_check (me : Z) : prog := readpid (fun pid => Ret (of_bool (is_ours me pid))).
(** The text of the lock file: print("%s\n", getpid()) *)
Definition file_text (me : Z) : res bytes := let! s := string_of_signed 32 me in Ok (s ++ [newline]).
Definition print_text (t : res bytes) (i : nat) : prog :=
  match t with Ok t => Print i t (Ret 1) | _ => Undef end.
(** streams/wvlockfile.cc:27-38: lock *)
Definition file_make (me : Z) (m : made) : prog :=
  match m with Created i => print_text (file_text me) i | _ => Ret 0 end.
Definition file_locking (me pid : Z) : prog := if is_ours me pid then OpenNew (file_make me) else Ret 0.
Definition file_lock (me : Z) : prog := readpid (file_locking me).
(** streams/wvlockfile.cc:41-49: unlock *)
Definition file_after (pid : Z) : prog := Ret (of_bool (pid =? 0)%Z).
Definition file_unlocking (me pid : Z) : prog :=
  if is_ours me pid then Unlink (fun _ => readpid file_after) else Ret 0.
Definition file_unlock (me : Z) : prog := readpid (file_unlocking me).

(** ** WvLockDev *)
(** The text of the lock file: print("%10s\n", getpid()) *)
Definition dev_text (me : Z) : res bytes :=
  let! s := string_of_signed 32 me in Ok (repeat " "%char (10 - length s) ++ s ++ [newline]).
(** streams/wvlockdev.cc:121-122: the second open is not checked *)
Definition dev_again (me : Z) (m : made) : prog :=
  match m with Created i => print_text (dev_text me) i | _ => Ret 1 end.
(** streams/wvlockdev.cc:118-121 *)
Definition dev_removed (me : Z) (done : bool) : prog := if done then OpenNew (dev_again me) else Ret 0.
(** streams/wvlockdev.cc:115-125 *)
Definition dev_asked (me : Z) (gone : bool) : prog := if gone then Unlink (dev_removed me) else Ret 0.
(** streams/wvlockdev.cc:105-115 *)
Definition dev_line (me : Z) (line : option bytes) : prog :=
  match line with
  | None => Ret 0
  | Some line =>
      match atoi (trim_string line) with
      | Ok pid => if (pid =? 0)%Z || (pid =? -1)%Z then Ret 0 else Kill pid (dev_asked me)
      | _ => Undef
      end
  end.
(** streams/wvlockdev.cc:103-105: a stream that is not open has no line *)
Definition dev_opened (me : Z) (o : option nat) : prog :=
  match o with None => Ret 0 | Some i => Getline i (dev_line me) end.
(** streams/wvlockdev.cc:89-131, if lock_count is 0; the sleep is of no effect as any time may
    pass between calls *)
Definition dev_make (me : Z) (m : made) : prog :=
  match m with
  | Created i => print_text (dev_text me) i
  | Exists => OpenOld (dev_opened me)
  | NotCreated => Ret 0
  end.
Definition dev_lock (me : Z) : prog := OpenNew (dev_make me).
(** streams/wvlockdev.cc:140-141: unlock, if lock_count is 1 *)
Definition dev_unlock : prog := Unlink (fun _ => Ret 0).

(** ** Processes *)
Inductive style := File | Dev.
Inductive call := Lock | Unlock | Check.
(** What can be seen from outside *)
Inductive obs := Called (a : nat) (c : call) | Returned (a : nat) (c : call) (r : Z) | Started (n : nat) | Ended (n : nat).
(** Object [a] belongs to process [proc a], process [n] has the number [pid n] *)
Record world := World { what : style; proc : nat -> nat; pid : nat -> Z }.
(** [named]: the file that has the name of the lock; [busy]: the calls in progress; [count]:
    lock_count of WvLockDev (for WvLockFile, which has no state: 1 if lock() was the last to
    succeed) *)
Record st := St { named : option nat; texts : nat -> bytes; fresh : nat; live : list nat;
                  busy : nat -> option (call * prog); count : nat -> nat; past : list obs }.
Definition init (o : option bytes) : st :=
  St (match o with Some _ => Some 0 | None => None end) (fun _ => match o with Some t => t | None => [] end) 1 [] (fun _ => None) (fun _ => 0) [].
Definition upd {A} (f : nat -> A) (i : nat) (x : A) : nat -> A := fun j => if j =? i then x else f j.
Definition set_fs (s : st) n t f : st := St n t f (live s) (busy s) (count s) (past s).
Definition set_busy (s : st) b : st := St (named s) (texts s) (fresh s) (live s) b (count s) (past s).
Definition set_count (s : st) c : st := St (named s) (texts s) (fresh s) (live s) (busy s) c (past s).
Definition note (s : st) o : st := St (named s) (texts s) (fresh s) (live s) (busy s) (count s) (past s ++ [o]).
Definition is_live (s : st) (n : nat) : bool := existsb (Nat.eqb n) (live s).
(** A number that no process has: kill() says ESRCH.  Numbers below -1 are process groups, for
    which [choice] decides. *)
Definition gone (w : world) (s : st) (p : Z) (choice : bool) : bool :=
  if (0 <? p)%Z then negb (existsb (fun n => (pid w n =? p)%Z) (live s))
  else if (p <? -1)%Z then choice else false.
(** One system call; with [fail] it fails if it can *)
Definition syscall (w : world) (s : st) (p : prog) (fail : bool) : st * prog :=
  match p with
  | Ret _ | Undef => (s, p)
  | Access k => (s, k fail)
  | OpenNew k =>
      if fail then (s, k NotCreated)
      else match named s with
           | Some _ => (s, k Exists)
           | None => (set_fs s (Some (fresh s)) (upd (texts s) (fresh s) []) (S (fresh s)), k (Created (fresh s)))
           end
  | OpenOld k => (s, k (if fail then None else named s))
  | Print i t k => (if fail then s else set_fs s (named s) (upd (texts s) i (texts s i ++ t)) (fresh s), k)
  | Getline i k => (s, k (if fail then None else first_line (texts s i)))
  | Kill q k => (s, k (gone w s q fail))
  | Unlink k =>
      match fail, named s with
      | false, Some _ => (set_fs s None (texts s) (fresh s), k true)
      | _, _ => (s, k false)
      end
  end.
Definition returned (s : st) (a : nat) (c : call) (r : Z) : st :=
  let s := note (set_busy s (upd (busy s) a None)) (Returned a c r) in
  match c with
  | Lock => if (r =? 0)%Z then s else set_count s (upd (count s) a 1)
  | _ => s
  end.
(** A call goes on until its next system call *)
Definition go_on (s : st) (a : nat) (c : call) (p : prog) : res st :=
  match p with
  | Undef => Fault
  | Ret r => Ok (returned s a c r)
  | _ => Ok (set_busy s (upd (busy s) a (Some (c, p))))
  end.
Inductive event := Start (n : nat) | End (n : nat) | Call (a : nat) (c : call) | Go (a : nat) (fail : bool).
(** WvLockFile: each call asks the file *)
Definition call_file (w : world) (s : st) (a : nat) (c : call) : res st :=
  let me := pid w (proc w a) in
  match c with
  | Lock => go_on s a c (file_lock me)
  | Unlock => go_on (set_count s (upd (count s) a 0)) a c (file_unlock me)
  | Check => go_on s a c (file_check me)
  end.
(** WvLockDev: streams/wvlockdev.cc:83-87, 136-142; islocked() *)
Definition call_dev (w : world) (s : st) (a : nat) (c : call) : res st :=
  let me := pid w (proc w a) in
  match c, count s a with
  | Lock, O => go_on s a c (dev_lock me)
  | Lock, S n => Ok (set_count (note s (Returned a c 1)) (upd (count s) a (S (S n))))
  | Unlock, O => Ok (note s (Returned a c 0))
  | Unlock, S O => go_on (set_count s (upd (count s) a 0)) a c dev_unlock
  | Unlock, S (S n) => Ok (set_count (note s (Returned a c 0)) (upd (count s) a (S n)))
  | Check, n => Ok (note s (Returned a c (of_bool (negb (n =? 0)))))
  end.
(** Events that cannot happen change nothing: a process starts with a number that is not in
    use, its objects are new; it may end anywhere, and only living processes do something *)
Definition step (w : world) (s : st) (e : event) : res st :=
  match e with
  | Start n =>
      if existsb (fun m => (m =? n) || (pid w m =? pid w n)%Z) (live s) then Ok s
      else Ok (note (St (named s) (texts s) (fresh s) (n :: live s) (busy s) (count s) (past s)) (Started n))
  | End n =>
      if is_live s n then
        Ok (note (St (named s) (texts s) (fresh s) (filter (fun m => negb (m =? n)) (live s))
                     (fun a => if proc w a =? n then None else busy s a)
                     (fun a => if proc w a =? n then 0 else count s a) (past s)) (Ended n))
      else Ok s
  | Call a c =>
      if is_live s (proc w a) then
        match busy s a with
        | Some _ => Ok s
        | None => let s := note s (Called a c) in match what w with File => call_file w s a c | Dev => call_dev w s a c end
        end
      else Ok s
  | Go a fail =>
      match busy s a with
      | None => Ok s
      | Some (c, p) => let (s, p) := syscall w s p fail in go_on s a c p
      end
  end.
Fixpoint run (w : world) (s : st) (l : list event) : res st :=
  match l with [] => Ok s | e :: r => let! s := step w s e in run w s r end.
