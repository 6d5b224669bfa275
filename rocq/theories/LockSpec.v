(** Who holds a lock, and the conditions under which lock files exclude *)
From Verif Require Import Base UrlModel IntFmtModel LockModel.
Local Open Scope nat_scope.

(** How often object [a] holds the lock, from what was seen: each lock() that succeeded, less
    each unlock() called since; a WvLockFile holds at most once.  What ends holds nothing. *)
Definition hold1 (w : world) (a n : nat) (o : obs) : nat :=
  match o with
  | Returned b Lock r => if (b =? a) && negb (r =? 0)%Z then match what w with Dev => S n | File => 1 end else n
  | Called b Unlock => if b =? a then match what w with Dev => n - 1 | File => 0 end else n
  | Ended m => if proc w a =? m then 0 else n
  | _ => n
  end.
Definition held (w : world) (l : list obs) (a : nat) : nat := fold_left (hold1 w a) l 0.

(** Process numbers *)
Definition good_pids (w : world) : Prop := forall n, (0 < pid w n < 2 ^ 31)%Z.
(** What a lock file says that some other program left: nothing that atoi cannot read *)
Definition readable (t : bytes) : Prop :=
  forall l, first_line t = Some l -> (exists z, atoi l = Ok z) /\ exists z, atoi (trim_string l) = Ok z.

(** A condition holds all the time *)
Fixpoint always (cond : st -> event -> Prop) (w : world) (s : st) (l : list event) : Prop :=
  match l with
  | [] => True
  | e :: r => cond s e /\ match step w s e with Ok s => always cond w s r | _ => True end
  end.
(** The call of [a] in progress does [what] next *)
Definition next_is (s : st) (a : nat) (what : prog -> Prop) : Prop := exists c p, busy s a = Some (c, p) /\ what p.
Definition creating (p : prog) : Prop := match p with OpenNew _ => True | _ => False end.
Definition removing (p : prog) : Prop := match p with Unlink _ => True | _ => False end.
Definition writing_or_reading (p : prog) : Prop := match p with Print _ _ _ | Getline _ _ | OpenOld _ => True | _ => False end.
(** Calls of lock() do not overlap each other, and no file fails to be created other than
    because it exists.  Everything else may overlap and fail, and processes end anywhere. *)
Definition one_lock_at_a_time (s : st) (e : event) : Prop :=
  match e with
  | Call a Lock => forall b p, busy s b <> Some (Lock, p)
  | Go a true => ~ next_is s a creating
  | _ => True
  end.
(** Processes end only while no call is in progress, and only without holding the lock, and
    unlink() does not fail.  All calls may overlap. *)
Definition orderly_ends (w : world) (s : st) (e : event) : Prop :=
  match e with
  | End n => (forall b, busy s b = None) /\ forall a, proc w a = n -> held w (past s) a = 0
  | Go a true => ~ next_is s a removing
  | _ => True
  end.
(** Calls of lock() and unlock() overlap no other calls, and the lock file can be written and read.
    Processes end anywhere. *)
Definition one_at_a_time (s : st) (e : event) : Prop :=
  match e with
  | Call a Check => forall b c p, busy s b = Some (c, p) -> c = Check
  | Call a _ => forall b, busy s b = None
  | Go a true => ~ next_is s a writing_or_reading
  | _ => True
  end.

(** What a lock file says to one who looks: no file, a blank one, a number *)
Inductive says := SaysFree | SaysBlank | SaysPid (p : Z).
Definition lockfile (s : st) : option bytes := match named s with None => None | Some i => Some (texts s i) end.
Definition saying (o : option bytes) (x : says) : Prop :=
  match o, x with
  | None, SaysFree => True
  | Some t, SaysBlank => t = []
  | Some t, SaysPid p => exists l, first_line t = Some l /\ atoi l = Ok p /\ atoi (trim_string l) = Ok p
  | _, _ => False
  end.
Definition living (w : world) (s : st) (p : Z) : Prop := exists n, In n (live s) /\ pid w n = p.
(** A call that nothing else interrupts *)
Definition alone (a : nat) (c : call) : list event := Call a c :: repeat (Go a false) 9.
Definition result (w : world) (s : st) (a : nat) (c : call) (r : Z) (file : option bytes -> Prop) : Prop :=
  exists s', run w s (alone a c) = Ok s' /\ past s' = past s ++ [Called a c; Returned a c r] /\ file (lockfile s').
(** The lock file of a process that has ended *)
Definition stale (w : world) (s : st) (x : says) : Prop := match x with SaysPid p => (0 < p)%Z /\ ~ living w s p | _ => False end.
(** A lock file that holds nobody *)
Definition vacant (w : world) (s : st) (x : says) : Prop := match x with SaysFree | SaysBlank => True | _ => stale w s x end.
