(** What happens to a subprocess while it is waited for. *)
From Verif Require Import Base.
From Coq Require Import ZArith.
Local Open Scope Z_scope.

(** What waitpid() says *)
Inductive reap := Still | Exited (status : Z) | NoChild | Failed.
(** A round of waiting: waitpid()'s answer, the number in the pid file or -1, whether a
    process group has any processes, whether the time is over afterwards *)
Record tick := Tick { answer : reap; pidfile : Z; alive : Z -> bool; late : bool }.
(** A signal that is sent: to a process, or if negative to a group *)
Definition signal : Type := Z * Z.
Definition TERM := 15.
Definition KILL := 9.
