(** The directory of a log: what is in it, and what is old. *)
From Verif Require Import Base.
Local Open Scope Z_scope.

(** A file is the size it had at the start and the lines appended since; the last
    number is when it was changed. *)
Inductive entry := File (before : Z) (added : list bytes) (mtime : Z) | Link (target : bytes) (mtime : Z) | Dir (mtime : Z).
Definition mtime (e : entry) : Z := match e with File _ _ m | Link _ m | Dir m => m end.
Definition total (ls : list bytes) : Z := fold_right (fun l n => Z.of_nat (length l) + n) 0 ls.
Definition size (before : Z) (added : list bytes) : Z := before + total added.

Definition dir := list (bytes * entry).
Definition same (a b : bytes) : bool := if list_eq_dec Ascii.ascii_dec a b then true else false.
Fixpoint get (d : dir) (n : bytes) : option entry := match d with [] => None | (m, e) :: d => if same m n then Some e else get d n end.

(** The same thing, or the same file with more lines. *)
Inductive grown : entry -> entry -> Prop :=
| grown_same e : grown e e
| grown_more s ls new m m' : grown (File s ls m) (File s (ls ++ new) m').

Definition megs (n : Z) : Z := n * 1024 * 1024.
Definition day_seconds : Z := 86400.
(** Changed more than [k] days before [now]. *)
Definition old (now k : Z) (e : entry) : Prop := mtime e < now - k * day_seconds.
Definition begins (p s : bytes) : Prop := exists r, s = p ++ r.
