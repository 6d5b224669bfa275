(** What the subprocess queue promises. *)
From Verif Require Import Base QueueModel.
Local Open Scope nat_scope.

(** The processes running after a trace of events, oldest first. *)
Fixpoint drop (x : nat * nat) (l : list (nat * nat)) : list (nat * nat) :=
  match l with
  | [] => []
  | y :: r => if (fst x =? fst y) && (snd x =? snd y) then r else y :: drop x r
  end.
Definition live (tr : list event) : list (nat * nat) :=
  fold_left (fun l e => match e with Start c p => l ++ [(c, p)] | Finish c p => drop (c, p) l end) tr [].
(** Jobs (processes without a cookie) given to the queue, and those started. *)
Definition jobs_added (l : list op) : list nat := flat_map (fun o => match o with Add 0 p => [p] | _ => [] end) l.
Definition jobs_started (tr : list event) : list nat := flat_map (fun e => match e with Start 0 p => [p] | _ => [] end) tr.
Definition added (l : list op) : list nat := flat_map (fun o => match o with Add _ p => [p] | _ => [] end) l.
(** Starts of the sync point [c]. *)
Definition starts (c : nat) (tr : list event) : nat := length (filter (fun e => match e with Start d _ => d =? c | _ => false end) tr).
