(** What a D-Bus connection may do *)
From Coq Require Import Sorting.Permutation.
From Verif Require Import Base DbusConnModel.
Local Open Scope Z_scope.

(** *** Which callbacks are called *)
(** [open]: requests that wait for an answer, with their numbers; [regs]: callbacks for messages;
    [todo]: what must come next; [offered]: callbacks that were not yet asked about the message *)
Inductive todo := Free | Answer (m : msg) | Evict (j : nat) (z : Z).
Record view := View { open : list (nat * Z); regs : list filt; due : todo; offered : list filt }.
Definition waits (v : view) (z : Z) : Prop := exists i, In (i, z) (open v).
Definition drop (i : nat) (l : list (nat * Z)) : list (nat * Z) := filter (fun x => negb (Nat.eqb (fst x) i)) l.
(** A connection in view [v] may do [o], and is then in view [v'] *)
Inductive allowed : view -> obs -> view -> Prop :=
(** A request with a new number waits *)
| al_asked v i z : due v = Free -> (forall y, ~ In (i, y) (open v)) -> ~ waits v z ->
    allowed v (Asked i z) (View (open v ++ [(i, z)]) (regs v) Free (offered v))
(** A request with the number of one that waits takes its place, and that one is told at once *)
| al_evicting v i z : due v = Free -> (forall y, ~ In (i, y) (open v)) -> waits v z ->
    allowed v (Asked i z) (View (open v ++ [(i, z)]) (regs v) (Evict i z) (offered v))
| al_cancelled v i j z : due v = Evict j z -> In (i, z) (open v) -> i <> j ->
    allowed v (Called i Cancelled) (View (drop i (open v)) (regs v) Free (offered v))
(** A message that answers a request that waits is given to its callback at once, and to nobody
    else; another is offered to the callbacks for messages, those of lower priority first, until
    one has handled it *)
| al_answer v m : due v = Free -> offered v = [] -> answers m <> 0 -> waits v (answers m) ->
    allowed v (Got m) (View (open v) (regs v) (Answer m) [])
| al_called v i m : due v = Answer m -> In (i, answers m) (open v) ->
    allowed v (Called i (Reply m)) (View (drop i (open v)) (regs v) Free [])
| al_message v m : due v = Free -> offered v = [] -> answers m = 0 \/ ~ waits v (answers m) ->
    allowed v (Got m) (View (open v) (regs v) Free (regs v))
| al_offered v f m a b : due v = Free -> offered v = a ++ f :: b -> (forall g, In g (a ++ b) -> pri f <= pri g) ->
    allowed v (Offered f m) (View (open v) (regs v) Free (a ++ b))
| al_handled v : due v = Free -> allowed v Handled (View (open v) (regs v) Free [])
| al_added v f : due v = Free -> allowed v (Added f) (View (open v) (regs v ++ [f]) Free (offered v))
| al_deleted v k : due v = Free -> allowed v (Deleted k) (View (open v) (filter (fun f => negb (Nat.eqb (cookie f) k)) (regs v)) Free (offered v))
(** It rests only when all messages are dealt with *)
| al_rested v : due v = Free -> offered v = [] -> allowed v Rested v.
Inductive proper : list obs -> view -> Prop :=
| pr_nil : proper [] (View [] [] Free [])
| pr_snoc l v o v' : proper l v -> allowed v o v' -> proper (l ++ [o]) v'.

(** Requests that were made, and those whose callbacks were called *)
Definition asks (l : list obs) : list nat := flat_map (fun o => match o with Asked i _ => [i] | _ => [] end) l.
Definition calls (l : list obs) : list nat := flat_map (fun o => match o with Called i _ => [i] | _ => [] end) l.

(** *** The messages *)
Definition gots (l : list obs) : list msg := flat_map (fun o => match o with Got m => [m] | _ => [] end) l.
(** libdbus understands what [encode] writes for the messages [ms]: it knows the length of each as
    soon as it has 16 bytes of it *)
Definition understands (w : wire) (encode : msg -> bytes) (ms : list msg) : Prop :=
  needed w [] = 0 /\
  forall m, In m ms -> (16 <= length (encode m))%nat /\ decode w (encode m) = Some m /\
    forall n rest, needed w (firstn n (encode m ++ rest)) = if (n <? 16)%nat then 0 else Z.of_nat (length (encode m)).
(** What is left when all of the messages that are complete were taken *)
Definition incomplete (encode : msg -> bytes) (rest : bytes) (ms : list msg) : Prop :=
  match ms with [] => rest = [] | m :: _ => (length rest < length (encode m))%nat end.
(** The numbers of the messages that are sent; [n] is the last number given to a message, by any
    connection *)
Fixpoint numbers (n : Z) (l : list event) : list Z :=
  match l with
  | [] => []
  | Send None _ :: r => n + 1 :: numbers (n + 1) r
  | Send (Some z) _ :: r => z :: numbers n r
  | Elsewhere :: r => numbers (n + 1) r
  | _ :: r => numbers n r
  end.

(** *** Conditions: no request waits longer than its limit; a callback that is given a reply, or
    told that it is cancelled, does not send the same message again; none that is still to be asked is deleted; while a request is
    told that it is cancelled the connection does nothing *)
Definition answering (s : st) (z : Z) : Prop := exists p, (In (InReply p) (frames s) \/ In (InCancel p) (frames s)) /\ pserial p = z.
Definition careful (s : st) (e : event) : Prop :=
  match e with
  | Send z limit =>
      match z with Some z => 0 < z | None => next s + 1 < 2 ^ 32 end /\
      (limit <> None -> ~ answering s (match z with Some z => z | None => next s + 1 end))
  | Del k => forall m l f, In (InFilter m l) (frames s) -> In f l -> cookie f <> k
  | Select now _ => (forall p, In p (pending s) -> now <= until p) /\ forall p, ~ In (InCancel p) (frames s)
  | _ => True
  end.
Fixpoint always (cond : st -> event -> Prop) (w : wire) (s : st) (l : list event) : Prop :=
  match l with
  | [] => True
  | e :: r => cond s e /\ match step w s e with Ok s => always cond w s r | _ => True end
  end.
