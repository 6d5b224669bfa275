(** What callers of a shared queue of [cap] bytes may see: one byte queue; put
    and get take effect when they return. *)
From Verif Require Import Base MagicModel.

(** The writer only puts, the reader only gets and skips; both may ask. *)
Definition allowed (who : bool) (c : call) : Prop :=
  match c with CPut _ => who = true | CGet _ | CSkip _ => who = false | _ => True end.

(** [called who] is the queue length when process [who]'s current call began. *)
Inductive accepts (cap : nat) : list event -> (bool -> option (call * nat)) -> bytes -> Prop :=
| A_nil : accepts cap [] (fun _ => None) []
| A_call l st q who c : accepts cap l st q -> st who = None ->
    accepts cap (l ++ [ECall who c]) (fun w => if Bool.eqb w who then Some (c, length q) else st w) q
| A_put l st q who d before n : accepts cap l st q -> st who = Some (CPut d, before) ->
    n <= length d -> min (length d) (cap - before) <= n -> length q + n <= cap ->
    accepts cap (l ++ [ERet who (CPut d) n []]) (fun w => if Bool.eqb w who then None else st w)
      (q ++ firstn n d)
| A_get l st out q who len before : accepts cap l st (out ++ q) -> st who = Some (CGet len, before) ->
    length out <= len -> min len before <= length out ->
    accepts cap (l ++ [ERet who (CGet len) (length out) out])
      (fun w => if Bool.eqb w who then None else st w) q
| A_skip l st out q who len before : accepts cap l st (out ++ q) -> st who = Some (CSkip len, before) ->
    length out <= len -> min len before <= length out ->
    accepts cap (l ++ [ERet who (CSkip len) (length out) []])
      (fun w => if Bool.eqb w who then None else st w) q
| A_used l st q who before n : accepts cap l st q -> st who = Some (CUsed, before) ->
    min before (length q) <= n -> n <= max before (length q) ->
    accepts cap (l ++ [ERet who CUsed n []]) (fun w => if Bool.eqb w who then None else st w) q
| A_left l st q who before n : accepts cap l st q -> st who = Some (CLeft, before) ->
    min (cap - before) (cap - length q) <= n -> n <= max (cap - before) (cap - length q) ->
    accepts cap (l ++ [ERet who CLeft n []]) (fun w => if Bool.eqb w who then None else st w) q.

(** Bytes accepted and received according to the return values alone. *)
Definition accepted (l : list event) : bytes :=
  flat_map (fun e => match e with ERet _ (CPut d) n _ => firstn n d | _ => [] end) l.
Definition received (l : list event) : bytes :=
  flat_map (fun e => match e with ERet _ (CGet _) _ out => out | _ => [] end) l.
Definition no_skip (l : list act) : Prop :=
  Forall (fun a => match a_call a with CSkip _ => False | _ => True end) l.
