(** What continuations are: callbacks that can be left in the middle *)
From Verif Require Import Base ContModel.
Local Open Scope nat_scope.

(** A continuation is not running and starts anew when it is called, or waits in a yield, or runs *)
Inductive state := Idle | Waiting (k : Z -> code) | Active.
(** [dying]: nobody can call it again *)
Record cont := Cont { body : nat; state_of : state; dying : bool }.
(** What the caller does with the answer: goes on with it; or it was only finishing off what it
    has destroyed *)
Inductive caller := Gets (k : Z -> code) | Dropping (k : code).
(** [handles]: the objects, with their continuations; [stack]: the continuations that are running,
    the innermost first, each with who has called it *)
Record ist := Ist { conts : nat -> option cont; ncont : nat; handles : nat -> option nat; nhandle : nat; stack : list (nat * caller); heard : list Z }.
Definition start_state : ist := Ist (fun _ => None) 0 (fun _ => None) 0 [] [].
Inductive imode := Run (c : code) | Ended (v : Z) | Failed.
(** The number of objects for a continuation *)
Definition refs (handles : nat -> option nat) (n d : nat) : nat :=
  length (filter (fun h => match handles h with Some e => Nat.eqb e d | None => false end) (seq 0 n)).
Definition lost (i : ist) (d : nat) : bool := Nat.eqb (refs (handles i) (nhandle i) d) 0.
Definition set_conts i x := Ist x (ncont i) (handles i) (nhandle i) (stack i) (heard i).
Definition set_cont i d x := Ist (upd (conts i) d x) (ncont i) (handles i) (nhandle i) (stack i) (heard i).
Definition set_stack i x := Ist (conts i) (ncont i) (handles i) (nhandle i) x (heard i).
Definition new_handle i d := Ist (conts i) (ncont i) (upd (handles i) (nhandle i) (Some d)) (S (nhandle i)) (stack i) (heard i).
(** Those that run and have no objects left are dying, and learn of it when something returns *)
Definition sweep (i : ist) : ist :=
  set_conts i (fun d => match conts i d with
                        | Some c => if existsb (fun p => Nat.eqb (fst p) d) (stack i) && lost i d then Some (Cont (body c) (state_of c) true) else Some c
                        | None => None
                        end).
Definition answer (a : caller) (v : Z) : code := match a with Gets k => k v | Dropping k => k end.
(** Calls [d]: its callback starts, or its yield returns *)
Definition enter (fns : nat -> Z -> code) (i : ist) (d : nat) (v : Z) (a : caller) : imode * ist :=
  match conts i d with
  | Some c =>
      let i' := set_stack (set_cont i d (Some (Cont (body c) Active (dying c)))) ((d, a) :: stack i) in
      match state_of c with Idle => (Run (fns (body c) v), i') | Waiting k => (Run (k v), i') | Active => (Failed, i) end
  | None => (Failed, i)
  end.
Definition is_dying (i : ist) (d : nat) : bool := match conts i d with Some c => dying c | None => true end.
Definition istep (fns : nat -> Z -> code) (m : imode) (i : ist) : imode * ist :=
  match m with
  | Run (Say o k) => (Run k, Ist (conts i) (ncont i) (handles i) (nhandle i) (stack i) (heard i ++ [o]))
  (** The caller gets the value; a continuation without objects is gone *)
  | Run (Ret v) =>
      match stack i with
      | [] => (Ended v, i)
      | (d, a) :: r =>
          let i := sweep i in
          match conts i d with
          | Some c => (Run (answer a v), set_stack (set_cont i d (if lost i d then None else Some (Cont (body c) Idle (dying c)))) r)
          | None => (Failed, i)
          end
      end
  (** The caller gets the value; but if nobody can call it again, yield returns at once, once *)
  | Run (Yield v k) =>
      match stack i with
      | [] => (Failed, i)
      | (d, a) :: r =>
          if is_dying i d then (Failed, i)
          else let i := sweep i in
               match conts i d with
               | Some c => if dying c then (Run (k 0%Z), i) else (Run (answer a v), set_stack (set_cont i d (Some (Cont (body c) (Waiting k) false))) r)
               | None => (Failed, i)
               end
      end
  (** A continuation that runs already cannot be called *)
  | Run (Call h v k) => match handles i h with Some d => enter fns i d v (Gets k) | None => (Failed, i) end
  | Run (New f n k) => (Run (k (nhandle i)), new_handle (Ist (upd (conts i) (ncont i) (Some (Cont f Idle false))) (S (ncont i)) (handles i) (nhandle i) (stack i) (heard i)) (ncont i))
  | Run (Copy h k) => match handles i h with Some d => (Run (k (nhandle i)), new_handle i d) | None => (Failed, i) end
  (** With the last object a continuation that waits is finished off: its yield returns 0 and it
      runs until it returns *)
  | Run (Drop h k) =>
      match handles i h with
      | Some d =>
          let i := Ist (conts i) (ncont i) (upd (handles i) h None) (nhandle i) (stack i) (heard i) in
          match conts i d with
          | Some c =>
              if lost i d then
                match state_of c with
                | Idle => (Run k, set_cont i d None)
                | Waiting _ => enter fns (set_cont i d (Some (Cont (body c) (state_of c) true))) d 0 (Dropping k)
                | Active => (Run k, i)
                end
              else (Run k, i)
          | None => (Failed, i)
          end
      | None => (Failed, i)
      end
  | Run (Current k) => match stack i with (d, _) :: _ => if is_dying i d then (Failed, i) else (Run (k (nhandle i)), new_handle i d) | [] => (Failed, i) end
  | Run (IsOk k) => (Run (k (match stack i with (d, _) :: _ => negb (is_dying i d) | [] => false end)), i)
  | Ended v => (Ended v, i)
  | Failed => (Failed, i)
  end.
Fixpoint isteps (fns : nat -> Z -> code) (n : nat) (c : imode * ist) : imode * ist :=
  match n with O => c | S n => isteps fns n (istep fns (fst c) (snd c)) end.

(** What can be seen: what was said, and whether and how it has ended *)
Inductive outcome := Going | Value (v : Z) | Died.
Definition seen (c : mode * st) : outcome * list Z :=
  (match fst c with Done v => Value v | Abort => Died | _ => Going end, said (snd c)).
Definition iseen (c : imode * ist) : outcome * list Z :=
  (match fst c with Ended v => Value v | Failed => Died | Run _ => Going end, heard (snd c)).
