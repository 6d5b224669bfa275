(** What one may see of a generator that reconnects: the events between it and
    the generators it makes, and the rules they follow.  Times in microseconds. *)
From Verif Require Import Base.
Local Open Scope Z_scope.
Local Open Scope list_scope.

Definition key := bytes.

(** What a user may ask of a generator. *)
Inductive op :=
| Commit | Refresh | Prefetch (k : key) (recursive : bool) | Get (k : key)
| Set_ (k : key) (v : option bytes) | Exists (k : key) | HasChildren (k : key)
| IsOk | Iterate (k : key) | IterateAll (k : key) | SetAll (kv : list (key * option bytes))
| Flush.

Inductive ans := Unit | Bool (b : bool) | Str (s : option bytes) | It (i : option nat).

Inductive ev :=
| Enter (o : op)                 (* the user asks for [o] *)
| Leave (o : op) (a : ans)       (* and gets [a] *)
| Now (t : Z)                    (* the clock is read, to see if it is time *)
| Stamp (t : Z)                  (* the clock is read, to note the time *)
| Make (g : option nat)          (* a generator is made, or the moniker is no good *)
| Ok (g : nat) (b : bool)        (* a generator is asked whether it is ok *)
| Joined (g : nat)               (* the user's callback for new connections *)
| Call (g : nat) (o : op)        (* something is asked of a generator *)
| Back (g : nat) (a : ans)       (* and answered *)
| Release (g : nat).             (* a generator is given up *)

(** The answers when there is no connection: nothing there, but the root. *)
Definition default (o : op) : ans :=
  match o with
  | Commit | Prefetch _ _ | Set_ _ _ | SetAll _ | Flush => Unit
  | Refresh | HasChildren _ | IsOk => Bool false
  | Exists k => Bool (match k with [] => true | _ => false end)
  | Get k => Str (match k with [] => Some [] | _ => None end)
  | Iterate _ | IterateAll _ => It None
  end.

(** The connection: none, with the time from which the next attempt is allowed
    and the number of attempts that failed since; one that was just made; one
    that turned out bad; one that was just lost; or one that is in use. *)
Inductive link :=
| Off (base : Z) (fails : nat)
| Tried (g : nat) (base : Z) (fails : nat)
| Bad (g : nat) (base : Z) (fails : nat)
| Fresh (g : nat)
| Lost
| On (g : nat).

(** An operation under way: what it is, whether it looked if it is time for an
    attempt, the generator's first answer to whether it is ok, whether it was
    passed on, and the answer. *)
Record frame := F { f_op : op; f_tried : bool; f_seen : option bool; f_to : option nat; f_back : option ans }.

Definition try_ (fs : list frame) : list frame :=
  match fs with
  | f :: fs => F (f_op f) true (f_seen f) (f_to f) (f_back f) :: fs
  | [] => []
  end.

Record sp := Sp { s_link : link; s_made : nat; s_frames : list frame; s_hurt : bool }.

(** Those that are passed on without asking whether the generator is ok. *)
Definition unasked (o : op) : bool :=
  match o with IterateAll _ | SetAll _ => true | _ => false end.

Definition is_on (l : link) : bool := match l with On _ => true | _ => false end.

(** Nothing is half done: in particular, when the clock says that it is time
    for an attempt, it is made next. *)
Definition rest (iv : Z) (p : option ev) (l : link) : bool :=
  match l, p with
  | Off b k, Some (Now t) => t <? b + Z.of_nat k * iv
  | On _, _ | Off _ _, _ => true
  | _, _ => false
  end.

(** Those that never look for a new connection. *)
Definition lazy (o : op) : bool :=
  match o with SetAll _ | Flush => true | _ => false end.

Definition opt_is (o : option nat) (g : nat) : bool :=
  match o with Some h => Nat.eqb g h | None => false end.

(** The generator is working for an operation that is under way. *)
Definition busy (g : nat) (f : frame) : bool :=
  opt_is (f_to f) g && match f_back f with None => true | Some _ => false end.

(** The answer that the frame must give. *)
Definition due_ans (l : link) (f : frame) (a : ans) : Prop :=
  match f_op f with
  | Flush => a = Unit
  | IsOk => match f_seen f with
            | Some b => a = Bool b
            | None => is_on l = false /\ f_tried f = true /\ a = Bool false
            end
  | o =>
      match f_back f with
      | Some b => a = b
      | None => a = default o /\
          match f_seen f with
          | Some b => unasked o = false /\ b = false
          | None => is_on l = false /\ (lazy o = true \/ f_tried f = true)
          end
      end
  end.

(** The rules: [cb] tells whether the user has a callback, [iv] is the retry
    interval, [prev] the event before. *)
Inductive rule (cb : bool) (iv : Z) : option ev -> sp -> ev -> sp -> Prop :=
| r_enter p l n fs h o : rest iv p l = true ->
    rule cb iv p (Sp l n fs h) (Enter o) (Sp l n (F o false None None None :: fs) h)
| r_leave p l n f fs h a : rest iv p l = true -> (forall g, busy g f = false) -> due_ans l f a ->
    rule cb iv p (Sp l n (f :: fs) h) (Leave (f_op f) a) (Sp l n fs h)
| r_now p b k n fs h t : rest iv p (Off b k) = true ->
    rule cb iv p (Sp (Off b k) n fs h) (Now t) (Sp (Off b k) n (try_ fs) h)
(* the next attempt is not before one interval after a loss *)
| r_lost p n fs h t :
    rule cb iv p (Sp Lost n fs h) (Stamp t) (Sp (Off (t + iv) 0) n fs h)
(* each attempt that failed takes one more interval *)
| r_null b k n fs h t : b + Z.of_nat k * iv <= t ->
    rule cb iv (Some (Now t)) (Sp (Off b k) n fs h) (Make None) (Sp (Off b k) n fs h)
| r_make b k n fs h t : b + Z.of_nat k * iv <= t ->
    rule cb iv (Some (Now t)) (Sp (Off b k) n fs h) (Make (Some n)) (Sp (Tried n b k) (S n) fs h)
| r_good p g b k n fs h :
    rule cb iv p (Sp (Tried g b k) n fs h) (Ok g true) (Sp (if cb then Fresh g else On g) n fs h)
| r_bad p g b k n fs h :
    rule cb iv p (Sp (Tried g b k) n fs h) (Ok g false) (Sp (Bad g b k) n fs h)
| r_fail p g b k n fs h :
    rule cb iv p (Sp (Bad g b k) n fs h) (Release g) (Sp (Off b (S k)) n fs h)
| r_joined p g n fs h :
    rule cb iv p (Sp (Fresh g) n fs h) (Joined g) (Sp (On g) n fs h)
| r_ok p g n f fs h b :
    rule cb iv p (Sp (On g) n (f :: fs) h) (Ok g b)
      (Sp (On g) n (F (f_op f) (f_tried f) (match f_seen f with None => Some b | x => x end) (f_to f) (f_back f) :: fs) h)
| r_call p g n o y fs h s : p = Some (Ok g true) /\ o <> IsOk \/ unasked o = true ->
    o <> Flush ->
    rule cb iv p (Sp (On g) n (F o y s None None :: fs) h) (Call g o) (Sp (On g) n (F o y s (Some g) None :: fs) h)
| r_back p l n o y s g a fs h : rest iv p l = true ->
    rule cb iv p (Sp l n (F o y s (Some g) None :: fs) h) (Back g a) (Sp l n (F o y s (Some g) (Some a) :: fs) h)
(* a generator is given up only when it has just said that it is not ok *)
| r_release g n fs h :
    rule cb iv (Some (Ok g false)) (Sp (On g) n fs h) (Release g) (Sp Lost n fs (h || existsb (busy g) fs))
(* or when the user gives up the whole *)
| r_end p g n h :
    rule cb iv p (Sp (On g) n [] h) (Release g) (Sp Lost n [] h).

(** Logs (newest first) that follow the rules, from the first reading of the
    clock on. *)
Inductive follows (cb : bool) (iv : Z) : list ev -> sp -> Prop :=
| fo_start t : follows cb iv [Stamp t] (Sp (Off t 0) 0 [] false)
| fo_step e p h s s' : follows cb iv (p :: h) s -> rule cb iv (Some p) s e s' ->
    follows cb iv (e :: p :: h) s'.

(** The generator that an event needs. *)
Definition uses (e : ev) : option nat :=
  match e with
  | Ok g _ | Call g _ | Joined g | Release g => Some g
  | _ => None
  end.

(** How many generators were given up; and clocks that do not go back. *)
Definition released (h : list ev) : Z :=
  Z.of_nat (length (filter (fun e => match e with Release _ => true | _ => false end) h)).

Definition reading (e : ev) (t : Z) : Prop := e = Now t \/ e = Stamp t.

Definition ascending (h : list ev) : Prop := forall l2 e l1 e' t t',
  h = l2 ++ e :: l1 -> reading e t -> In e' l1 -> reading e' t' -> t' <= t.
