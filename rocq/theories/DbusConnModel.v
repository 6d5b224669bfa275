(** Model of WvDBusConn (dbus/wvdbusconn.cc): requests that wait for replies, callbacks for other
    messages, and the queue of bytes they come from.  Callbacks are user code that may call the
    connection again: a callback lasts from the event in which it is called until the event
    [Return].  Authentication is left out but for the moment it succeeds. *)
From Verif Require Import Base.
Local Open Scope Z_scope.

(** A message: its serial number, the one it answers (0: none), the rest *)
Record msg := Msg { serial : Z; answers : Z; load : bytes }.
(** libdbus: dbus_message_demarshal_bytes_needed, dbus_message_demarshal *)
Record wire := Wire { needed : bytes -> Z; decode : bytes -> option msg }.
(** dbus/wvdbusmarshal.cc:15-24; DBUS_MINIMUM_HEADER_SIZE is 16 *)
Definition message_length (w : wire) (b : bytes) : Z :=
  if needed w b >? 0 then needed w b else if needed w b =? 0 then 16 else 0.
(** dbus/wvdbusmarshal.cc:27-67: the message, or NULL, and what is left of the buffer *)
Definition demarshal (w : wire) (b : bytes) : option msg * bytes :=
  let n := message_length w b in
  if n =? 0 then (None, [])
  else if n >? Z.of_nat (length b) then (None, b)
  else (decode w (firstn (Z.to_nat n) b), skipn (Z.to_nat n) b).

(** Pending; [req] is the number of the request, which tells its callback *)
Record pend := Pend { req : nat; pserial : Z; until : Z }.
(** CallbackInfo *)
Record filt := Filt { fid : nat; pri : Z; cookie : nat }.
Inductive answer := Reply (m : msg) | Cancelled.
(** What can be seen: a request with a callback; its callback is called; a message is received;
    a callback for messages is called; it says that it has handled the message; callbacks are
    added and deleted; post_select ends *)
Inductive obs := Asked (i : nat) (z : Z) | Called (i : nat) (a : answer) | Got (m : msg) | Offered (f : filt) (m : msg) | Handled
  | Added (f : filt) | Deleted (k : nat) | Rested.
(** Callbacks that are running, and what is done when they return *)
Inductive frame :=
| InReply (p : pend)                   (** pending.remove(p) *)
| InCancel (p : pend)                  (** pending.add(p) *)
| InFilter (m : msg) (rest : list filt). (** the next callback *)
(** [sel]: post_select is running: [ran], and what its reads will get; [total]: number of
    requests so far; [next]: global_serial *)
Record st := St { pending : list pend; filters : list filt; frames : list frame; sel : option (bool * list bytes); queue : bytes;
                  next : Z; total : nat; ftotal : nat; authorized : bool; closed : bool; unsent : list Z; written : list Z;
                  received : bytes; past : list obs }.
Definition init : st := St [] [] [] None [] 1000 0 0 false false [] [] [] [].
Definition set_pending s x := St x (filters s) (frames s) (sel s) (queue s) (next s) (total s) (ftotal s) (authorized s) (closed s) (unsent s) (written s) (received s) (past s).
Definition set_filters s x n := St (pending s) x (frames s) (sel s) (queue s) (next s) (total s) n (authorized s) (closed s) (unsent s) (written s) (received s) (past s).
Definition set_frames s x := St (pending s) (filters s) x (sel s) (queue s) (next s) (total s) (ftotal s) (authorized s) (closed s) (unsent s) (written s) (received s) (past s).
Definition set_sel s x := St (pending s) (filters s) (frames s) x (queue s) (next s) (total s) (ftotal s) (authorized s) (closed s) (unsent s) (written s) (received s) (past s).
Definition set_queue s x r := St (pending s) (filters s) (frames s) (sel s) x (next s) (total s) (ftotal s) (authorized s) (closed s) (unsent s) (written s) r (past s).
Definition set_next s x := St (pending s) (filters s) (frames s) (sel s) (queue s) x (total s) (ftotal s) (authorized s) (closed s) (unsent s) (written s) (received s) (past s).
Definition set_total s x := St (pending s) (filters s) (frames s) (sel s) (queue s) (next s) x (ftotal s) (authorized s) (closed s) (unsent s) (written s) (received s) (past s).
Definition set_out s a u x := St (pending s) (filters s) (frames s) (sel s) (queue s) (next s) (total s) (ftotal s) a (closed s) u x (received s) (past s).
Definition set_closed s := St (pending s) (filters s) (frames s) (sel s) (queue s) (next s) (total s) (ftotal s) (authorized s) true (unsent s) (written s) (received s) (past s).
Definition note s o := St (pending s) (filters s) (frames s) (sel s) (queue s) (next s) (total s) (ftotal s) (authorized s) (closed s) (unsent s) (written s) (received s) (past s ++ [o]).

(** The table of pending requests; entries with one key are in the order they were added *)
Definition lookup (z : Z) (l : list pend) : option pend := find (fun p => pserial p =? z) l.
Fixpoint remove_key (z : Z) (l : list pend) : list pend :=
  match l with [] => [] | p :: r => if pserial p =? z then r else p :: remove_key z r end.
Definition alive (p : pend) (l : list pend) : bool := existsb (fun q => Nat.eqb (req q) (req p)) l.

(** dbus/wvdbusconn.cc:194-215: send; dbus/wvdbusmarshal.cc:83-98: marshal gives a message that
    was not sent before the next number *)
Definition send (s : st) (z : Z) : st :=
  if authorized s then set_out s true [] (written s ++ unsent s ++ [z]) else set_out s false (unsent s ++ [z]) (written s).
(** dbus/wvdbusconn.cc:507-516: add_pending, with cancel_pending (492-504) if the number is used *)
Definition add_pending (s : st) (z until : Z) : st :=
  let p := Pend (total s) z until in
  let s := note (set_total s (S (total s))) (Asked (total s) z) in
  match lookup z (pending s) with
  | Some q => set_frames (note (set_pending s (remove_key z (pending s))) (Called (req q) Cancelled)) (InCancel p :: frames s)
  | None => set_pending s (pending s ++ [p])
  end.
(** CallbackInfoList::Sorter with priority_order; which of equal ones comes first is not said by
    qsort, here the one added first *)
Fixpoint insert (f : filt) (l : list filt) : list filt :=
  match l with [] => [f] | g :: r => if pri f <? pri g then f :: l else g :: insert f r end.
Definition sorted (l : list filt) : list filt := fold_left (fun l f => insert f l) l [].
(** The loop over the callbacks, dbus/wvdbusconn.cc:346-351: calls the next one, if any; it uses
    the list as it was sorted, and one that was deleted meanwhile is gone *)
Definition offer (s : st) (m : msg) (l : list filt) : res (st * bool) :=
  match l with
  | [] => Ok (s, false)
  | f :: r => if existsb (fun g => Nat.eqb (fid g) (fid f)) (filters s) then Ok (set_frames (note s (Offered f m)) (InFilter m r :: frames s), true) else Fault
  end.
(** dbus/wvdbusconn.cc:328-354: filter_func, up to the first callback; true: one is running *)
Definition filter_func (s : st) (m : msg) : res (st * bool) :=
  match (if answers m =? 0 then None else lookup (answers m) (pending s)) with
  | Some p => Ok (set_frames (note s (Called (req p) (Reply m))) (InReply p :: frames s), true)
  | None => offer s m (sorted (filters s))
  end.
(** dbus/wvdbusconn.cc:443-465: the loops of post_select; [inner]: in the inner one.  Stops while a
    callback is running. *)
Fixpoint pump (n : nat) (w : wire) (s : st) (inner ran : bool) (reads : list bytes) : res st :=
  match n with
  | O => NoFuel
  | S n =>
      if inner then
        let (r, q) := demarshal w (queue s) in
        let s := set_queue s q (received s) in
        match r with
        | Some m =>
            let! (s, running) := filter_func (note s (Got m)) m in
            if running then Ok (set_sel s (Some (true, reads))) else pump n w s true true reads
        | None => if ran then pump n w s false false reads else Ok (note (set_sel s None) Rested)
        end
      else
        match reads with
        | b :: reads => pump n w (if closed s then s else set_queue s (queue s ++ b) (received s ++ b)) true false reads
        | [] => pump n w s true false []
        end
  end.
Definition fuel (s : st) (reads : list bytes) : nat := (3 * (length (queue s) + length (concat reads)) + length reads + 3)%nat.
(** After a callback for a message *)
Definition resume (w : wire) (s : st) : res st :=
  match sel s with Some (ran, reads) => pump (fuel s reads) w s true ran reads | None => Ok s end.

(** The user sends a message, [z]: that has a number from before, [limit]: with a callback, until
    when it waits; adds and deletes callbacks; closes; a callback returns; authentication is done;
    post_select is called, at a time, and each read gets something; other connections send
    messages *)
Inductive event :=
| Send (z : option Z) (limit : option Z)
| Add (pri : Z) (cookie : nat)
| Del (cookie : nat)
| Close
| Return (handled : bool)
| Authorize
| Select (now : Z) (reads : list bytes)
| Elsewhere.
Definition step (w : wire) (s : st) (e : event) : res st :=
  match e with
  | Send None limit =>
      let z := next s + 1 in
      if z <? 2 ^ 32 then
        let s := send (set_next s z) z in
        match limit with Some t => Ok (add_pending s z t) | None => Ok s end
      else Fault
  | Send (Some z) limit =>
      let s := send s z in
      match limit with Some t => Ok (add_pending s z t) | None => Ok s end
  | Add p k => Ok (note (set_filters s (filters s ++ [Filt (ftotal s) p k]) (S (ftotal s))) (Added (Filt (ftotal s) p k)))
  (** dbus/wvdbusconn.cc:313-320 *)
  | Del k => Ok (note (set_filters s (filter (fun f => negb (Nat.eqb (cookie f) k)) (filters s)) (ftotal s)) (Deleted k))
  | Close => Ok (set_closed s)
  (** dbus/wvdbusconn.cc:339-341, 514, 349-350; a Pending that was deleted meanwhile is used *)
  | Return handled =>
      match frames s with
      | [] => Ok s
      | InReply p :: r => if alive p (pending s) then resume w (set_frames (set_pending s (remove_key (pserial p) (pending s))) r) else Fault
      | InCancel p :: r => Ok (set_pending (set_frames s r) (pending s ++ [p]))
      | InFilter m l :: r =>
          let s := set_frames s r in
          if handled then resume w (note s Handled)
          else let! (s, running) := offer s m l in if running then Ok s else resume w s
      end
  (** dbus/wvdbusconn.cc:290-304 *)
  | Authorize => Ok (set_out s true [] (written s ++ unsent s))
  (** dbus/wvdbusconn.cc:417-470; expire_pending (479-489) uses a Pending after it has deleted it *)
  | Select now reads =>
      if closed s then Ok s
      else match sel s with
           | Some _ => Ok s
           | None =>
               if existsb (fun p => until p <? now) (pending s) then Fault
               else if authorized s then pump (fuel s reads) w s false false reads else Ok s
           end
  | Elsewhere => Ok (set_next s (next s + 1))
  end.
Fixpoint run (w : wire) (s : st) (l : list event) : res st :=
  match l with [] => Ok s | e :: r => let! s := step w s e in run w s r end.
