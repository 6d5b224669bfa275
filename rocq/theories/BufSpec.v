(** What a buffer is: a queue of unread bytes and a history of bytes that can be
    ungotten (oldest first). *)
From Verif Require Import Base BufModel.

Definition suffix_of (s l : bytes) : Prop := exists p, l = p ++ s.

(** Bytes [off .. off+n) counted from the read position; negative offsets reach
    into the history. *)
Definition window (h q : bytes) (off : Z) (n : nat) : bytes :=
  firstn n (skipn (Z.to_nat (Z.of_nat (length h) + off)) (h ++ q)).
Definition in_window (h q : bytes) (off : Z) (n : nat) : Prop :=
  (- Z.of_nat (length h) <= off)%Z /\ (off + Z.of_nat n <= Z.of_nat (length q))%Z.

(** [q] with [d] written over it from position [off], extending it if needed. *)
Definition overwrite (q : bytes) (off : nat) (d : bytes) : bytes :=
  firstn off q ++ d ++ skipn (off + length d) q.

(** One operation on history [h] and queue [q]: result, new history, new queue.
    A buffer may forget history, but a get of n bytes can always be undone. *)
Inductive buf_step : bytes -> bytes -> buf_op -> bytes -> bytes -> bytes -> Prop :=
| S_get h q n h' : n <= length q -> suffix_of h' (h ++ firstn n q) -> n <= length h' ->
    buf_step h q (OGet n) (firstn n q) h' (skipn n q)
| S_move h q n h' : n <= length q -> suffix_of h' (h ++ firstn n q) ->
    buf_step h q (OMove n) (firstn n q) h' (skipn n q)
| S_unget h1 h2 q n : n = length h2 ->
    buf_step (h1 ++ h2) q (OUnget n) [] h1 (h2 ++ q)
| S_put h q d h' : suffix_of h' h -> buf_step h q (OPut d) [] h' (q ++ d)
| S_alloc h q d h' : suffix_of h' h -> buf_step h q (OAlloc d) [] h' (q ++ d)
| S_unalloc h q1 q2 n h' : n = length q2 -> suffix_of h' h ->
    buf_step h (q1 ++ q2) (OUnalloc n) [] h' q1
| S_peek h q off n h' : in_window h q off n \/ n = 0 -> suffix_of h' h ->
    buf_step h q (OPeek off n) (window h q off n) h' q
| S_copy h q off n : in_window h q off n \/ n = 0 ->
    buf_step h q (OCopy off n) (window h q off n) h q
| S_poke h q off d h' : off <= length q -> suffix_of h' h ->
    buf_step h q (OPoke off d) [] h' (overwrite q off d)
| S_zap h q : buf_step h q OZap [] [] [].

(** When an operation may be refused; [free] is the room the buffer offers. *)
Definition may_refuse (h q : bytes) (free : nat) (o : buf_op) : Prop :=
  match o with
  | OGet n | OMove n | OUnalloc n => length q < n
  | OUnget n => length h < n
  | OPut d | OAlloc d => free < length d
  | OCopy off n => 0 < n /\ ~ in_window h q off n
  | OPoke off d => length q < off \/ free < off + length d - length q
  | OPeek off n => True
  | OZap => False
  end.

(** A history of events from one state to another; [free_of] gives the room as
    a function of history and queue. *)
Inductive buf_run (free_of : bytes -> bytes -> nat) : bytes -> bytes -> list buf_event -> bytes -> bytes -> Prop :=
| R_nil h q : buf_run free_of h q [] h q
| R_done h q o out h1 q1 es h2 q2 :
    buf_step h q o out h1 q1 -> buf_run free_of h1 q1 es h2 q2 ->
    buf_run free_of h q (Done o out :: es) h2 q2
| R_skip h q o es h2 q2 :
    may_refuse h q (free_of h q) o -> buf_run free_of h q es h2 q2 ->
    buf_run free_of h q (Skipped o :: es) h2 q2.

(** ** Buffers in use *)
Definition kind_ok (k : kind) : Prop :=
  match k with KCirc n => 0 < n | KInPlace _ => True | KDyn p => 0 < p_gran p /\ 0 < p_unlimited p end.
(** free() as a function of history and contents *)
Definition room_of (k : kind) (h q : bytes) : nat :=
  match k with
  | KCirc n => n - length q
  | KInPlace n => n - (length h + length q)
  | KDyn p => p_unlimited p
  end.
(** peeking or copying only from the read position onwards *)
Definition forward (o : buf_op) : Prop :=
  match o with OPeek off n | OCopy off n => n = 0 \/ (0 <= off)%Z | _ => True end.
Definition op_of (e : buf_event) : buf_op := match e with Done o _ => o | Skipped o => o end.

(** A buffer that has been through any legal operations and merges. *)
Inductive reach : forall k, bT (store_of k) -> Prop :=
| reach_new k : kind_ok k -> reach k (start k)
| reach_op k t o t' out : reach k t -> forward o -> legal (store_of k) t o = true ->
    exec (store_of k) t o = Ok (t', out) -> reach k t'
| reach_into ka kb a b n a' b' : reach ka a -> reach kb b ->
    n <= bused (store_of kb) b -> n <= bfree (store_of ka) a ->
    merge ka kb a b n = Ok (a', b') -> reach ka a'
| reach_from ka kb a b n a' b' : reach ka a -> reach kb b ->
    n <= bused (store_of kb) b -> n <= bfree (store_of ka) a ->
    merge ka kb a b n = Ok (a', b') -> reach kb b'.

(** Copying everything out of the buffer gives [q]. *)
Definition holds (S : bstore) (t : bT S) (q : bytes) : Prop :=
  bused S t = length q /\ exists t', copy S t 0 (bused S t) = Ok (t', q).

(** What the observers say. *)
Definition observes (S : bstore) (t : bT S) (free : nat) (h q : bytes) : Prop :=
  bused S t = length q /\ bungettable S t = length h /\ bunallocable S t = length q /\
  bfree S t = free /\
  (forall off n, 0 < n -> n <= bpeekable S t off <-> in_window h q off n).
