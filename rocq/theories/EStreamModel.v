(** Model of encoder chains (utils/wvencoder.cc) and encoder streams
    (streams/wvencoderstream.cc, over streams/wvstreamclone.cc and streams/wvstream.cc). *)
From Verif Require Import Base EncoderModel.
From Coq Require Import Lia.
Local Open Scope nat_scope.

(** ** Chains *)
(** include/wvencoder.h:551-563: an element: its encoder and the buffer after it.  [s_id]
    stands for its address. *)
Record stage := Stage { s_id : nat; s_enc : encoder; s_st : est s_enc; s_buf : bytes }.
(** utils/wvencoder.cc:264-272: the loop over the elements, with the final
    merge into the output; gives the elements, what is left of the input, what is merged into
    the output and success *)
Fixpoint run_stages (l : list stage) (inp : bytes) (flush fin : bool) : res (list stage * bytes * bytes * bool) :=
  match l with
  | [] => Ok ([], [], inp, true)
  | x :: r =>
      let! (st, rest, o, b) := enc_do_encode (s_enc x) (s_st x) inp flush false in
      let! (st, o2, b2) := (if fin then enc_do_finish (s_enc x) st else Ok (st, [], true)) in
      let! (r, buf, out, b3) := run_stages r (s_buf x ++ o ++ o2) flush fin in
      Ok (Stage (s_id x) (s_enc x) st buf :: r, rest, out, b && b2 && b3)
  end.
(** The list after the element with address [i]; none if it is not there *)
Fixpoint split_at (l : list stage) (i : nat) : option (list stage * list stage) :=
  match l with
  | [] => None
  | x :: r => if s_id x =? i then Some ([x], r) else match split_at r i with Some (a, b) => Some (x :: a, b) | None => None end
  end.
Record chain := Chain { c_ok : bool; c_fin : bool; c_stages : list stage; c_last : option nat }.
Definition last_id (l : list stage) (d : option nat) : option nat := match rev l with x :: _ => Some (s_id x) | [] => d end.
(** utils/wvencoder.cc:254-274: do_encode *)
Definition do_encode (c : chain) (inp : bytes) (start : option nat) (flush fin : bool) : res (chain * bytes * bytes * bool) :=
  match start with
  | None =>
      let! (l, rest, out, b) := run_stages (c_stages c) inp flush fin in
      Ok (Chain (c_ok c) (c_fin c) l (last_id l None), rest, out, b)
  | Some i =>
      match split_at (c_stages c) i with
      | None => Ok (Chain (c_ok c) (c_fin c) (c_stages c) (Some i), [], inp, true)
      | Some (a, r) =>
          let! (r, rest, out, b) := run_stages r inp flush fin in
          Ok (Chain (c_ok c) (c_fin c) (a ++ r) (last_id r (Some i)), rest, out, b)
      end
  end.
Definition is_nil {A} (l : list A) : bool := match l with [] => true | _ => false end.
(** utils/wvencoder.cc:36-57, 277-287: encode and finish of a chain *)
Definition chain_encode (c : chain) (inp : bytes) (flush : bool) : res (chain * bytes * bytes * bool) :=
  if c_ok c && negb (c_fin c) && (negb (is_nil inp) || flush) then do_encode c inp None flush false else Ok (c, inp, [], false).
Definition chain_finish (c : chain) : res (chain * bytes * bool) :=
  let! (c, out, b) :=
    (if c_ok c && negb (c_fin c) then let! (c, _, out, b) := do_encode c [] None true true in Ok (c, out, b) else Ok (c, [], false)) in
  Ok (Chain (c_ok c) true (c_stages c) (c_last c), out, b).
(** utils/wvencoder.cc:290-295: continue_encode *)
Definition continue_encode (c : chain) (inp : bytes) : res (chain * bytes * bytes * bool) := do_encode c inp (c_last c) false false.
(** utils/wvencoder.cc:208-226, include/wvencoder.h:90-102: isok, isfinished *)
Definition chain_isok (c : chain) : bool := c_ok c && forallb (fun x => okay (s_st x)) (c_stages c).
Definition chain_isfinished (c : chain) : bool := c_fin c || existsb (fun x => finished (s_st x)) (c_stages c).
(** utils/wvencoder.cc:311-314: append *)
Definition chain_append (c : chain) (i : nat) (E : encoder) : chain := Chain (c_ok c) (c_fin c) (c_stages c ++ [Stage i E (est_init E) []]) (c_last c).
Definition chain_empty : chain := Chain true false [] None.
(** A chain with these encoders appended in turn *)
Fixpoint build (c : chain) (i : nat) (l : list encoder) : chain :=
  match l with [] => c | E :: r => build (chain_append c i E) (S i) r end.
Definition chain_of (l : list encoder) : chain := build chain_empty 0 l.
(** A user of a chain: bytes are added to the input buffer before each encode() *)
Fixpoint chain_feed (c : chain) (inp : bytes) (calls : list (bytes * bool)) : res (chain * bytes * bytes) :=
  match calls with
  | [] => Ok (c, inp, [])
  | (b, f) :: r =>
      let! (c, rest, o, _) := chain_encode c (inp ++ b) f in
      let! (c, rest, o') := chain_feed c rest r in Ok (c, rest, o ++ o')
  end.

(** ** The stream below *)
(** What it will give to reads, each item with whether it closes in that read; whether it is
    ok, has an error, how many more bytes it takes ([None]: all), what it took, whether our
    close callback is set. *)
Record sub := Sub { u_script : list (bytes * bool); u_ok : bool; u_err : bool; u_room : option nat; u_got : bytes; u_cb : bool }.
(** ** Encoder streams *)
(** include/wvencoderstream.h:22-60, include/wvstream.h: the buffers, chains and flags.
    [delayed]: delay_output(); [auto]: auto_flush().  Output buffers are not limited; alarms,
    callbacks and autoclose times are left out.  Outside flush(), [want_to_flush] is the
    opposite of [delayed] (streams/wvstream.cc:264, 716, 794, include/wvstream.h:249). *)
Record es := Es {
  inbuf : bytes; outbuf : bytes; rin : bytes; rout : bytes; win : bytes;
  rc : chain; wc : chain; closing : bool; closed : bool; err : bool; stop_read : bool; stop_write : bool;
  queue_min : nat; min_read : nat; delayed : bool; auto : bool; below : sub }.
Definition set_in (s : es) (i ri ro : bytes) (c : chain) : es :=
  Es i (outbuf s) ri ro (win s) c (wc s) (closing s) (closed s) (err s) (stop_read s) (stop_write s) (queue_min s) (min_read s) (delayed s) (auto s) (below s).
Definition set_out (s : es) (o w : bytes) (c : chain) (u : sub) : es :=
  Es (inbuf s) o (rin s) (rout s) w (rc s) c (closing s) (closed s) (err s) (stop_read s) (stop_write s) (queue_min s) (min_read s) (delayed s) (auto s) u.
Definition set_flags (s : es) (cl cd er sr sw : bool) (u : sub) : es :=
  Es (inbuf s) (outbuf s) (rin s) (rout s) (win s) (rc s) (wc s) cl cd er sr sw (queue_min s) (min_read s) (delayed s) (auto s) u.
(** streams/wvstream.cc:534-568 for the stream below: it takes nothing when not ok *)
Definition sub_write (u : sub) (b : bytes) : sub :=
  if u_ok u then
    let n := match u_room u with None => length b | Some k => Nat.min k (length b) end in
    Sub (u_script u) (u_ok u) (u_err u) (match u_room u with None => None | Some k => Some (k - n) end) (u_got u ++ firstn n b) (u_cb u)
  else u.
(** streams/wvstreamclone.cc:131-138: geterr *)
Definition geterr (s : es) : bool := err s || u_err (below s).
(** streams/wvencoderstream.cc:235-249: checkreadisok and checkwriteisok while closing, when
    close() returns at once *)
Definition mark_write (s : es) : es := if chain_isok (wc s) || geterr s then s else set_flags s (closing s) (closed s) true (stop_read s) (stop_write s) (below s).
Definition mark_read (s : es) : es :=
  if chain_isok (rc s) then s
  else set_flags s (closing s) (closed s) (if geterr s then err s else true) true (stop_write s) (below s).
(** streams/wvencoderstream.cc:145-175: push, with [check] for checkwriteisok.  What the
    stream below does not take is dropped with the local buffer. *)
Definition push (check : es -> res es) (flush fin : bool) (s : es) : res es :=
  let w := if flush then win s ++ outbuf s else win s in
  let o := if flush then [] else outbuf s in
  let! (c, w, out, _) := chain_encode (wc s) w flush in
  let! (c, out2) := (if fin then let! (c, out2, _) := chain_finish c in Ok (c, out2) else Ok (c, [])) in
  let! s := check (set_out s o w c (below s)) in
  Ok (set_out s (outbuf s) (win s) (wc s) (sub_write (below s) (out ++ out2))).
(** streams/wvencoderstream.cc:85-95: finish_read, while closing *)
Definition finish_read (s : es) : res es :=
  let! (c, ri, o1, _) := chain_encode (rc s) (rin s) true in
  let! (c, o2, _) := chain_finish c in
  Ok (mark_read (set_in s (inbuf s ++ rout s ++ o1 ++ o2) ri [] c)).
(** streams/wvencoderstream.cc:24-41 (close), streams/wvstreamclone.cc:83-92 and
    streams/wvstream.cc:343-361; the flush in WvStream::close calls flush_internal
    (streams/wvencoderstream.cc:63-67) *)
Definition close (s : es) : res es :=
  if closing s then Ok s
  else
    let s := set_flags s true (closed s) (err s) (stop_read s) (stop_write s) (below s) in
    let! s := finish_read s in
    let! s := push (fun s => Ok (mark_write s)) true true s in
    let u := below s in
    let s := set_flags s true (closed s) (err s) (stop_read s) (stop_write s) (Sub (u_script u) (u_ok u) (u_err u) (u_room u) (u_got u) false) in
    let! s := push (fun s => Ok (mark_write s)) true false s in
    let u := below s in
    Ok (set_flags s true true (err s) (stop_read s) (stop_write s) (Sub (u_script u) false (u_err u) (u_room u) (u_got u) false)).
(** streams/wvstream.cc:585-589: maybe_autoclose *)
Definition maybe_autoclose (s : es) : res es :=
  if stop_read s && stop_write s && is_nil (outbuf s) && is_nil (inbuf s) && negb (closed s) then close s else Ok s.
(** streams/wvencoderstream.cc:235-249: checkreadisok, checkwriteisok with the close of seterr
    (streams/wvstream.cc:453-460) and noread (571-575) *)
Definition seterr (s : es) : res es :=
  if geterr s then Ok s else close (set_flags s (closing s) (closed s) true (stop_read s) (stop_write s) (below s)).
Definition checkread (s : es) : res es :=
  if chain_isok (rc s) then Ok s
  else let! s := seterr s in maybe_autoclose (set_flags s (closing s) (closed s) (err s) true (stop_write s) (below s)).
Definition checkwrite (s : es) : res es := if chain_isok (wc s) then Ok s else seterr s.
(** streams/wvstreamclone.cc:164-173: close_callback *)
Definition close_callback (s : es) : res es :=
  let! s := maybe_autoclose (set_flags s (closing s) (closed s) (err s) (stop_read s) true (below s)) in
  maybe_autoclose (set_flags s (closing s) (closed s) (err s) true (stop_write s) (below s)).
(** cloned->read(readinbuf, size): the stream below may close in it, and call us, before its
    bytes are in our buffer.  A closed one gives nothing. *)
Definition sub_read (s : es) (size : nat) : res es :=
  let u := below s in
  match u_script u with
  | (c, cl) :: r =>
      if negb (u_ok u) then Ok s
      else if length c <=? size then
        let! s' := (if cl then
            let s := set_flags s (closing s) (closed s) (err s) (stop_read s) (stop_write s) (Sub r false (u_err u) (u_room u) (u_got u) false) in
            if u_cb u then close_callback s else Ok s
          else Ok (set_flags s (closing s) (closed s) (err s) (stop_read s) (stop_write s) (Sub r (u_ok u) (u_err u) (u_room u) (u_got u) (u_cb u)))) in
        Ok (set_in s' (inbuf s') (rin s' ++ c) (rout s') (rc s'))
      else
        let s := set_flags s (closing s) (closed s) (err s) (stop_read s) (stop_write s) (Sub ((skipn size c, cl) :: r) (u_ok u) (u_err u) (u_room u) (u_got u) (u_cb u)) in
        Ok (set_in s (inbuf s) (rin s ++ firstn size c) (rout s) (rc s))
  | [] => Ok s
  end.
(** streams/wvencoderstream.cc:104-142: pull *)
Definition pull (size : nat) (s : es) : res es :=
  let! s := (if size =? 0 then Ok s else sub_read s size) in
  let fin := negb (u_ok (below s)) in
  let! (c, _, ro, _) := continue_encode (rc s) (rout s) in
  let! (c, ri, o, _) := chain_encode c (rin s) true in
  let! s :=
    (if fin then
       let! (c, o2, _) := chain_finish c in
       close (set_in s (inbuf s) ri (ro ++ o ++ o2) c)
     else
       let s := set_in s (inbuf s) ri (ro ++ o) c in
       if is_nil (rout s) && is_nil (inbuf s) && chain_isfinished (rc s) then close s else Ok s) in
  checkread s.
(** streams/wvencoderstream.cc:178-187: uread *)
Definition uread (size : nat) (s : es) : res (es * bytes) :=
  let! s := (if negb (size =? 0) && is_nil (rout s) then pull (Nat.max (min_read s) size) s else Ok s) in
  Ok (set_in s (inbuf s) (rin s) (skipn size (rout s)) (rc s), firstn size (rout s)).
(** streams/wvstream.cc:492-531: read.  The bytes of [inbuf.alloc] are undefined until they
    are read into: when something is merged behind them while uread() runs, [unalloc] cuts
    that off instead, and undefined bytes stay in the buffer: a fault. *)
Definition read (n : nat) (s : es) : res (es * bytes) :=
  let used := length (inbuf s) in
  let! s :=
    (if used <? queue_min s then
       let! (s, b) := uread (queue_min s - used) s in
       if length (inbuf s) =? used then Ok (set_in s (inbuf s ++ b) (rin s) (rout s) (rc s)) else Fault
     else Ok s) in
  if length (inbuf s) <? queue_min s then let! s := maybe_autoclose s in Ok (s, [])
  else
    let! (s, b) := (if is_nil (inbuf s) then uread n s else Ok (set_in s (skipn n (inbuf s)) (rin s) (rout s) (rc s), firstn n (inbuf s))) in
    let! s := maybe_autoclose s in Ok (s, b).
(** streams/wvencoderstream.cc:43-60: isok *)
Definition isok (s : es) : bool := negb (closed s) && negb (err s) && negb (u_err (below s)).
(** streams/wvstream.cc:707-722 (flush), streams/wvencoderstream.cc:63-67 and
    streams/wvstream.cc:731-806: the output buffer is empty after flush_internal *)
Definition flush (s : es) : res es :=
  let! s := push checkwrite true false s in maybe_autoclose s.
(** streams/wvencoderstream.cc:190-195 (uwrite) and streams/wvstream.cc:534-568 (write) *)
Definition write (b : bytes) (s : es) : res es :=
  if negb (isok s) || is_nil b || stop_write s then Ok s
  else
    let! s :=
      (if negb (delayed s) && is_nil (outbuf s) then push checkwrite false false (set_out s (outbuf s) (win s ++ b) (wc s) (below s))
       else Ok (set_out s (outbuf s ++ b) (win s) (wc s) (below s))) in
    if delayed s then Ok s else if auto s then flush s else maybe_autoclose s.
(** streams/wvencoderstream.cc:207-232: post_select, asking for readability or not, with
    streams/wvstream.cc:886-897 and streams/wvstreamclone.cc:222-231; [wants]: the stream
    below wants to flush *)
Definition select (readable wants : bool) (s : es) : res es :=
  let! s := (if readable && negb (is_nil (rout s)) then pull 0 s else Ok s) in
  let! s := push checkwrite false false s in
  let! s := (if delayed s then Ok s else flush s) in
  if wants then flush s else Ok s.
Inductive op := Read (n : nat) | Write (b : bytes) | Flush | Select (readable wants : bool) | Close | AppendR (i : nat) (E : encoder) | AppendW (i : nat) (E : encoder).
Definition step (o : op) (s : es) : res (es * bytes) :=
  match o with
  | Read n => read n s
  | Write b => let! s := write b s in Ok (s, [])
  | Flush => let! s := flush s in Ok (s, [])
  | Select r w => let! s := select r w s in Ok (s, [])
  | Close => let! s := close s in Ok (s, [])
  | AppendR i E => Ok (set_in s (inbuf s) (rin s) (rout s) (chain_append (rc s) i E), [])
  | AppendW i E => Ok (set_out s (outbuf s) (win s) (chain_append (wc s) i E) (below s), [])
  end.
(** All that the reads return *)
Fixpoint run (l : list op) (s : es) : res (es * bytes) :=
  match l with [] => Ok (s, []) | o :: r => let! (s, b) := step o s in let! (s, b') := run r s in Ok (s, b ++ b') end.
(** streams/wvencoderstream.cc:11-15: a new stream; the chains are filled by the user *)
Definition start (script : list (bytes * bool)) (room : option nat) (qm mr : nat) (dl au : bool) (r w : chain) : es :=
  Es [] [] [] [] [] r w false false false false false qm mr dl au (Sub script true false room [] true).
