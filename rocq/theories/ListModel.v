(** Model of include/wvlink.h, include/wvlinklist.h and utils/wvlinklist.cc: a
    singly linked list with a dummy head link and a tail pointer, as a heap of
    links.  Objects are identified by numbers (their addresses); [l_freed] is the
    trace of objects released because of autofree.  Address 0 is the link
    [head] inside the list object.  The id strings are left out. *)
From Verif Require Import Base.

(** include/wvlink.h:23-33 *)
Record link := Link { k_data : nat; k_next : option nat; k_auto : bool }.
Record wlist := WList { l_mem : nat -> option link; l_fresh : nat; l_tail : nat; l_freed : list nat }.

Definition upd {A} (m : nat -> A) (a : nat) (v : A) : nat -> A :=
  fun x => if x =? a then v else m x.

(** include/wvlinklist.h:31-32 *)
Definition list_new : wlist := WList (upd (fun _ => None) 0 (Some (Link 0 None false))) 1 0 [].

(** Reading a link through a pointer; dangling pointers fault. *)
Definition lread (w : wlist) (a : nat) : res link := of_opt (l_mem w a).
Definition set_next (w : wlist) (a : nat) (n : option nat) : res wlist :=
  let! k := lread w a in
  Ok (WList (upd (l_mem w) a (Some (Link (k_data k) n (k_auto k)))) (l_fresh w) (l_tail w) (l_freed w)).

(** utils/wvlinklist.cc:12-21 (the WvLink constructor) and
    include/wvlinklist.h:260-264 (add_after); [after] is the previous link *)
Definition add_after (w : wlist) (after : nat) (d : nat) (auto : bool) : res wlist :=
  let! prev := lread w after in
  let n := l_fresh w in
  let tail := match k_next prev with None => n | Some _ => l_tail w end in
  let w := WList (upd (l_mem w) n (Some (Link d (k_next prev) auto))) (S n) tail (l_freed w) in
  set_next w after (Some n).
(** include/wvlinklist.h:273-274, 291-292 *)
Definition l_append (w : wlist) (d : nat) (auto : bool) : res wlist := add_after w (l_tail w) d auto.
Definition l_prepend (w : wlist) (d : nat) (auto : bool) : res wlist := add_after w 0 d auto.

(** include/wvlinklist.h:323-335 (unlink_after) and include/wvlink.h:56-60 *)
Definition unlink_after (w : wlist) (after : nat) (destroy : bool) : res wlist :=
  let! a := lread w after in
  match k_next a with
  | None => Ok w
  | Some n =>
      let! k := lread w n in
      let tail := if n =? l_tail w then after else l_tail w in
      let! w := set_next (WList (l_mem w) (l_fresh w) tail (l_freed w)) after (k_next k) in
      Ok (WList (upd (l_mem w) n None) (l_fresh w) (l_tail w)
            (l_freed w ++ (if destroy && k_auto k then [k_data k] else [])))
  end.

(** Iterators, include/wvlinklist.h:75-140: current and previous link *)
Record iter := Iter { it_link : option nat; it_prev : option nat }.
Definition i_rewind : iter := Iter (Some 0) None.
Definition i_next (w : wlist) (i : iter) : res iter :=
  let! a := of_opt (it_link i) in
  let! k := lread w a in Ok (Iter (k_next k) (Some a)).
(** include/wvlinklist.h:387-391 *)
Definition i_unlink (w : wlist) (i : iter) (destroy : bool) : res (wlist * iter) :=
  let! w := (match it_prev i with Some p => unlink_after w p destroy | None => Ok w end) in
  let! p := of_opt (it_prev i) in
  let! k := lread w p in Ok (w, Iter (k_next k) (it_prev i)).
(** include/wvlinklist.h:407-411 *)
Definition i_xunlink (w : wlist) (i : iter) (destroy : bool) : res (wlist * iter) :=
  let! w := (match it_prev i with Some p => unlink_after w p destroy | None => Ok w end) in
  Ok (w, Iter (it_prev i) (it_prev i)).

(** utils/wvlinklist.cc:57-63: find, from the loop's test on *)
Fixpoint find_loop (fuel : nat) (w : wlist) (i : iter) (d : nat) : res iter :=
  match fuel with
  | O => NoFuel
  | S fuel =>
      let! i := i_next w i in
      match it_link i with
      | None => Ok i
      | Some a => let! k := lread w a in if k_data k =? d then Ok i else find_loop fuel w i d
      end
  end.
Definition i_find (w : wlist) (d : nat) : res iter := find_loop (l_fresh w) w i_rewind d.
(** utils/wvlinklist.cc:65-77 *)
Definition i_find_next (w : wlist) (i : iter) (d : nat) : res iter :=
  match it_link i with
  | None => Ok i
  | Some a => let! k := lread w a in if k_data k =? d then Ok i else i_find w d
  end.

(** include/wvlinklist.h:301-302 *)
Fixpoint unlink_loop (fuel : nat) (w : wlist) (d : nat) : res wlist :=
  match fuel with
  | O => NoFuel
  | S fuel =>
      let! i := i_find w d in
      match it_link i with
      | None => Ok w
      | Some _ => let! (w, _) := i_unlink w i true in unlink_loop fuel w d
      end
  end.
Definition l_unlink (w : wlist) (d : nat) : res wlist := unlink_loop (l_fresh w) w d.
(** include/wvlinklist.h:310-314 *)
Definition l_unlink_first (w : wlist) : res wlist :=
  let! h := lread w 0 in
  match k_next h with
  | None => Ok w
  | Some _ => let! i := i_next w i_rewind in let! (w, _) := i_unlink w i true in Ok w
  end.
(** include/wvlinklist.h:222-226 *)
Fixpoint zap_loop (fuel : nat) (w : wlist) (destroy : bool) : res wlist :=
  match fuel with
  | O => NoFuel
  | S fuel =>
      let! h := lread w 0 in
      match k_next h with
      | None => Ok w
      | Some _ => let! w := unlink_after w 0 destroy in zap_loop fuel w destroy
      end
  end.
Definition l_zap (w : wlist) (destroy : bool) : res wlist := zap_loop (l_fresh w) w destroy.

(** utils/wvlinklist.cc:24-32 *)
Fixpoint count_loop (fuel : nat) (w : wlist) (l : option nat) (n : nat) : res nat :=
  match l with
  | None => Ok n
  | Some a =>
      match fuel with
      | O => NoFuel
      | S fuel => let! k := lread w a in count_loop fuel w (k_next k) (S n)
      end
  end.
Definition l_count (w : wlist) : res nat :=
  let! h := lread w 0 in count_loop (l_fresh w) w (k_next h) 0.
(** include/wvlinklist.h:64-65 *)
Definition l_isempty (w : wlist) : res bool :=
  let! h := lread w 0 in Ok (match k_next h with None => true | Some _ => false end).
(** include/wvlinklist.h:235-246 *)
Definition l_first (w : wlist) : res nat :=
  let! h := lread w 0 in let! a := of_opt (k_next h) in let! k := lread w a in Ok (k_data k).
Definition l_last (w : wlist) : res nat := let! k := lread w (l_tail w) in Ok (k_data k).

(** utils/wvlinklist.cc:35-54 *)
Fixpoint reverse_loop (fuel : nat) (w : wlist) (prev curr : nat) : res (wlist * nat) :=
  match fuel with
  | O => NoFuel
  | S fuel =>
      let! c := lread w curr in
      let! w := set_next w curr (Some prev) in
      match k_next c with None => Ok (w, curr) | Some next => reverse_loop fuel w curr next end
  end.
Definition l_reverse (w : wlist) : res wlist :=
  let! h := lread w 0 in
  match k_next h with
  | None => Ok w
  | Some first =>
      let! f := lread w first in
      match k_next f with
      | None => Ok w
      | Some second =>
          let! (w, prev) := reverse_loop (l_fresh w) w first second in
          let! h := lread w 0 in
          let! tail := of_opt (k_next h) in
          let! w := set_next (WList (l_mem w) (l_fresh w) tail (l_freed w)) tail None in
          set_next w 0 (Some prev)
      end
  end.

(** ** Client loops over an iterator *)
(** [for (i.rewind(); i.next(); ) out.append(i.ptr())] *)
Fixpoint walk_loop (fuel : nat) (w : wlist) (i : iter) : res (list nat) :=
  match fuel with
  | O => NoFuel
  | S fuel =>
      let! i := i_next w i in
      match it_link i with
      | None => Ok []
      | Some a => let! k := lread w a in let! r := walk_loop fuel w i in Ok (k_data k :: r)
      end
  end.
Definition l_walk (w : wlist) : res (list nat) := walk_loop (l_fresh w) w i_rewind.
(** [for (i.rewind(); i.next(); ) if (p(i.ptr())) i.xunlink(destroy)] *)
Fixpoint sweep_loop (fuel : nat) (w : wlist) (i : iter) (p : nat -> bool) (destroy : bool) : res wlist :=
  match fuel with
  | O => NoFuel
  | S fuel =>
      let! i := i_next w i in
      match it_link i with
      | None => Ok w
      | Some a =>
          let! k := lread w a in
          if p (k_data k) then let! (w, i) := i_xunlink w i destroy in sweep_loop fuel w i p destroy
          else sweep_loop fuel w i p destroy
      end
  end.
Definition l_sweep (w : wlist) (p : nat -> bool) (destroy : bool) : res wlist :=
  sweep_loop (l_fresh w) w i_rewind p destroy.
(** [i.rewind(); i.next(); while (i.cur()) if (p(i.ptr())) i.unlink(destroy); else i.next();] *)
Fixpoint purge_loop (fuel : nat) (w : wlist) (i : iter) (p : nat -> bool) (destroy : bool) : res wlist :=
  match fuel with
  | O => NoFuel
  | S fuel =>
      match it_link i with
      | None => Ok w
      | Some a =>
          let! k := lread w a in
          if p (k_data k) then let! (w, i) := i_unlink w i destroy in purge_loop fuel w i p destroy
          else let! i := i_next w i in purge_loop fuel w i p destroy
      end
  end.
Definition l_purge (w : wlist) (p : nat -> bool) (destroy : bool) : res wlist :=
  let! i := i_next w i_rewind in purge_loop (l_fresh w) w i p destroy.
(** [i.rewind(); i.next() k times; list.add_after(i.cur(), d, auto)] *)
Fixpoint nexts (w : wlist) (i : iter) (k : nat) : res iter :=
  match k with O => Ok i | S k => let! i := i_next w i in nexts w i k end.
Definition l_insert (w : wlist) (k : nat) (d : nat) (auto : bool) : res wlist :=
  let! i := nexts w i_rewind k in
  let! a := of_opt (it_link i) in add_after w a d auto.

(** Sequences of operations. *)
Inductive list_op :=
| LAppend (d : nat) (auto : bool) | LPrepend (d : nat) (auto : bool)
| LInsert (k d : nat) (auto : bool)
| LUnlink (d : nat) | LUnlinkFirst | LReverse | LZap (destroy : bool)
| LSweep (p : nat -> bool) (destroy : bool) | LPurge (p : nat -> bool) (destroy : bool).
Definition list_exec (w : wlist) (o : list_op) : res wlist :=
  match o with
  | LAppend d a => l_append w d a
  | LPrepend d a => l_prepend w d a
  | LInsert k d a => l_insert w k d a
  | LUnlink d => l_unlink w d
  | LUnlinkFirst => l_unlink_first w
  | LReverse => l_reverse w
  | LZap b => l_zap w b
  | LSweep p b => l_sweep w p b
  | LPurge p b => l_purge w p b
  end.
Fixpoint list_run (w : wlist) (l : list list_op) : res wlist :=
  match l with [] => Ok w | o :: r => let! w := list_exec w o in list_run w r end.
