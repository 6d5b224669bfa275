(** Model of WvIStreamList (streams/wvistreamlist.cc, include/wvistreamlist.h): what it
    does with its streams in select() and callback(), with reference counts.  Streams are
    numbered.  What a stream does in its callback is any sequence of the steps in
    [act]; destructors are taken not to touch the list.  Crash information and the ids of
    links are left out. *)
From Verif Require Import Base.
From Coq Require Import ZArith.
Local Open Scope nat_scope.

(** A live stream: references and whether it is ok.  None: destroyed or not yet made *)
Definition heap := nat -> option (nat * bool).
Definition set_heap (h : heap) (s : nat) (v : option (nat * bool)) : heap := fun x => if Nat.eqb x s then v else h x.
(** IObject::addRef and release (include/wvxplc.h, IMPLEMENT_IOBJECT): on a destroyed
    object they are undefined *)
Definition addref (h : heap) (s : nat) : res heap :=
  match h s with Some (n, k) => Ok (set_heap h s (Some (S n, k))) | None => Fault end.
Definition release (h : heap) (s : nat) : res heap :=
  match h s with
  | Some (S (S n), k) => Ok (set_heap h s (Some (S n, k)))
  | Some (S O, k) => Ok (set_heap h s None)
  | _ => Fault
  end.
Definition is_ok (h : heap) (s : nat) : res bool := match h s with Some (_, k) => Ok k | None => Fault end.
(** A link: the stream and whether the list owns a reference (autofree) *)
Definition link : Set := (nat * bool)%type.
(** include/wvlinklist.h:282-295 unlink_after: the object is released after its link is
    taken out *)
Definition drop (h : heap) (l : link) : res heap := if snd l then release h (fst l) else Ok h.
(** include/wvlinklist.h:262 unlink: all links to an object *)
Fixpoint unlink (h : heap) (l : list link) (s : nat) : res (heap * list link) :=
  match l with
  | [] => Ok (h, [])
  | x :: r => if Nat.eqb (fst x) s then let! h := drop h x in unlink h r s
              else let! (h, r) := unlink h r s in Ok (h, x :: r)
  end.
(** include/wvlinklist.h:189-193 zap *)
Fixpoint zap (h : heap) (l : list link) : res heap :=
  match l with [] => Ok h | x :: r => let! h := drop h x in zap h r end.

Record slist := { hp : heap; main : list link; sure : list link }.
(** streams/wvistreamlist.cc:88-136: pre_select; every stream on the list is asked *)
Fixpoint touch (h : heap) (l : list link) : res unit :=
  match l with [] => Ok tt | x :: r => let! _ := is_ok h (fst x) in touch h r end.
Definition pre_select (st : slist) : res slist :=
  let! h := zap (hp st) (sure st) in
  let! _ := touch h (main st) in
  Ok {| hp := h; main := main st; sure := [] |}.
(** streams/wvistreamlist.cc:88-136: the timeout; [wants]: what each stream asks for (negative: nothing),
    and whether it is ok *)
Definition lower (t want : Z) : Z := if ((0 <=? want) && ((want <? t) || (t <? 0)))%Z then want else t.
Definition pre_timeout (alarm : Z) (wants : list (Z * bool)) (t : Z) : Z :=
  let t := fold_left (fun t w => lower t (fst w)) wants t in
  let already := (alarm =? 0)%Z || existsb (fun w => negb (snd w)) wants in
  let t := lower t alarm in
  if already then 0%Z else t.
(** streams/wvistreamlist.cc:139-194: post_select; [ready]: what the streams' post_select
    return.  The result has the streams that stay. *)
Definition has (l : list link) (s : nat) : bool := existsb (fun x => Nat.eqb (fst x) s) l.
Fixpoint post_loop (ready : nat -> bool) (h : heap) (l sure : list link) : res (heap * list link * list link * bool) :=
  match l with
  | [] => Ok (h, [], sure, false)
  | x :: r =>
      let! _ := is_ok h (fst x) in
      let! (h, sure) :=
        (if ready (fst x) then
           let! (h, sure) := unlink h sure (fst x) in
           let! h := addref h (fst x) in
           Ok (h, sure ++ [(fst x, true)])
         else if has sure (fst x) then Fault     (* wvassert *)
         else Ok (h, sure)) in
      let! k := is_ok h (fst x) in
      if k then let! (h, r, sure, b) := post_loop ready h r sure in Ok (h, x :: r, sure, b)
      else
        let! h := drop h x in
        let! (h, r, sure, _) := post_loop ready h r sure in
        Ok (h, r, sure, true)
  end.
Definition post_select (alarm_due : bool) (ready : nat -> bool) (st : slist) : res (slist * bool) :=
  let! (h, m, s, dead) := post_loop ready (hp st) (main st) (sure st) in
  Ok ({| hp := h; main := m; sure := s |}, alarm_due || dead || negb (match s with [] => true | _ => false end)).

(** What code outside the list may do, at top level or in a callback *)
Inductive act :=
| ANew (s : nat)                     (* a new stream with one reference, the caller's *)
| AAppend (s : nat) (own : bool)     (* append(s, autofree); owning takes over a reference *)
| APrepend (s : nat) (own : bool)
| AUnlink (s : nat)                  (* include/wvistreamlist.h:31-32 *)
| AUnlinkIter (k : nat)              (* a link of the list through an iterator *)
| AClose (s : nat)                   (* the stream is no longer ok *)
| AAddRef (s : nat) | ARelease (s : nat)
| ASelect (alarm_due : bool) (ready : nat -> bool).   (* select(), then callback() if it is true *)
Inductive frame := FLoop | FCall (s : nat).
Record conf := { st : slist; held : nat -> nat; stack : list frame }.
Definition bump (f : nat -> nat) (s : nat) (g : nat -> nat) : nat -> nat := fun x => if Nat.eqb x s then g (f x) else f x.
Definition with_hp (x : slist) (h : heap) : slist := {| hp := h; main := main x; sure := sure x |}.
Definition do_act (c : conf) (a : act) : res conf :=
  let x := st c in
  match a with
  | ANew s => match hp x s with
              | None => Ok {| st := with_hp x (set_heap (hp x) s (Some (1, true))); held := bump (held c) s S; stack := stack c |}
              | Some _ => Fault
              end
  | AAppend s own => Ok {| st := {| hp := hp x; main := main x ++ [(s, own)]; sure := sure x |};
                           held := if own then bump (held c) s pred else held c; stack := stack c |}
  | APrepend s own => Ok {| st := {| hp := hp x; main := (s, own) :: main x; sure := sure x |};
                            held := if own then bump (held c) s pred else held c; stack := stack c |}
  | AUnlink s =>
      let! (h, su) := unlink (hp x) (sure x) s in
      let! (h, m) := unlink h (main x) s in
      Ok {| st := {| hp := h; main := m; sure := su |}; held := held c; stack := stack c |}
  | AUnlinkIter k =>
      match nth_error (main x) k with
      | Some l => let! h := drop (hp x) l in
                  Ok {| st := {| hp := h; main := firstn k (main x) ++ skipn (S k) (main x); sure := sure x |}; held := held c; stack := stack c |}
      | None => Ok c
      end
  | AClose s => match hp x s with
                | Some (n, _) => Ok {| st := with_hp x (set_heap (hp x) s (Some (n, false))); held := held c; stack := stack c |}
                | None => Fault
                end
  | AAddRef s => let! h := addref (hp x) s in Ok {| st := with_hp x h; held := bump (held c) s S; stack := stack c |}
  | ARelease s => let! h := release (hp x) s in Ok {| st := with_hp x h; held := bump (held c) s pred; stack := stack c |}
  | ASelect due ready =>
      let! x := pre_select x in
      let! (x, b) := post_select due ready x in
      Ok {| st := x; held := held c; stack := if b then FLoop :: stack c else stack c |}
  end.
(** streams/wvistreamlist.cc:198-262: execute, a turn of its loop and what follows it *)
Inductive event := EAct (a : act) | ECall (s : nat) | EReturn (s : nat) | EDone.
Definition step (c : conf) (e : event) : res conf :=
  let x := st c in
  match e, stack c with
  | EAct a, FLoop :: _ => NoFuel
  | EAct a, _ => do_act c a
  | ECall s, FLoop :: k =>
      match sure x with
      | l :: r => if Nat.eqb (fst l) s then
                    let! h := addref (hp x) s in
                    let! h := drop h l in
                    Ok {| st := {| hp := h; main := main x; sure := r |}; held := held c; stack := FCall s :: stack c |}
                  else NoFuel
      | [] => NoFuel
      end
  | EReturn s, FCall t :: k =>
      if Nat.eqb s t then let! h := release (hp x) s in Ok {| st := with_hp x h; held := held c; stack := k |} else NoFuel
  | EDone, FLoop :: k =>
      match sure x with
      | [] => Ok {| st := x; held := held c; stack := k |}
      | _ => NoFuel
      end
  | _, _ => NoFuel
  end.
(** [NoFuel] is used for events that do not happen in a configuration. *)
Fixpoint run (c : conf) (es : list event) : res conf :=
  match es with [] => Ok c | e :: es => let! c := step c e in run c es end.
Definition init : conf := {| st := {| hp := fun _ => None; main := []; sure := [] |}; held := fun _ => 0; stack := [] |}.
