(** Model of xplc/servmgr.cc, xplc/statichandler.cc, xplc/catmgr.cc and
    xplc/catiter.cc.  Linked lists are lists; handlers, objects and UUIDs are
    numbers. *)
From Verif Require Import Base ServSpec.

(** ** xplc/servmgr.cc *)
(** xplc/handlernode.h:29-45 *)
Record node := Node { handler : nat; intercept : bool }.

(** xplc/servmgr.cc:124-147: addHandler.  [at_] is how far *ptr is from the start, [i] how
    far [node] is; None is "already there" *)
Fixpoint add_loop (h : nat) (l : list node) (i at_ : nat) : option nat :=
  match l with
  | [] => Some at_
  | n :: l => if Nat.eqb (handler n) h then None else add_loop h l (S i) (if intercept n then S i else at_)
  end.
Definition insert (at_ : nat) (n : node) (l : list node) : list node := firstn at_ l ++ n :: skipn at_ l.
Definition add_handler (h : nat) (l : list node) : list node :=
  match add_loop h l 0 0 with None => l | Some p => insert p (Node h false) l end.
(** xplc/servmgr.cc:149-168: addFirstHandler *)
Definition add_first (h : nat) (l : list node) : list node :=
  if existsb (fun n => Nat.eqb (handler n) h) l then l else Node h true :: l.
(** xplc/servmgr.cc:170-193: addLastHandler *)
Fixpoint add_last (h : nat) (l : list node) : list node :=
  match l with
  | [] => [Node h false]
  | n :: r => if Nat.eqb (handler n) h then l else n :: add_last h r
  end.
(** xplc/servmgr.cc:195-212: removeHandler *)
Fixpoint remove_handler (h : nat) (l : list node) : list node :=
  match l with
  | [] => []
  | n :: l => if Nat.eqb (handler n) h then l else n :: remove_handler h l
  end.
(** xplc/servmgr.cc:214-235: getObject *)
Fixpoint get_object {O} (ask : nat -> option O) (l : list node) : option O :=
  match l with
  | [] => None
  | n :: l => match ask (handler n) with Some x => Some x | None => get_object ask l end
  end.
Definition run1 (p : op) (l : list node) : list node :=
  match p with Add h => add_handler h l | AddFirst h => add_first h l | AddLast h => add_last h l | Remove h => remove_handler h l end.
Definition run (ps : list op) (l : list node) : list node := fold_left (fun l p => run1 p l) ps l.

(** ** xplc/statichandler.cc *)
Definition objects := list (nat * nat).
(** xplc/statichandler.cc:49-68 *)
Fixpoint static_get (u : nat) (l : objects) : option nat :=
  match l with [] => None | (v, o) :: l => if Nat.eqb v u then Some o else static_get u l end.
(** xplc/statichandler.cc:70-94; None is no object *)
Definition static_add (u : nat) (o : option nat) (l : objects) : objects :=
  match o with
  | None => l
  | Some o => if existsb (fun x => Nat.eqb (fst x) u) l then l else (u, o) :: l
  end.
(** xplc/statichandler.cc:96-113 *)
Fixpoint static_remove (u : nat) (l : objects) : objects :=
  match l with [] => [] | (v, o) :: l => if Nat.eqb v u then l else (v, o) :: static_remove u l end.

(** ** xplc/catmgr.cc.  An entry node is known by its address; [next] pointers
    never change, so the list from an address on is a function of the heap *)
Record entry := Entry { e_uuid : nat; e_text : bytes; e_next : option nat }.
Record manager := Manager { heap : list entry; heads : list (nat * nat) }.
Definition head_of (c : nat) (m : manager) : option nat :=
  match find (fun x => Nat.eqb (fst x) c) (heads m) with Some (_, a) => Some a | None => None end.
(** the loop over entries from [a] on; addresses only go down, so the size of the heap is fuel enough *)
Fixpoint chain (fuel : nat) (hp : list entry) (a : option nat) : list entry :=
  match fuel, a with
  | S fuel, Some a => match nth_error hp a with Some e => e :: chain fuel hp (e_next e) | None => [] end
  | _, _ => []
  end.
Definition entries (m : manager) (a : option nat) : list entry := chain (S (length (heap m))) (heap m) a.
(** xplc/catmgr.cc:44-70: registerComponent.  A category node is made and put first
    if there is none, and then gets its first entry *)
Definition register (c u : nat) (t : bytes) (m : manager) : manager :=
  let a := head_of c m in
  if existsb (fun e => Nat.eqb (e_uuid e) u) (entries m a) then m
  else
    let hp := heap m ++ [Entry u t a] in
    Manager hp (match a with
      | None => (c, length (heap m)) :: heads m
      | Some _ => map (fun x => if Nat.eqb (fst x) c then (c, length (heap m)) else x) (heads m) end).
(** xplc/catmgr.cc:72-82: getCategory takes the pointer to the first entry; catiter.cc
    walks from there *)
Definition get_category (c : nat) (m : manager) : option nat := head_of c m.
Definition walk (m : manager) (cat : option nat) : list (nat * bytes) := map (fun e => (e_uuid e, e_text e)) (entries m cat).

(** Histories of calls. *)
Definition static_run (ps : list sop) (l : objects) : objects :=
  fold_left (fun l p => match p with Put u o => static_add u o l | Take u => static_remove u l end) ps l.
Definition register_all (rs : list (nat * nat * bytes)) (m : manager) : manager :=
  fold_left (fun m r => let '(c, u, t) := r in register c u t m) rs m.
Definition no_categories : manager := Manager [] [].
