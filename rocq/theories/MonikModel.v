(** Model of utils/wvmoniker.cc.  Factories are numbers: what they do is not
    modelled, but a call of wvcreate() is two steps, so that anything may
    happen while its factory runs. *)
From Verif Require Import Base UrlModel ConfModel MonikSpec.
Local Open Scope Z_scope.

(** include/wvmonikerregistry.h:16-45: the interface, the reference count, and the
    Registrations, first to last *)
Record registry := Registry { reg_iid : nat; refcount : Z; registrations : list (bytes * nat) }.

(** The heap of registries by address, the next address, [regs] (a NULL table is an
    empty one), and what the registration objects and the calls hold. *)
Record world := World {
  heap : nat -> option registry; fresh : nat;
  regs : nat -> option nat;
  objects : nat -> option (nat * bytes);
  calls : nat -> option nat }.

Definition empty_world : world := World (fun _ => None) 0 (fun _ => None) (fun _ => None) (fun _ => None).

Definition upd {A} (f : nat -> A) (k : nat) (v : A) : nat -> A := fun x => if Nat.eqb x k then v else f x.

(** include/wvstring.h: WvString equality *)
Definition same (a b : bytes) : bool := if list_eq_dec Ascii.ascii_dec a b then true else false.

Definition deref (w : world) (a : nat) : res registry := match heap w a with Some r => Ok r | None => Fault end.
Definition store (w : world) (a : nat) (r : option registry) : world := World (upd (heap w) a r) (fresh w) (regs w) (objects w) (calls w).

(** utils/wvmoniker.cc:110-130: find_reg.  addRef() is :150-154 *)
Definition find_reg (w : world) (i : nat) : res (world * nat) :=
  let '(w, a) := match regs w i with
    | Some a => (w, a)
    | None => (World (upd (heap w) (fresh w) (Some (Registry i 1 []))) (S (fresh w)) (upd (regs w) i (Some (fresh w))) (objects w) (calls w), fresh w)
    end in
  let! r := deref w a in
  Ok (store w a (Some (Registry (reg_iid r) (refcount r + 1) (registrations r))), a).

(** utils/wvmoniker.cc:157-180: release.  Leaving the table deletes the registry *)
Definition release (w : world) (a : nat) : res world :=
  let! r := deref w a in
  let n := refcount r - 1 in
  if 1 <? n then Ok (store w a (Some (Registry (reg_iid r) n (registrations r))))
  else if n =? 1 then Ok (World (upd (heap w) a None) (fresh w) (upd (regs w) (reg_iid r) None) (objects w) (calls w))
  else Ok (store w a None).

(** utils/wvmoniker.cc:56-66: add.  The assertion fails: Fault *)
Definition add (w : world) (a : nat) (id : bytes) (f : nat) (override : bool) : res world :=
  let! r := deref w a in
  if negb override && existsb (fun x => same (fst x) id) (registrations r) then Fault
  else Ok (store w a (Some (Registry (reg_iid r) (refcount r) ((id, f) :: registrations r)))).

(** utils/wvmoniker.cc:69-83: del *)
Fixpoint unlink (id : bytes) (l : list (bytes * nat)) : option (list (bytes * nat)) :=
  match l with
  | [] => None
  | x :: l => if same (fst x) id then Some l else match unlink id l with Some l => Some (x :: l) | None => None end
  end.
Definition del (w : world) (a : nat) (id : bytes) : res world :=
  let! r := deref w a in
  match unlink id (registrations r) with
  | Some l => Ok (store w a (Some (Registry (reg_iid r) (refcount r) l)))
  | None => Fault
  end.

(** utils/wvmoniker.cc:86-107: create, up to the call of the factory *)
Definition split (s : bytes) : bytes * bytes :=
  let s := trim_string s in
  match cut s ":"%char with Some (id, rest) => (id, rest) | None => (s, []) end.
Definition lookup (r : registry) (s : bytes) : option (nat * bytes) :=
  let '(id, rest) := split s in
  match find (fun x => same (fst x) id) (registrations r) with Some (_, f) => Some (f, rest) | None => None end.

(** utils/wvmoniker.cc:188-196: the constructor of WvMonikerBase; 199-207: the
    destructor; 210-223: wvcreate, cut in two.  A handle that is not one is the caller's error: Fault *)
Definition run1 (o : op) (w : world) : res (world * option (option (nat * bytes))) :=
  match o with
  | New h i id f ov =>
      let! (w, a) := find_reg w i in
      let! w := add w a id f ov in
      Ok (World (heap w) (fresh w) (regs w) (upd (objects w) h (Some (a, id))) (calls w), None)
  | Destroy h =>
      match objects w h with
      | None => Fault
      | Some (a, id) =>
          let! w := del w a id in
          let! w := release w a in
          Ok (World (heap w) (fresh w) (regs w) (upd (objects w) h None) (calls w), None)
      end
  | Begin c i s =>
      let! (w, a) := find_reg w i in
      let! r := deref w a in
      Ok (World (heap w) (fresh w) (regs w) (objects w) (upd (calls w) c (Some a)), Some (lookup r s))
  | End c =>
      match calls w c with
      | None => Fault
      | Some a => let! w := release w a in Ok (World (heap w) (fresh w) (regs w) (objects w) (upd (calls w) c None), None)
      end
  end.

Fixpoint run (ops : list op) (w : world) : res (world * list (option (option (nat * bytes)))) :=
  match ops with
  | [] => Ok (w, [])
  | o :: ops => let! (w, r) := run1 o w in let! (w, rs) := run ops w in Ok (w, r :: rs)
  end.
