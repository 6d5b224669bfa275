(** Model of linuxstreams/wvipaliaser.cc: addresses that are aliases for a while. *)
From Verif Require Import Base AlsSpec.
From Coq Require Import NArith ZArith.
Local Open Scope N_scope.

(** include/wvipaliaser.h:21-28: an Alias; [ident] is which object it is, [index] is [None] for -1 *)
Record alias := Alias { ident : nat; index : option nat; links : Z; ip_of : N }.
(** The kernel's interfaces lo:wv0 to lo:wv255: the address of one that is up *)
Definition kernel := nat -> option N.
(** all_aliases, and of each WvIPAliaser: its list, as the objects' numbers, and what interfaces.update() saw *)
Record st := St { kern : kernel; all : list alias; mine : nat -> list nat; real_seen : nat -> N -> bool; fresh_id : nat }.

(** linuxstreams/wvipaliaser.cc:20-53: the constructor of Alias: the loop over the interfaces, [n] more from [i] *)
Fixpoint find_slot (k : kernel) (ip : N) (granted : bool) (n i : nat) : kernel * option nat :=
  match n with
  | O => (k, None)
  | S n =>
      match k i with
      | None => if granted then (upd k i (Some ip), Some i) else (k, None)
      | Some x => if x =? ip then (k, Some i) else find_slot k ip granted n (S i)
      end
  end.
(** linuxstreams/wvipaliaser.cc:56-64: the destructor *)
Definition destroy (k : kernel) (a : alias) : kernel := match index a with Some i => upd k i None | None => k end.

(** link_count += d, of the object [i]; [Fault] if there is none any more *)
Fixpoint link (l : list alias) (i : nat) (d : Z) : res (list alias) :=
  match l with
  | [] => Fault
  | a :: l => if Nat.eqb (ident a) i then Ok (Alias (ident a) (index a) (links a + d) (ip_of a) :: l) else let! l := link l i d in Ok (a :: l)
  end.
Fixpoint unlink_all (l : list alias) (m : list nat) : res (list alias) :=
  match m with [] => Ok l | i :: m => let! l := link l i (-1) in unlink_all l m end.
(** The object [i] *)
Fixpoint deref (l : list alias) (i : nat) : res alias := match l with [] => Fault | a :: l => if Nat.eqb (ident a) i then Ok a else deref l i end.
(** linuxstreams/wvipaliaser.cc:109-121: ipsearch in all_aliases, and in an aliaser's own list *)
Fixpoint ipsearch (l : list alias) (ip : N) : option alias := match l with [] => None | a :: l => if ip_of a =? ip then Some a else ipsearch l ip end.
Fixpoint ipsearch_mine (l : list alias) (m : list nat) (ip : N) : res bool :=
  match m with [] => Ok false | i :: m => let! a := deref l i in if ip_of a =? ip then Ok true else ipsearch_mine l m ip end.

(** linuxstreams/wvipaliaser.cc:86-106 *)
Definition start_edit (s : st) (a : nat) (real : N -> bool) : res st :=
  let! l := unlink_all (all s) (mine s a) in
  Ok (St (kern s) l (upd (mine s) a []) (upd (real_seen s) a real) (fresh_id s)).
(** linuxstreams/wvipaliaser.cc:124-157 *)
Definition add (s : st) (a : nat) (ip : N) (granted : bool) : res (st * bool) :=
  if ip =? 0 then Ok (s, false) else
  let! have := ipsearch_mine (all s) (mine s a) ip in
  if (have || real_seen s a ip)%bool then Ok (s, false) else
  match ipsearch (all s) ip with
  | Some x =>
      let! l := link (all s) (ident x) 1 in
      Ok (St (kern s) l (upd (mine s) a (mine s a ++ [ident x])) (real_seen s) (fresh_id s), false)
  | None =>
      let '(k, i) := find_slot (kern s) ip granted 256 0 in
      let x := Alias (fresh_id s) i 0 ip in
      let! l := link (all s ++ [x]) (ident x) 1 in
      Ok (St k l (upd (mine s) a (mine s a ++ [ident x])) (real_seen s) (S (fresh_id s)), true)
  end.
(** linuxstreams/wvipaliaser.cc:160-177; the loop over all_aliases *)
Fixpoint sweep (k : kernel) (l : list alias) : kernel * list alias * bool :=
  match l with
  | [] => (k, [], false)
  | a :: l => if Z.eqb (links a) 0 then let '(k, l, _) := sweep (destroy k a) l in (k, l, true) else let '(k, l, b) := sweep k l in (k, a :: l, b)
  end.
Definition done_edit (s : st) : st * bool :=
  let '(k, l, b) := sweep (kern s) (all s) in (St k l (mine s) (real_seen s) (fresh_id s), b).

Definition step (s : st) (o : op) : res (st * bool) :=
  match o with
  | Start a r => let! s := start_edit s a r in Ok (s, false)
  | Add a ip g => add s a ip g
  | Finish a => Ok (done_edit s)
  end.
Fixpoint run (s : st) (l : list op) : res (st * list bool) :=
  match l with [] => Ok (s, []) | o :: l => let! (s, b) := step s o in let! (s, r) := run s l in Ok (s, b :: r) end.
Definition boot (k : kernel) : st := St k [] (fun _ => []) (fun _ _ => false) 0.
