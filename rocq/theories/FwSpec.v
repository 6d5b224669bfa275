(** What firewall objects are asked for, and the rules that should be there. *)
From Verif Require Import Base.
From Coq Require Import NArith.
Local Open Scope N_scope.

(** An address and a port; address 0 is 0.0.0.0 *)
Record addr := Addr { host : N; port : N }.
Inductive item :=
| Port (a : addr)
| Forward (src dst : addr) (snat : bool)
| Redir (src : addr) (dstport : N)
| RedirAll (dstport : N)
| Range (src_min src_max : addr) (dstport : N)
| Proto (p : bytes).
Inductive proto := Tcp | Udp.
(** An iptables rule: what the command's text has in it; [d] is the -d option *)
Inductive rule :=
| Accept (p : proto) (d : option N) (dport : N)
| RedirectTo (d : option N) (dport to : N)
| FRedirect (p : proto) (dport : N) (d : option N) (to : N)
| FDnat (p : proto) (dport : N) (d : option N) (to : addr)
| FMark (p : proto) (dport : N) (snat : bool) (d : option N)
| FAccept (p : proto) (dport : N) (snat : bool) (d : option N)
| RangeTo (d : option N) (min max : option N) (to : N)
| AllTo (to : N)
| AcceptProto (p : bytes).
Definition addr_dec (a b : addr) : {a = b} + {a <> b}. Proof. decide equality; apply N.eq_dec. Defined.
Definition rule_dec (a b : rule) : {a = b} + {a <> b}.
Proof. decide equality; first [apply N.eq_dec|apply addr_dec|apply Bool.bool_dec|apply (list_eq_dec ascii_dec)|decide equality; apply N.eq_dec|decide equality]. Defined.
Definition item_dec (a b : item) : {a = b} + {a <> b}.
Proof. decide equality; first [apply N.eq_dec|apply addr_dec|apply Bool.bool_dec|apply (list_eq_dec ascii_dec)]. Defined.

Definition opt (n : N) : option N := if n =? 0 then None else Some n.
(** The rules that are to be there for an item *)
Definition rules (i : item) : list rule :=
  match i with
  | Port a => [Accept Tcp (opt (host a)) (port a); Accept Udp (opt (host a)) (port a)]
  | Forward s d snat =>
      let local := ((host d =? 2130706433) || (host d =? 0))%bool in
      flat_map (fun p => [if local then FRedirect p (port s) (opt (host s)) (port d) else FDnat p (port s) (opt (host s)) d;
                          FMark p (port s) snat (opt (host s)); FAccept p (port d) snat (if local then None else Some (host d))]) [Tcp; Udp]
  | Redir s to => [RedirectTo (opt (host s)) (port s) to]
  | RedirAll to => [AllTo to]
  | Range a b to => [RangeTo (opt (host a)) (opt (port a)) (opt (port b)) to]
  | Proto p => [AcceptProto p]
  end.

(** Firewall objects are numbered. *)
Inductive op := Add (f : nat) (i : item) | Del (f : nat) (i : item) | Zap (f : nat).
Definition count (r : rule) (l : list rule) : nat := count_occ rule_dec l r.
(** What each object was asked for since its last zap *)
Definition upd {X} (f : nat -> X) (a : nat) (x : X) : nat -> X := fun b => if Nat.eqb b a then x else f b.
Definition asked1 (w : nat -> list item) (o : op) : nat -> list item :=
  match o with Add f i => upd w f (w f ++ [i]) | Del _ _ => w | Zap f => upd w f [] end.
Definition asked (l : list op) : nat -> list item := fold_left asked1 l (fun _ => []).
(** How often a rule should be there for [n] objects *)
Definition due (r : rule) (l : list item) : nat := list_sum (map (fun i => count r (rules i)) l).
Definition total (n : nat) (w : nat -> list item) (r : rule) : nat := list_sum (map (fun f => due r (w f)) (seq 0 n)).
Definition who (o : op) : nat := match o with Add f _ | Del f _ | Zap f => f end.
