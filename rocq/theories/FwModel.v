(** Model of linuxstreams/wvipfirewall.cc, with [enable] on. *)
From Verif Require Import Base FwSpec.
From Coq Require Import NArith.
Local Open Scope N_scope.

(** iptables -A and -D: appends a rule; removes the first that is equal, or fails *)
Inductive cmd := A | D.
Fixpoint remove1 (r : rule) (k : list rule) : list rule := match k with [] => [] | x :: k => if rule_dec x r then k else x :: remove1 r k end.
Definition iptables (c : cmd) (r : rule) (k : list rule) : list rule := match c with A => k ++ [r] | D => remove1 r k end.
Definition system (c : cmd) (l : list rule) (k : list rule) : list rule := fold_left (fun k r => iptables c r k) l k.

(** linuxstreams/wvipfirewall.cc:29-41 *)
Definition port_command (p : proto) (a : addr) : list rule := [Accept p (if host a =? 0 then None else Some (host a)) (port a)].
(** linuxstreams/wvipfirewall.cc:44-57 *)
Definition redir_command (s : addr) (dstport : N) : list rule := [RedirectTo (if host s =? 0 then None else Some (host s)) (port s) dstport].
(** linuxstreams/wvipfirewall.cc:59-108; 127.0.0.1 is 2130706433 *)
Definition forward_command (p : proto) (s d : addr) (snat : bool) : list rule :=
  let haveiface := if host s =? 0 then None else Some (host s) in
  let '(first, haveoface) :=
    if ((host d =? 2130706433) || (host d =? 0))%bool then (FRedirect p (port s) haveiface (port d), None)
    else (FDnat p (port s) haveiface d, Some (host d)) in
  [first; FMark p (port s) snat haveiface; FAccept p (port d) snat haveoface].
(** linuxstreams/wvipfirewall.cc:110-125 *)
Definition redir_port_range_command (a b : addr) (dstport : N) : list rule :=
  [RangeTo (if host a =? 0 then None else Some (host a)) (if port a =? 0 then None else Some (port a)) (if port b =? 0 then None else Some (port b)) dstport].
(** linuxstreams/wvipfirewall.cc:127-136 *)
Definition redir_all_command (dstport : N) : list rule := [AllTo dstport].
(** linuxstreams/wvipfirewall.cc:138-143 *)
Definition proto_command (p : bytes) : list rule := [AcceptProto p].
(** What the add_* and del_* functions run, in order *)
Definition commands (i : item) : list rule :=
  match i with
  | Port a => port_command Tcp a ++ port_command Udp a
  | Forward s d n => forward_command Tcp s d n ++ forward_command Udp s d n
  | Redir s to => redir_command s to
  | RedirAll to => redir_all_command to
  | Range a b to => redir_port_range_command a b to
  | Proto p => proto_command p
  end.

(** The kernel's rules, and the lists of each object: addrs, ffwds, redirs, redir_alls,
    redir_port_ranges and protos, as one list *)
Record st := St { kern : list rule; items : nat -> list item }.
(** addrs, ffwds, ...: which of the lists *)
Definition kind (i : item) : nat := match i with Port _ => 0 | Forward _ _ _ => 1 | Redir _ _ => 2 | RedirAll _ => 3 | Range _ _ _ => 4 | Proto _ => 5 end.
Definition of_kind (k : nat) (l : list item) : list item := filter (fun i => Nat.eqb (kind i) k) l.

(** linuxstreams/wvipfirewall.cc:146-156, 179-193, 217-222, 239-244, 261-267, 287-292: add_* *)
Definition add (s : st) (f : nat) (i : item) : st := St (system A (commands i) (kern s)) (upd (items s) f (items s f ++ [i])).
(** linuxstreams/wvipfirewall.cc:160-177, 195-215, 225-237, 247-259, 270-284, 295-307: del_*: the
    loop over a list; del_forward does not stop at the first *)
Fixpoint del (l : list item) (i : item) (k : list rule) : list rule :=
  match l with
  | [] => k
  | x :: l => if item_dec x i then let k := system D (commands i) k in match i with Forward _ _ _ => del l i k | _ => k end else del l i k
  end.
(** A loop of zap(): delete, and unlink from the list *)
Fixpoint zap_list (l : list item) (k : list rule) : list rule := match l with [] => k | x :: r => zap_list r (del l x k) end.
(** linuxstreams/wvipfirewall.cc:311-355 *)
Definition zap (s : st) (f : nat) : st :=
  St (fold_left (fun k n => zap_list (of_kind n (items s f)) k) [0; 1; 2; 3; 4; 5]%nat (kern s)) (upd (items s) f []).

Definition step (s : st) (o : op) : st :=
  match o with
  | Add f i => add s f i
  | Del f i => St (del (of_kind (kind i) (items s f)) i (kern s)) (items s)
  | Zap f => zap s f
  end.
Definition run (s : st) (l : list op) : st := fold_left step l s.
Definition boot (k : list rule) : st := St k (fun _ => []).
