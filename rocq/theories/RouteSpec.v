(** Routes, what a line of a routing table says, and when two tables agree. *)
From Verif Require Import Base.
From Coq Require Import NArith ZArith.
Local Open Scope N_scope.

Definition word := bytes.
Record route := Route { ifc : word; network : N; netmask : N; gateway : N; metric : Z; table : word; src : option word }.
(** The same route; the source address is not a part of this *)
Definition same (a b : route) : Prop := ifc a = ifc b /\ network a = network b /\ netmask a = netmask b /\ gateway a = gateway b /\ metric a = metric b /\ table a = table b.
Definition within (r : route) (l : list route) : Prop := exists x, In x l /\ same x r.

Section S.
(** How words are read: numbers, hexadecimal numbers, addresses, networks *)
Context (num : word -> Z) (hex : word -> N) (addr : word -> N) (net : word -> N * N).
Definition weq (a b : word) : bool := if list_eq_dec ascii_dec a b then true else false.
(** Words in pairs: keys and values; an odd last one is nothing *)
Fixpoint pairs (l : list word) : list (word * word) := match l with a :: b :: l => (a, b) :: pairs l | _ => [] end.
(** Up to "table local" *)
Fixpoint before_local (l : list (word * word)) : list (word * word) :=
  match l with [] => [] | (a, b) :: l => if (weq a (B "table") && weq b (B "local"))%bool then [] else (a, b) :: before_local l end.
(** The last value of a key *)
Definition value (k : word) (l : list (word * word)) : option word := fold_left (fun v p => if weq (fst p) k then Some (snd p) else v) l None.
Definition text (v : option word) : word := match v with Some w => w | None => [] end.
(** The route on a line of "ip route list table all": one that is in a table other than
    the main one, and has a device *)
Definition on_line (l : list word) : option route :=
  match l with
  | first :: rest =>
      let kv := before_local (pairs rest) in
      if (Nat.ltb (length l) 3 || weq first (B "broadcast") || weq first (B "local") || weq (text (value (B "table") kv)) [] || weq (text (value (B "dev") kv)) [])%bool then None
      else let n := net (if weq first (B "default") then B "0/0" else first) in
        Some (Route (text (value (B "dev") kv)) (fst n) (snd n) (addr (text (value (B "via") kv)))
                (match value (B "metric") kv with Some m => num m | None => 0%Z end) (text (value (B "table") kv))
                (match value (B "src") kv with Some [] | None => None | v => v end))
  | [] => None
  end.
End S.
