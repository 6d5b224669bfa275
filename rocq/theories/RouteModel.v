(** Model of linuxstreams/wviproute.cc: reading and setting the kernel's routes. *)
From Verif Require Import Base RouteSpec.
From Coq Require Import NArith ZArith.
Local Open Scope N_scope.

Section S.
Context (num : word -> Z) (hex : word -> N) (addr : word -> N) (net : word -> N * N).
(** linuxstreams/wviproute.cc:72-108: a line of /proc/net/route, in words *)
Definition proc_line (l : list word) : option route :=
  match l with
  | i :: a :: g :: f :: _ :: _ :: m :: k :: _ :: _ :: _ => if N.testbit (hex f) 0 then Some (Route i (N.land (hex a) (hex k)) (hex k) (hex g) (num m) (B "default") None) else None
  | _ => None
  end.

(** The variables of the loop; [vsrc] is not set anew for each line *)
Record vars := Vars { vifc : word; vgate : word; vtable : word; vmetric : Z; vsrc : word }.
(** linuxstreams/wviproute.cc:134-166: the loop over a line's words *)
Fixpoint words (l : list word) (v : vars) : vars :=
  match l with
  | word1 :: word2 :: l =>
      if weq word1 (B "table") then if weq word2 (B "local") then v else words l (Vars (vifc v) (vgate v) word2 (vmetric v) (vsrc v))
      else if weq word1 (B "dev") then words l (Vars word2 (vgate v) (vtable v) (vmetric v) (vsrc v))
      else if weq word1 (B "via") then words l (Vars (vifc v) word2 (vtable v) (vmetric v) (vsrc v))
      else if weq word1 (B "metric") then words l (Vars (vifc v) (vgate v) (vtable v) (num word2) (vsrc v))
      else if weq word1 (B "src") then words l (Vars (vifc v) (vgate v) (vtable v) (vmetric v) word2)
      else words l v
  | _ => v
  end.
(** linuxstreams/wviproute.cc:110-186: the loop over the lines; [s] is what is in src *)
Fixpoint policy (lines : list (list word)) (s : word) : list route :=
  match lines with
  | [] => []
  | [] :: lines => policy lines s
  | (first :: rest) :: lines =>
      if Nat.ltb (S (length rest)) 3 then policy lines s
      else if (weq first (B "broadcast") || weq first (B "local"))%bool then policy lines s
      else
        let n := net (if weq first (B "default") then B "0/0" else first) in
        let v := words rest (Vars [] [] [] 0%Z s) in
        if weq (vtable v) [] then policy lines (vsrc v)
        else if weq (vifc v) [] then policy lines (vsrc v)
        else Route (vifc v) (fst n) (snd n) (addr (vgate v)) (vmetric v) (vtable v) (if weq (vsrc v) [] then None else Some (vsrc v)) :: policy lines (vsrc v)
  end.
Fixpoint proc (lines : list (list word)) : list route :=
  match lines with [] => [] | l :: lines => match proc_line l with Some r => r :: proc lines | None => proc lines end end.
(** linuxstreams/wviproute.cc:60-187: get_kernel, from the lines of both sources *)
Definition get_kernel (p q : list (list word)) : list route := proc p ++ policy q [].
End S.

(** linuxstreams/wviproute.cc:38-44: operator== *)
Definition eqr (a b : route) : bool :=
  ((network a =? network b) && (netmask a =? netmask b) && (gateway a =? gateway b) && weq (ifc a) (ifc b) && Z.eqb (metric a) (metric b) && weq (table a) (table b))%bool.
(** What is asked of the kernel *)
Inductive cmd := Del (r : route) | Add (r : route).
(** linuxstreams/wviproute.cc:200-248: set_kernel: the commands, given the old routes and this list *)
Definition set_kernel (old new : list route) : list cmd :=
  flat_map (fun o => if Z.eqb (metric o) 99 then [] else if existsb (fun n => eqr n o) new then [] else [Del o]) old ++
  flat_map (fun n => if existsb (fun o => eqr o n) old then [] else [Add n]) new.
(** The kernel does what it is asked: a route goes, a new one comes, one that is there stays *)
Definition kernel1 (k : list route) (c : cmd) : list route :=
  match c with Del r => filter (fun x => negb (eqr x r)) k | Add r => if existsb (fun x => eqr x r) k then k else k ++ [r] end.
Definition kernel (k : list route) (l : list cmd) : list route := fold_left kernel1 l k.
(** linuxstreams/wviproute.cc:251-262: find; [includes]: the address is in the network *)
Definition includes (r : route) (a : N) : bool := N.land a (netmask r) =? network r.
Definition find (l : list route) (a : N) : option route := List.find (fun r => includes r a) l.
