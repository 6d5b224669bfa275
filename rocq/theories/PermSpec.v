(** Who may do what. *)
From Verif Require Import Base Ctype KeySpec TempSpec PermModel StrIntModel.
Local Open Scope nat_scope.

(** The value that [f] has at [p] or at the nearest key above it that has one. *)
Definition inherited {A} (f : list bytes -> option A) (p : list bytes) (r : option A) : Prop :=
  match r with
  | Some v => exists a b, p = a ++ b /\ f a = Some v /\ forall c d, b = c ++ d -> c <> [] -> f (a ++ c) = None
  | None => forall a b, p = a ++ b -> f a = None
  end.
Section Get.
Context (get : list bytes -> option bytes) (c : creds).
Definition name_at (n : bytes) (p : list bytes) : option bytes :=
  match get (p ++ [n]) with Some (x :: y) => Some (x :: y) | _ => None end.
(** A permission is set where its entry is a number other than -1 or a truth value. *)
Definition perm_at (l : level) (t : perm) (p : list bytes) : option bool :=
  let z := str2int (get (p ++ [level2str l ++ B "-" ++ type2str t])) (-1) in
  if (z =? -1)%Z then None else Some (negb (z =? 0)%Z).
Definition owns (p : list bytes) : Prop := exists o, inherited (name_at (B "owner")) p (Some o) /\ user c = Some o.
Definition member (p : list bytes) : Prop := exists g, inherited (name_at (B "group")) p (Some g) /\ In g (groups c).
Definition at_level (p : list bytes) (l : level) : Prop :=
  match l with USER => owns p | GROUP => ~ owns p /\ member p | WORLD => ~ owns p /\ ~ member p end.
Definition allowed (p : list bytes) (t : perm) : Prop :=
  exists l, at_level p l /\ inherited (perm_at l t) p (Some true).
(** The right itself, and leave to pass through every key above. *)
Definition granted (p : list bytes) (t : perm) : Prop :=
  (forall a b, p = a ++ b -> b <> [] -> allowed a EXEC) /\ allowed p t.
End Get.
Definition good_key (k : list bytes) : Prop := canonical k /\ short k.
(** Calls other than bulk sets. *)
Definition not_bulk (c : call) : bool := match c with CSetv _ => false | _ => true end.
