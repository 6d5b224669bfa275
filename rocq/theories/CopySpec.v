(** What copying and moving keys should do to the contents. *)
From Verif Require Import Base TempSpec.

(** Neither lies at or below the other. *)
Definition apart (a b : list bytes) : Prop := under a b = false /\ under b a = false.
(** The key below [dst] that is where [k] is below [src]. *)
Definition rest (dst k : list bytes) : list bytes := skipn (length dst) k.

(** "cp -r": what is below [src] is put below [dst]; with [force], over what is there
    already, otherwise only where there is nothing.  The keys above [dst] are made. *)
Definition copied (m : contents) (src dst : list bytes) (force : bool) : contents := fun k =>
  match m src with
  | None => m k
  | Some _ =>
      if under dst k then
        match m (src ++ rest dst k), m k with
        | Some v, None => Some v
        | Some v, Some old => Some (if force then v else old)
        | None, old => old
        end
      else if under k dst then match m k with None => Some [] | o => o end
      else m k
  end.

(** "mv": then [dst] is what [src] was, and [src] is gone. *)
Definition moved (m : contents) (src dst : list bytes) : contents := fun k =>
  if under src k then None
  else if under dst k then m (src ++ rest dst k)
  else match m src with
    | Some _ => if under k dst then match m k with None => Some [] | o => o end else m k
    | None => m k
    end.
