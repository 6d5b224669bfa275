(** Words for what may be found on disk. *)
From Verif Require Import Base StreamModel FileModel.
Local Open Scope Z_scope.

(** The file as it is before; a complete new one. *)
Definition old (before d : fs) : Prop := target d = target before.
Definition complete (blocks : list bytes) (d : fs) : Prop := exists f, target d = Some f /\ content f = concat blocks.
(** A failing device names its error; select never says that nothing happened and
    the clock never runs out, so that no flush is given up. *)
Definition named (a : answer) : Prop := wfail a <> Some 0 /\ sfail a <> Some 0.
Definition prompt (a : answer) : Prop := named a /\ ready a = true /\ late a = false.
(** The device takes a write of up to [n] bytes whole, or fails. *)
Definition whole (n : nat) (a : answer) : Prop := named a /\ (n <= take a)%nat.
(** What may be there after the machine loses power: nothing is ever synced, so of the
    data written any first part. *)
Definition power_loss (d d' : fs) : Prop :=
  match target d, target d' with
  | Some f, Some f' => regular f' = regular f /\ sticky f' = sticky f /\ exists rest, content f = content f' ++ rest
  | None, None => True
  | _, _ => False
  end.
