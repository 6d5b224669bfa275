(** C20: formatted strings are exactly the expansion of their format. *)
From Verif Require Import Base DecSpec FormatModel FormatSpec FormatProofs.
Local Open Scope Z_scope.

(** Every format made of plain text, %s, %c and %% directives with width,
    precision and argument numbers, with any arguments: the buffer is never
    overrun and the result is the expansion (cut at the first zero byte, which
    only %c can produce).  Missing: directives whose width is larger than their
    precision, see below. *)
Theorem C20_expansion_partial : forall items args t,
  Forall well_formed items -> expansion args 0 items = Some t -> Z.of_nat (length t) < 2 ^ 31 ->
  do_format (format_of items) args = Ok (cstr t).
Proof. exact do_format_ok. Qed.

(** The example in the comment above do_format overruns its buffer. *)
Theorem C20_width_over_precision_refuted : exists fmt args,
  fmt = B "%s%10.2s%-10s" /\ length args = 20%nat /\ do_format fmt args = Fault.
Proof.
  exists (B "%s%10.2s%-10s"), ([Some (B "foo"); Some (B "blue"); Some (B "1234")] ++ repeat None 17).
  split; [reflexivity|]. split; [reflexivity|]. vm_compute. reflexivity.
Qed.
(** Using more than twenty arguments reads past the argument array. *)
Theorem C20_argument_21_refuted : exists fmt args,
  fmt = B "%$21s" /\ length args = 20%nat /\ do_format fmt args = Fault.
Proof.
  exists (B "%$21s"), (repeat None 20). split; [reflexivity|]. split; [reflexivity|]. vm_compute. reflexivity.
Qed.

Definition ex_items : list item :=
  [Plain (ch 65); Dir false (B "5") None None Text; Dir false [] None None Literal; Dir true (B "6") (Some (B "7")) None Text;
   Dir false (B "004") None (Some (B "1")) Text; Dir false [] None None Char; Dir false (B "3") (Some (B "3")) (Some (B "2")) Text].
Example C20_ex :
  format_of ex_items = B "A%5s%%%-6.7s%004$1s%c%3.3$2s" /\
  Forall well_formed ex_items /\
  expansion [Some (B "ab"); None; Some (B "33")] 0 ex_items = Some (B "A   ab%(nil) 00ab!(ni").
Proof.
  split; [reflexivity|]. split; [|vm_compute; reflexivity].
  unfold ex_items. repeat (apply Forall_cons; [|]); [..|apply Forall_nil].
  all: unfold well_formed, number.
  1: split; discriminate.
  all: split; [split; [repeat (constructor; [unfold digit; cbn; lia|]); constructor|reflexivity]|].
  all: split; [intros x Hx; first [discriminate|injection Hx as <-; split; [repeat (constructor; [unfold digit; cbn; lia|]); constructor|reflexivity]]|].
  all: split; [intros x Hx; first [discriminate|injection Hx as <-; split; [repeat (constructor; [unfold digit; cbn; lia|]); constructor|reflexivity]]|].
  all: intros Hx; first [discriminate|left; reflexivity|right; vm_compute; discriminate].
Qed.

Print Assumptions C20_expansion_partial.
Print Assumptions C20_width_over_precision_refuted.
Print Assumptions C20_argument_21_refuted.
