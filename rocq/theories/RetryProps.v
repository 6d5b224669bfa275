(** C80: a generator that reconnects. *)
From Verif Require Import Base RetrySpec RetryModel RetryProofs.
Local Open Scope Z_scope.
Local Open Scope list_scope.

(** C80.  Whatever the clock, the generators and the user (also in callbacks)
    do, all that happens follows the rules of [RetrySpec]; and at the end of
    its life no operation and no generator is left. *)
Theorem C80_rules : forall n e,
  exists sp, follows (has_cb e) (interval e) (hist (states (life n e))) sp /\
    match life n e with
    | Done _ s => s_frames sp = []
    | Stuck _ => True
    end.
Proof.
  intros n e. destruct (life_good n e) as (sp & A & _ & C). exists sp. split; [exact A|].
  destruct (life n e); tauto.
Qed.
Print Assumptions C80_rules.

(** C80.  Nothing is asked of a generator that was not made, or was given up;
    and none is given up twice. *)
Theorem C80_use : forall n e l2 x g l1,
  hist (states (life n e)) = l2 ++ x :: l1 -> uses x = Some g ->
  In (Make (Some g)) l1 /\ ~ In (Release g) l1.
Proof.
  intros n e l2 x g l1 E U. destruct (life_good n e) as (sp & A & _). unfold keeps in A. rewrite E in A.
  eapply use_live; eauto.
Qed.
Print Assumptions C80_use.

(** C80.  All generators that were made are given up in the end. *)
Theorem C80_released : forall n e a s g, life n e = Done a s ->
  (In (Make (Some g)) (hist s) <-> In (Release g) (hist s)).
Proof.
  intros n e a s g E. destruct (life_good n e) as (sp & A & _ & C). rewrite E in A, C. cbn in A.
  destruct (lives _ _ _ _ A) as (_ & B & _). rewrite B. destruct C as [_ C]. specialize (C g). tauto.
Qed.
Print Assumptions C80_released.

(** C80.  With a clock that does not go back, no attempt is made before an
    interval has gone by for every generator that was given up. *)
Theorem C80_pace : forall n e l2 r l1 t0,
  hist (states (life n e)) = l2 ++ Make r :: l1 -> ascending l1 -> last l1 (Stamp 0) = Stamp t0 ->
  l1 <> [] -> exists t l, l1 = Now t :: l /\ t0 + released l1 * interval e <= t.
Proof.
  intros n e l2 r l1 t0 E HA HL HN. destruct (life_good n e) as (sp & A & _). unfold keeps in A. rewrite E in A.
  eapply pace; eauto.
Qed.
Print Assumptions C80_pace.

(** C80.  If callbacks for changes do not use the generator again, none is
    given up while it works on something. *)
Theorem C80_in_call_partial : forall n e l4 g l3 o l1, (forall h, told e h = None) ->
  hist (states (life n e)) = l4 ++ Release g :: l3 ++ Call g o :: l1 ->
  exists a, In (Back g a) l3.
Proof.
  intros n e l4 g l3 o l1 Q E. destruct (life_good n e) as (sp & A & B & _). unfold keeps in A. rewrite E in A.
  eapply not_in_call; [exact A|apply B; exact Q].
Qed.
Print Assumptions C80_in_call_partial.

(** Two users for the examples. *)
Definition asked (h : list ev) : nat :=
  length (filter (fun x => match x with Enter _ => true | _ => false end) h).

Definition script (os : list op) (h : list ev) : option op := nth_error os (asked h).

Definition looked (h : list ev) : Z :=
  Z.of_nat (length (filter (fun x => match x with Now _ | Stamp _ => true | _ => false end) h)).

(** The first generator works for two questions; the second for ever. *)
Definition ex_env : env := Env
  (fun h => 3000000 * looked h) (fun _ => true)
  (fun h g => match g with O => Nat.leb (asked h) 2 | _ => true end)
  (fun _ g o => match o with Get _ => Str (Some (B (match g with O => "old" | _ => "new" end))) | o => default o end)
  (fun _ => None) (fun _ => None)
  (script [Get (B "a"); Exists (B "a"); Get (B "a"); Get []; Get (B "a"); Get (B "a"); SetAll []; IsOk]) true 5000000.

Definition answers (h : list ev) : list ans :=
  rev (flat_map (fun x => match x with Leave _ a => [a] | _ => [] end) h).

Example C80_ex : exists s,
  life 100 ex_env = Done Unit s /\
  answers (hist s) = [Str (Some (B "old")); Bool false; Str None; Str (Some []); Str (Some (B "new")); Str (Some (B "new")); Unit; Bool true] /\
  ascending (hist s) /\ released (hist s) = 2.
Proof.
  eexists. split; [vm_compute; reflexivity|]. split; [reflexivity|]. split; [|reflexivity].
  intros l2 x l1 x' t t' E Hx Hi Hx'.
  repeat (destruct l2 as [|? l2]; [injection E as <- <-; destruct Hx as [Hx|Hx]; try discriminate Hx; injection Hx as <-;
            repeat (destruct Hi as [<-|Hi]; [destruct Hx' as [Hx'|Hx']; try discriminate Hx'; injection Hx' as <-; lia|]); destruct Hi
          |injection E as _ E]).
  destruct l2; discriminate.
Qed.

(** C80.  The interval is not kept between attempts (as the header says) but
    on the average: after a time without questions, attempts follow each
    other at once. *)
Definition late_env : env := Env
  (fun h => match h with [] => 0 | _ => 1000000000 end) (fun _ => true) (fun _ _ => false)
  (fun _ _ o => default o) (fun _ => None) (fun _ => None) (script [Get (B "a"); Get (B "b")]) false 5000000.

Theorem C80_pause_refuted : exists n e l3 l2 l1 t, 0 < interval e /\
  hist (states (life n e)) = l3 ++ Make (Some 1%nat) :: Now t :: l2 ++ Make (Some 0%nat) :: Now t :: l1.
Proof.
  exists 20%nat, late_env,
    (firstn 9 (hist (states (life 20 late_env)))), [Enter (Get (B "a")); Release 0; Ok 0 false], [Stamp 0], 1000000000.
  split; [reflexivity|]. vm_compute. reflexivity.
Qed.
Print Assumptions C80_pause_refuted.

(** C80.  And a moniker that gives no generator at all is tried with every
    question. *)
Definition null_env : env := Env
  (fun _ => 0) (fun _ => false) (fun _ _ => false)
  (fun _ _ o => default o) (fun _ => None) (fun _ => None) (script [Get (B "a"); Get (B "b")]) false 5000000.

Theorem C80_null_refuted : exists n e l4 l3 l2 t, 0 < interval e /\
  hist (states (life n e)) = l4 ++ Make None :: Now t :: l3 ++ Make None :: Now t :: l2.
Proof.
  exists 20%nat, null_env, [Leave (Get (B "b")) (Str None)],
    [Enter (Get (B "b")); Leave (Get (B "a")) (Str None)], [Enter (Get (B "a")); Make None; Now 0; Stamp 0], 0.
  split; [reflexivity|]. vm_compute. reflexivity.
Qed.
Print Assumptions C80_null_refuted.

(** C80.  But a callback for changes that asks something may have the
    generator that calls it given up: it is deleted while it works. *)
Definition hurt_env : env := Env
  (fun _ => 0) (fun _ => true) (fun h _ => Nat.leb (asked h) 1)
  (fun _ _ o => default o) (fun _ => None) (script [Refresh; IsOk]) (script [Refresh]) false 5000000.

Theorem C80_in_call_refuted : exists n e l4 g l3 l1 a s, life n e = Done a s /\
  hist s = l4 ++ Back g (Bool false) :: l3 ++ Call g Refresh :: l1 /\ In (Release g) l3 /\
  (forall b, ~ In (Back g b) l3).
Proof.
  exists 20%nat, hurt_env, [Leave Refresh (Bool false)], 0%nat,
    [Leave IsOk (Bool false); Stamp 0; Release 0; Ok 0 false; Ok 0 false; Enter IsOk],
    [Ok 0 true; Enter Refresh; Ok 0 true; Make (Some 0%nat); Now 0; Stamp 0].
  do 2 eexists. split; [vm_compute; reflexivity|]. split; [reflexivity|].
  split; [cbn; tauto|]. intros b X. cbn in X. repeat (destruct X as [X|X]; [discriminate X|]). exact X.
Qed.
Print Assumptions C80_in_call_refuted.
