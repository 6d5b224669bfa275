(** C78: WvCont is a coroutine: the machine with its stacks, which jumps back through the top level, and
    the ideal continuations of ContSpec cannot be told apart *)
From Verif Require Import Base ContModel ContSpec ContProofs.
Local Open Scope nat_scope.

(** Whatever callbacks and main program do: what ideal continuations show, WvCont shows *)
Theorem C78_shows : forall fns main n, exists m, n <= m /\ seen (steps fns m (Exec main, init)) = iseen (isteps fns n (Run main, start_state)).
Proof. intros fns main n. apply refines. exact rel_init. Qed.
Print Assumptions C78_shows.

(** and WvCont shows nothing else, at any moment *)
Theorem C78_shows_only : forall fns main m, exists n, seen (steps fns m (Exec main, init)) = iseen (isteps fns n (Run main, start_state)).
Proof. intros fns main m. apply refines_back. exact rel_init. Qed.
Print Assumptions C78_shows_only.

(** So the program returns v after it has said l if and only if it does so with ideal continuations;
    and no assertion fails, and nothing is used after it was deleted, unless the program does what
    cannot be done *)
Theorem C78_same_end : forall fns main o l,
  ((exists m, seen (steps fns m (Exec main, init)) = (o, l)) <-> (exists n, iseen (isteps fns n (Run main, start_state)) = (o, l))).
Proof.
  intros fns main o l. split.
  - intros [m E]. destruct (C78_shows_only fns main m) as [n F]. exists n. rewrite <- F. exact E.
  - intros [n E]. destruct (C78_shows fns main n) as (m & _ & F). exists m. rewrite F. exact E.
Qed.
Print Assumptions C78_same_end.

(** When the main program returns, what has no object left is deleted, and its stack is free to be used again *)
Theorem C78_no_leak : forall fns main m v s, steps fns m (Exec main, init) = (Done v, s) ->
  (forall d x, datas s d = Some x -> exists h, objs s h = Some d) /\
  (forall t, t < ntask s -> (In t (free s) /\ running (tasks s t) = false) \/ exists h d x, objs s h = Some d /\ datas s d = Some x /\ task x = Some t).
Proof. intros fns main m v s. apply no_leak. Qed.
Print Assumptions C78_no_leak.

(** ** Programs *)
(** 0: says its arguments and yields 10, 20; returns their sum.  1: calls a 0 of its own, and yields
    what it gets.  2: the same with a 1.  3: says whether it is ok before and after a yield.  4: gives
    up its own last object, which is number 0.  5: yields twice without a look at isok.  6: calls itself. *)
Definition ex_fns (f : nat) (v : Z) : code :=
  match f with
  | 0%nat => Say v (Yield 10 (fun w => Say w (Yield 20 (fun x => Say x (Ret (v + w + x))))))
  | 1%nat => New 0 100 (fun h => Call h v (fun a => Yield (a + 1) (fun w => Call h w (fun b => Yield (b + 1) (fun x => Call h x (fun c => Drop h (Ret (c + 1))))))))
  | 2%nat => New 1 100 (fun h => Call h v (fun a => Yield (a * 2) (fun w => Call h w (fun b => Yield (b * 2) (fun x => Call h x (fun c => Drop h (Ret (c * 2))))))))
  | 3%nat => IsOk (fun a => Say (if a then 1 else 0) (Yield 7 (fun w => Say w (IsOk (fun b => Say (if b then 1 else 0) (Ret 8))))))
  | 4%nat => Drop 0 (IsOk (fun a => Say (if a then 1 else 0) (Yield 5 (fun w => Say w (IsOk (fun b => Say (if b then 1 else 0) (Ret 6)))))))
  | 5%nat => Yield 1 (fun _ => Yield 2 (fun _ => Ret 3))
  | _ => Call 0 v (fun _ => Ret 0)
  end%Z.
Definition three (f : nat) : code := New f 100 (fun h => Call h 1 (fun a => Say (a + 1000) (Call h 2 (fun b => Say (b + 1000) (Call h 3 (fun c => Drop h (Ret c)))))))%Z.
(** A generator, by itself and at depth three *)
Example C78_generator_example : seen (steps ex_fns 60 (Exec (three 0), init)) = (Value 6, [1; 1010; 2; 1020; 3])%Z.
Proof. vm_compute. reflexivity. Qed.
Example C78_nested_example : seen (steps ex_fns 200 (Exec (three 2), init)) = (Value 14, [1; 1022; 2; 1042; 3])%Z.
Proof. vm_compute. reflexivity. Qed.
(** Dropped while it waits: the yield returns 0, and isok is false *)
Example C78_dropped_example : seen (steps ex_fns 60 (Exec (New 3 100 (fun h => Call h 1 (fun a => Drop h (Ret a)))), init)) = (Value 7, [1; 0; 0])%Z.
Proof. vm_compute. reflexivity. Qed.
(** Dropped while it runs: isok is still true, but the yield returns at once; the caller gets what is returned *)
Example C78_self_example : seen (steps ex_fns 60 (Exec (New 4 100 (fun h => Call h 1 (fun a => Ret a))), init)) = (Value 6, [1; 0; 0])%Z.
Proof. vm_compute. reflexivity. Qed.
(** Two that wait, in turns; a copy is the same continuation *)
Example C78_turns_example :
  seen (steps ex_fns 200 (Exec (New 0 100 (fun g => New 0 100 (fun h => Call g 1 (fun _ => Call h 2 (fun _ => Copy g (fun g' => Drop g (Call g' 3 (fun _ => Call h 4 (fun a => Ret a))))))))), init)) = (Value 20, [1; 2; 3; 4])%Z.
Proof. vm_compute. reflexivity. Qed.
(** At the end of the nested one its three objects are gone, and the three stacks are free *)
Example C78_no_leak_example :
  let c := steps ex_fns 200 (Exec (three 2), init) in
  fst c = Done 14%Z /\ map (objs (snd c)) (seq 0 (nobj (snd c))) = [None; None; None] /\ ntask (snd c) = 3 /\ length (free (snd c)) = 3.
Proof. vm_compute. repeat split. Qed.

(** isok tells a continuation that it is dying; but not at once: one that gives up its last object
    still finds it true until something has returned *)
Theorem C78_isok_refuted : ~ (forall fns i d a r, (exists main n c, isteps fns n (Run main, start_state) = (Run c, i)) -> stack i = (d, a) :: r -> refs (handles i) (nhandle i) d = 0 -> is_dying i d = true).
Proof.
  intros H. specialize (H ex_fns). set (main := New 4 100 (fun h => Call h 1 (fun a => Ret a))).
  specialize (H (snd (isteps ex_fns 3 (Run main, start_state))) 0 (Gets (fun a => Ret a)) []).
  assert (E : is_dying (snd (isteps ex_fns 3 (Run main, start_state))) 0 = true) by (apply H; [exists main, 3; eexists; reflexivity|reflexivity|reflexivity]). discriminate.
Qed.
Print Assumptions C78_isok_refuted.
(** A dying continuation that yields without a look at isok, and one that calls itself, end the program *)
Theorem C78_abort_refuted : ~ (forall fns main m, fst (seen (steps fns m (Exec main, init))) <> Died).
Proof. intros H. apply (H ex_fns (New 6 100 (fun h => Call h 1 (fun a => Ret a))) 60). vm_compute. reflexivity. Qed.
Print Assumptions C78_abort_refuted.
Theorem C78_dying_yield_refuted : ~ (forall fns f m, fst (seen (steps fns m (Exec (New f 100 (fun h => Call h 1 (fun _ => Drop h (Ret 0)))), init))) <> Died).
Proof. intros H. apply (H ex_fns 5 60). vm_compute. reflexivity. Qed.
Print Assumptions C78_dying_yield_refuted.
