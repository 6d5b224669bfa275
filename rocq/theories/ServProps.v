(** Property C91: the XPLC service manager asks its handlers in the order
    promised, static handlers are tables, and categories list their components. *)
From Verif Require Import Base ServSpec ServModel ServProofs.
Import ListNotations.

(** ** The order of handlers, for every history *)
Theorem C91_order : forall ps, map handler (run ps []) = all (fold_left act ps (Order [] [] [])).
Proof. intros ps. destruct (run_ok ps (Order [] [] [])) as [E _]; [constructor|]. change (nodes (Order [] [] [])) with (@nil node) in E. rewrite E. apply nodes_handlers. Qed.
Print Assumptions C91_order.

Theorem C91_once : forall ps, NoDup (map handler (run ps [])).
Proof. intros ps. destruct (run_ok ps (Order [] [] [])) as [_ N]; [constructor|]. rewrite C91_order. exact N. Qed.
Print Assumptions C91_once.

Example C91_order_ex : map handler (run [Add 1; AddLast 2; AddFirst 3; Add 4; AddFirst 5; AddLast 6; Add 3; Remove 1; AddLast 4] []) = [5; 3; 4; 2; 6].
Proof. reflexivity. Qed.

(** ** getObject: the first answer *)
Theorem C91_get : forall {O} (ask : nat -> option O) ps, answered ask (all (fold_left act ps (Order [] [] []))) (get_object ask (run ps [])).
Proof. intros O ask ps. rewrite <- C91_order. apply get_ok. Qed.
Print Assumptions C91_get.
Example C91_get_ex : get_object (fun h => if Nat.leb 2 h then Some (10 * h) else None) (run [Add 3; Add 2; AddFirst 1] []) = Some 20.
Proof. reflexivity. Qed.

(** ** Static handlers *)
Theorem C91_static : forall ps u, static_get u (static_run ps []) = table ps u.
Proof. intros ps u. apply static_run_ok; [constructor|reflexivity]. Qed.
Print Assumptions C91_static.
Example C91_static_ex : map (fun u => static_get u (static_run [Put 1 (Some 7); Put 1 (Some 8); Put 2 None; Put 3 (Some 9); Put 2 (Some 5); Take 3] [])) [1; 2; 3] = [Some 7; Some 5; None].
Proof. reflexivity. Qed.

(** ** Categories: what was taken before stays as it was, whatever comes later *)
Theorem C91_category : forall before after c,
  let m := register_all before no_categories in
  walk (register_all after m) (get_category c m) = listing before c.
Proof.
  intros before after c m. destruct (register_all_ok before no_categories (fun _ => []) good_empty) as (G & _ & W); [reflexivity|].
  fold m in G, W. destruct (register_all_ok after m _ G W) as (G' & (x & X) & _).
  unfold listing. rewrite <- W. eapply walk_ext; [exact G|exact X|exact G'|apply get_lt, G].
Qed.
Print Assumptions C91_category.
Example C91_category_ex : let m := register_all [(1, 10, B "a"); (2, 20, B "b"); (1, 11, B "c"); (1, 10, B "d")] no_categories in
  walk m (get_category 1 m) = [(11, B "c"); (10, B "a")] /\
  walk (register_all [(1, 12, B "e")] m) (get_category 1 m) = [(11, B "c"); (10, B "a")] /\
  walk m (get_category 3 m) = [].
Proof. repeat split. Qed.
