(** Proofs about firewall objects. *)
From Verif Require Import Base BaseFacts FwSpec FwModel.
From Coq Require Import NArith Lia.
Local Open Scope nat_scope.

Lemma commands_rules i : commands i = rules i.
Proof.
  destruct i as [a|s d n|s t|t|a b t|p]; try reflexivity. cbn [commands rules flat_map]. unfold forward_command, opt. destruct (((host d =? 2130706433) || (host d =? 0))%N)%bool; reflexivity.
Qed.
Lemma count_app r a b : count r (a ++ b) = count r a + count r b.
Proof. apply count_occ_app. Qed.
Lemma count_cons r x l : count r (x :: l) = (if rule_dec x r then 1 else 0) + count r l.
Proof. unfold count. cbn [count_occ]. destruct (rule_dec x r); reflexivity. Qed.
Lemma count_remove1 r x : forall k, count r (remove1 x k) = count r k - (if rule_dec x r then 1 else 0).
Proof.
  induction k as [|y k IH]; [reflexivity|]. cbn [remove1]. destruct (rule_dec y x) as [->|N]; rewrite !count_cons; [destruct (rule_dec x r); lia|]. rewrite IH. destruct (rule_dec y r), (rule_dec x r); try lia. congruence.
Qed.
Lemma count_nil r : count r [] = 0. Proof. reflexivity. Qed.
Lemma count_A r : forall l k, count r (system A l k) = count r k + count r l.
Proof. induction l as [|x l IH]; intros k; [rewrite count_nil; cbn [system fold_left]; lia|]. change (system A (x :: l) k) with (system A l (k ++ [x])). rewrite IH, count_app, !count_cons, count_nil. lia. Qed.
Lemma count_D r : forall l k, count r (system D l k) = count r k - count r l.
Proof. induction l as [|x l IH]; intros k; [rewrite count_nil; cbn [system fold_left]; lia|]. change (system D (x :: l) k) with (system D l (remove1 x k)). rewrite IH, count_remove1, count_cons. lia. Qed.

(** How often del_* deletes *)
Definition times (l : list item) (i : item) : nat := match i with Forward _ _ _ => count_occ item_dec l i | _ => Nat.min 1 (count_occ item_dec l i) end.
Lemma count_del r i : forall l k, count r (del l i k) = count r k - times l i * count r (rules i).
Proof.
  induction l as [|x l IH]; intros k; cbn [del]; [destruct i; cbn; lia|]. unfold times in *. cbn [count_occ]. destruct (item_dec x i) as [E|E].
  - destruct i; try (rewrite count_D, commands_rules; cbn [Nat.min]; lia). rewrite IH, count_D, commands_rules. lia.
  - rewrite IH. reflexivity.
Qed.
Lemma due_cons r x l : due r (x :: l) = count r (rules x) + due r l. Proof. reflexivity. Qed.
Lemma due_app r a b : due r (a ++ b) = due r a + due r b.
Proof. unfold due. rewrite map_app, list_sum_app. reflexivity. Qed.
Definition dupfree (l : list item) : Prop := forall s d n, count_occ item_dec l (Forward s d n) <= 1.
Lemma zap_list_le r : forall l k, count r (zap_list l k) <= count r k - due r l.
Proof.
  induction l as [|x l IH]; intros k; cbn [zap_list]; [unfold due; cbn; lia|]. rewrite due_cons. specialize (IH (del (x :: l) x k)). rewrite count_del in IH. assert (T : 1 <= times (x :: l) x) by (unfold times; cbn [count_occ]; destruct (item_dec x x) as [_|N]; [|congruence]; destruct x; lia). nia.
Qed.
Lemma zap_list_eq r : forall l k, dupfree l -> count r (zap_list l k) = count r k - due r l.
Proof.
  induction l as [|x l IH]; intros k F; cbn [zap_list]; [unfold due; cbn; lia|]. rewrite due_cons, IH, count_del.
  - assert (T : times (x :: l) x = 1). { unfold times. cbn [count_occ]. destruct (item_dec x x) as [_|N]; [|congruence]. destruct x as [a|s d n|s t|t|a b t|p]; try reflexivity. specialize (F s d n). cbn [count_occ] in F. destruct (item_dec (Forward s d n) (Forward s d n)); [lia|congruence]. } rewrite T. lia.
  - intros s d n. specialize (F s d n). cbn [count_occ] in F. destruct (item_dec x (Forward s d n)); lia.
Qed.
Lemma due_kinds r : forall l, due r l = due r (of_kind 0 l) + due r (of_kind 1 l) + due r (of_kind 2 l) + due r (of_kind 3 l) + due r (of_kind 4 l) + due r (of_kind 5 l).
Proof. induction l as [|x l IH]; [reflexivity|]. rewrite due_cons. destruct x; cbn [of_kind filter kind Nat.eqb]; rewrite due_cons; unfold of_kind in IH; lia. Qed.
Lemma dupfree_kind k l : dupfree l -> dupfree (of_kind k l).
Proof.
  intros F s d n. specialize (F s d n). enough (count_occ item_dec (of_kind k l) (Forward s d n) <= count_occ item_dec l (Forward s d n)) by lia. clear F. induction l as [|x l IH]; [reflexivity|]. cbn [of_kind filter]. destruct (Nat.eqb (kind x) k); cbn [count_occ]; destruct (item_dec x (Forward s d n)); unfold of_kind in IH; lia.
Qed.
Lemma zap_le r s f : count r (kern (zap s f)) <= count r (kern s) - due r (items s f).
Proof.
  cbn [zap kern fold_left]. rewrite (due_kinds r (items s f)). set (l := items s f). set (k := kern s).
  pose proof (zap_list_le r (of_kind 0 l) k) as H0. set (k1 := zap_list (of_kind 0 l) k) in *. pose proof (zap_list_le r (of_kind 1 l) k1) as H1. set (k2 := zap_list (of_kind 1 l) k1) in *. pose proof (zap_list_le r (of_kind 2 l) k2) as H2. set (k3 := zap_list (of_kind 2 l) k2) in *. pose proof (zap_list_le r (of_kind 3 l) k3) as H3. set (k4 := zap_list (of_kind 3 l) k3) in *. pose proof (zap_list_le r (of_kind 4 l) k4) as H4. set (k5 := zap_list (of_kind 4 l) k4) in *. pose proof (zap_list_le r (of_kind 5 l) k5) as H5. lia.
Qed.
Lemma zap_eq r s f : dupfree (items s f) -> count r (kern (zap s f)) = count r (kern s) - due r (items s f).
Proof. intros F. cbn [zap kern fold_left]. rewrite !zap_list_eq by (apply dupfree_kind; exact F). rewrite (due_kinds r (items s f)). lia. Qed.

Lemma ls_cons x l : list_sum (x :: l) = x + list_sum l. Proof. reflexivity. Qed.
Lemma due_nil r : due r [] = 0. Proof. reflexivity. Qed.
Lemma total_upd w f l r : forall n, f < n -> total n (upd w f l) r + due r (w f) = total n w r + due r l.
Proof.
  unfold total. intros n L. assert (G : forall a m, f < a \/ a + m <= f -> map (fun g => due r (upd w f l g)) (seq a m) = map (fun g => due r (w g)) (seq a m)).
  { intros a m H. apply map_ext_in. intros g Ig. apply in_seq in Ig. unfold upd. destruct (Nat.eqb_spec g f); [lia|reflexivity]. }
  replace n with (f + S (n - f - 1)) by lia. rewrite seq_app. cbn [seq]. rewrite !map_app, !list_sum_app. cbn [map]. rewrite !ls_cons, !G by lia. replace (upd w f l (0 + f)) with l by (unfold upd; cbn [Nat.add]; rewrite Nat.eqb_refl; reflexivity). cbn [Nat.add]. lia.
Qed.
Lemma items_asked : forall l s w, (forall f, items s f = w f) -> forall f, items (run s l) f = fold_left asked1 l w f.
Proof.
  induction l as [|o l IH]; intros s w E f; cbn [run fold_left]; [apply E|]. apply IH. intros g. destruct o as [h i|h i|h]; cbn [step asked1 add zap items]; [|apply E|]; unfold upd; destruct (Nat.eqb g h); auto. rewrite E. reflexivity.
Qed.
Lemma items_run k0 l f : items (run (boot k0) l) f = asked l f.
Proof. apply items_asked. reflexivity. Qed.
Lemma asked_snoc l o : asked (l ++ [o]) = asked1 (asked l) o.
Proof. unfold asked. rewrite fold_left_app. reflexivity. Qed.
Lemma run_snoc s l o : run s (l ++ [o]) = step (run s l) o.
Proof. unfold run. rewrite fold_left_app. reflexivity. Qed.
Lemma due_in n w f r : f < n -> due r (w f) <= total n w r.
Proof. intros L. pose proof (total_upd w f [] r n L) as E. rewrite due_nil in E. lia. Qed.

Lemma le_run n k0 r : forall l, Forall (fun o => who o < n) l -> count r (kern (run (boot k0) l)) <= count r k0 + total n (asked l) r.
Proof.
  induction l as [|o l IH] using rev_ind; intros F; [cbn [run fold_left boot kern]; lia|]. apply Forall_app in F as (F & U). inversion U as [|? ? U' _]; subst. specialize (IH F). rewrite run_snoc, asked_snoc. set (s := run (boot k0) l) in *. destruct o as [f i|f i|f]; cbn [step who asked1] in *.
  - cbn [add kern]. rewrite count_A, commands_rules. pose proof (total_upd (asked l) f (asked l f ++ [i]) r n U') as T. rewrite due_app, due_cons, due_nil in T. lia.
  - cbn [kern]. rewrite count_del. lia.
  - pose proof (zap_le r s f) as Z. unfold s in Z at 3. rewrite items_run in Z. pose proof (total_upd (asked l) f [] r n U') as T. rewrite due_nil in T. lia.
Qed.
Lemma eq_run n k0 r : forall l, Forall (fun o => who o < n /\ forall f i, o <> Del f i) l -> (forall p q f, l = p ++ q -> dupfree (asked p f)) -> count r (kern (run (boot k0) l)) = count r k0 + total n (asked l) r.
Proof.
  induction l as [|o l IH] using rev_ind; intros F DF.
  - cbn [run fold_left boot kern]. assert (T : total n (asked []) r = 0); [|lia]. unfold total, asked. cbn [fold_left]. induction (seq 0 n) as [|x t IHt]; [reflexivity|exact IHt].
  - apply Forall_app in F as (F & U). inversion U as [|? ? (U' & ND) _]; subst. assert (DF' : forall p q f, l = p ++ q -> dupfree (asked p f)) by (intros p q f E; apply (DF p (q ++ [o])); rewrite E, app_assoc; reflexivity). specialize (IH F DF'). rewrite run_snoc, asked_snoc. set (s := run (boot k0) l) in *. destruct o as [f i|f i|f]; cbn [step who asked1] in *.
    + cbn [add kern]. rewrite count_A, commands_rules. pose proof (total_upd (asked l) f (asked l f ++ [i]) r n U') as T. rewrite due_app, due_cons in T. rewrite due_nil in T. lia.
    + elim (ND f i eq_refl).
    + rewrite zap_eq by (unfold s; rewrite items_run; apply (DF l [Zap f]); reflexivity). unfold s at 2. rewrite items_run. pose proof (total_upd (asked l) f [] r n U') as T. rewrite due_nil in T. pose proof (due_in n (asked l) f r U'). lia.
Qed.

(** Rules of others *)
Definition item_of (o : op) : list item := match o with Add _ i | Del _ i => [i] | Zap _ => [] end.
Section O.
Context (p : rule -> bool).
Definition foreign (i : item) : Prop := forall r, In r (rules i) -> p r = false.
Lemma filter_remove1 r k : p r = false -> filter p (remove1 r k) = filter p k.
Proof. intros E. induction k as [|x k IH]; [reflexivity|]. cbn [remove1]. destruct (rule_dec x r) as [->|N]; cbn [filter]; [rewrite E; reflexivity|]. rewrite IH. reflexivity. Qed.
Lemma filter_system c : forall l k, (forall r, In r l -> p r = false) -> filter p (system c l k) = filter p k.
Proof.
  induction l as [|x l IH]; intros k H; [reflexivity|]. change (system c (x :: l) k) with (system c l (iptables c x k)). rewrite IH by (intros r I; apply H; right; exact I). destruct c; cbn [iptables]; [|apply filter_remove1, H; left; reflexivity]. rewrite filter_app. cbn [filter]. rewrite (H x) by (left; reflexivity). apply app_nil_r.
Qed.
Lemma filter_del i : foreign i -> forall l k, filter p (del l i k) = filter p k.
Proof.
  intros H. induction l as [|x l IH]; intros k; [reflexivity|]. cbn [del]. destruct (item_dec x i); [|apply IH]. assert (S : forall c k, filter p (system c (commands i) k) = filter p k) by (intros; apply filter_system; rewrite commands_rules; exact H). destruct i; try apply S. rewrite IH. apply S.
Qed.
Lemma filter_zap : forall l k, Forall foreign l -> filter p (zap_list l k) = filter p k.
Proof. induction l as [|x l IH]; intros k F; [reflexivity|]. inversion F; subst. cbn [zap_list]. rewrite IH by assumption. apply filter_del. assumption. Qed.
Lemma foreign_run : forall l s, (forall f, Forall foreign (items s f)) -> (forall o i, In o l -> In i (item_of o) -> foreign i) -> filter p (kern (run s l)) = filter p (kern s).
Proof.
  induction l as [|o l IH]; intros s G H; [reflexivity|]. change (run s (o :: l)) with (run (step s o) l).
  assert (K : forall n f, Forall foreign (of_kind n (items s f))) by (intros n f; apply Forall_forall; intros x X; apply filter_In in X as (X & _); specialize (G f); rewrite Forall_forall in G; auto).
  rewrite IH; [| |intros o' i I; apply H; right; exact I]; destruct o as [f i|f i|f]; cbn [step].
  - cbn [add kern]. apply filter_system. rewrite commands_rules. apply (H (Add f i)); left; reflexivity.
  - cbn [kern]. apply filter_del. apply (H (Del f i)); left; reflexivity.
  - cbn [zap kern fold_left]. rewrite !filter_zap by apply K. reflexivity.
  - intros g. cbn [add items]. unfold upd. destruct (Nat.eqb g f); [|apply G]. apply Forall_app. split; [apply G|]. constructor; [|constructor]. apply (H (Add f i)); left; reflexivity.
  - apply G.
  - intros g. cbn [zap items]. unfold upd. destruct (Nat.eqb g f); [constructor|apply G].
Qed.
End O.
