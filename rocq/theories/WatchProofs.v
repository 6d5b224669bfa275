From Coq Require Import Permutation.
From Verif Require Import Base BaseFacts Ctype KeyModel KeySpec KeyProofs TempModel TempSpec TreeProofs WatchModel WatchSpec.
Local Open Scope nat_scope.

(** ** The watches at a key *)
Definition at_key (t : wtree) (k : key) : list watch := match lk t k with Some ws => ws | None => [] end.
Definition w_of (e : entry) : watch := {| cookie := e_cookie e; recurse := e_below e; what := e_what e |}.
Definition R (t : wtree) (r : list entry) : Prop :=
  WF t /\ Forall (fun e => Forall plain (e_key e)) r /\
  forall k, Forall plain k -> at_key t k = map w_of (filter (fun e => same (e_key e) k) r).
(** Every node but the root is there for a watch at or below it. *)
Inductive pruned : wtree -> Prop :=
| Pr k v ch : Forall (fun c => essential c = true) ch -> Forall pruned ch -> pruned (Node k v ch).

Lemma pruned_inv t : pruned t -> Forall (fun c => essential c = true) (tch t) /\ Forall pruned (tch t).
Proof. intros H. inversion H. cbn. auto. Qed.

Lemma isempty_seg s : plain s -> isempty (collapse [s]) = false.
Proof. apply isempty_plain. Qed.

Lemma at_cons t s r : at_key t (s :: r) = match child (tch t) s with Some c => at_key c r | None => [] end.
Proof. unfold at_key. cbn [lk]. destruct (child (tch t) s); reflexivity. Qed.

Lemma add_tkey : forall k t w, tkey (add_callback t k w) = tkey t.
Proof.
  induction k as [|s r IH]; intros t w; [reflexivity|]. cbn [add_callback]. destruct (isempty (collapse [s])); [apply IH|].
  destruct (child (tch t) s); reflexivity.
Qed.
Lemma add_essential : forall k t w, essential (add_callback t k w) = true.
Proof.
  induction k as [|s r IH]; intros t w; cbn [add_callback].
  - unfold essential. cbn. destruct (tch t); [|reflexivity]. destruct (tval t); reflexivity.
  - destruct (isempty (collapse [s])); [apply IH|]. destruct (child (tch t) s) as [c|] eqn:E.
    + unfold essential. cbn [tch]. destruct (child_split _ _ _ E) as (a & b & _ & _ & Wi & _). rewrite Wi. destruct a; reflexivity.
    + unfold essential. cbn [tch]. destruct (tch t); reflexivity.
Qed.
Lemma add_WF : forall k t w, WF t -> Forall plain k -> WF (add_callback t k w).
Proof.
  induction k as [|s r IH]; intros t w W P; cbn [add_callback].
  - destruct (WF_inv _ W) as (A & B & C). constructor; assumption.
  - pose proof (Forall_inv P) as Ps. pose proof (Forall_inv_tail P) as Pr. rewrite isempty_seg by exact Ps.
    destruct (child (tch t) s) as [c|] eqn:E.
    + destruct t as [tk tv tc]. cbn [tch tkey tval] in *. eapply WF_with_child; [exact W|exact E|apply add_tkey|].
      apply IH; [|exact Pr]. destruct (child_plain _ _ _ W E). assumption.
    + destruct (WF_inv _ W) as (A & B & C). constructor.
      * rewrite Forall_app. split; [exact A|]. constructor; [|constructor]. rewrite add_tkey. exact Ps.
      * rewrite map_app. cbn [map]. rewrite add_tkey. cbn [tkey]. apply NoDup_app_intro; [exact B|constructor; [intros []|constructor]|].
        intros x Hx [<-|[]]. revert Hx. apply low_ne_child; auto using plain_nulf.
      * rewrite Forall_app. split; [exact C|]. constructor; [|constructor]. apply IH; [|exact Pr]. constructor; constructor.
Qed.
Lemma add_at : forall k t w q, WF t -> Forall plain k -> Forall plain q ->
  at_key (add_callback t k w) q = at_key t q ++ if same k q then [w] else [].
Proof.
  induction k as [|s r IH]; intros t w q W P Q; cbn [add_callback].
  - destruct q as [|s' r']; [reflexivity|]. rewrite !at_cons. cbn [tch]. rewrite same_nil_cons, app_nil_r. reflexivity.
  - pose proof (Forall_inv P) as Ps. pose proof (Forall_inv_tail P) as Pr. rewrite isempty_seg by exact Ps.
    destruct q as [|s' r'].
    + assert (same (s :: r) [] = false) as -> by reflexivity. rewrite app_nil_r. destruct (child (tch t) s); reflexivity.
    + pose proof (Forall_inv Q) as Qs. pose proof (Forall_inv_tail Q) as Qr. rewrite same_cons.
      destruct (child (tch t) s) as [c|] eqn:E; rewrite !at_cons; cbn [tch].
      * rewrite (child_replace t s c _ s' W (plain_nulf _ Ps) (plain_nulf _ Qs) E (add_tkey _ _ _)). destruct (teq s s') eqn:T; cbn [andb].
        -- rewrite (child_same t s s' W Ps Qs T), E. apply IH; auto. destruct (child_plain _ _ _ W E). assumption.
        -- rewrite app_nil_r. reflexivity.
      * destruct (WF_inv _ W) as (A & B & C). rewrite (child_added (tch t) (add_callback (Node s [] []) r w) s') by (rewrite ?add_tkey; cbn [tkey]; auto using plain_nulf).
        rewrite add_tkey. cbn [tkey]. destruct (teq s s') eqn:T; cbn [andb].
        -- rewrite (child_same t s s' W Ps Qs T), E. rewrite IH by (auto; constructor; constructor). destruct r'; reflexivity.
        -- rewrite app_nil_r. reflexivity.
Qed.
Lemma add_pruned : forall k t w, pruned t -> Forall plain k -> pruned (add_callback t k w).
Proof.
  induction k as [|s r IH]; intros t w W P; cbn [add_callback].
  - destruct (pruned_inv _ W). constructor; assumption.
  - pose proof (Forall_inv P) as Ps. pose proof (Forall_inv_tail P) as Pr. rewrite isempty_seg by exact Ps.
    destruct (pruned_inv _ W) as [A B]. destruct (child (tch t) s) as [c|] eqn:E.
    + destruct (child_split _ _ _ E) as (a & b & Et & _ & Wi & _). rewrite Wi, Et in *. rewrite Forall_app in A, B. destruct A as [A1 A2], B as [B1 B2].
      constructor; rewrite Forall_app; split; auto; constructor; auto using add_essential; try (exact (Forall_inv_tail A2)); try (exact (Forall_inv_tail B2)).
      apply IH; [exact (Forall_inv B2)|exact Pr].
    + constructor; rewrite Forall_app; split; auto; constructor; auto using add_essential. apply IH; [constructor; constructor|exact Pr].
Qed.
(** a trailing slash does not matter *)
Lemma add_named : forall k t w, canonical k -> add_callback t k w = add_callback t (named k) w.
Proof.
  assert (H : forall k t w, Forall plain k -> add_callback t (k ++ [[]]) w = add_callback t k w).
  { induction k as [|s r IH]; intros t w P; cbn [add_callback app]; [reflexivity|].
    pose proof (Forall_inv P) as Ps. pose proof (Forall_inv_tail P) as Pr. rewrite isempty_seg by exact Ps.
    destruct (child (tch t) s) as [c|]; rewrite IH by exact Pr; reflexivity. }
  intros k t w [P|(k' & _ & P & ->)].
  - destruct (plain_slashed k P) as [_ ->]. reflexivity.
  - destruct (trailing_slashed k' P) as [_ ->]. apply H, P.
Qed.
Lemma del_named : forall k t c b, canonical k -> del_node t k c b = del_node t (named k) c b.
Proof.
  assert (H : forall k t c b, Forall plain k -> del_node t (k ++ [[]]) c b = del_node t k c b).
  { induction k as [|s r IH]; intros t c b P; cbn [del_node app]; [reflexivity|].
    pose proof (Forall_inv P) as Ps. pose proof (Forall_inv_tail P) as Pr. rewrite isempty_seg by exact Ps.
    destruct (child (tch t) s) as [n|]; [rewrite IH by exact Pr|]; reflexivity. }
  intros k t c b [P|(k' & _ & P & ->)].
  - destruct (plain_slashed k P) as [_ ->]. reflexivity.
  - destruct (trailing_slashed k' P) as [_ ->]. apply H, P.
Qed.

Lemma del_tkey : forall k t c b t', del_node t k c b = Some t' -> tkey t' = tkey t.
Proof.
  induction k as [|s r IH]; intros t c b t' H; cbn [del_node] in H; [injection H as <-; reflexivity|].
  destruct (isempty (collapse [s])); [eapply IH, H|]. destruct (child (tch t) s); [|discriminate]. destruct (del_node t0 r c b); [|discriminate].
  injection H as <-. reflexivity.
Qed.
Lemma at_inessential t k : essential t = false -> at_key t k = [].
Proof.
  unfold essential. intros E. destruct (tch t) eqn:Ec; [|discriminate]. destruct (tval t) eqn:Ev; [|discriminate].
  destruct k; [unfold at_key; cbn [lk]; exact Ev|]. rewrite at_cons, Ec. reflexivity.
Qed.
Lemma del_ok : forall k t c b t', WF t -> Forall plain k -> del_node t k c b = Some t' ->
  WF t' /\ (pruned t -> pruned t') /\
  forall q, Forall plain q -> at_key t' q = if same k q then unlink (at_key t q) c b else at_key t q.
Proof.
  induction k as [|s r IH]; intros t c b t' W P H; cbn [del_node] in H.
  - injection H as <-. destruct (WF_inv _ W) as (A & B & C). split; [constructor; assumption|]. split.
    + intros Hp. destruct (pruned_inv _ Hp). constructor; assumption.
    + intros [|s' r'] Q; [reflexivity|]. rewrite !at_cons. reflexivity.
  - pose proof (Forall_inv P) as Ps. pose proof (Forall_inv_tail P) as Pr. rewrite isempty_seg in H by exact Ps.
    destruct (child (tch t) s) as [n|] eqn:E; [|discriminate]. destruct (del_node n r c b) as [n'|] eqn:D; [|discriminate]. injection H as <-.
    destruct (child_plain _ _ _ W E) as [Pn Wn]. destruct (IH n c b n' Wn Pr D) as (Wn' & Pn' & An'). pose proof (del_tkey _ _ _ _ _ D) as Tk.
    destruct t as [tk tv tc]. cbn [tch tkey tval] in *. destruct (essential n') eqn:Es.
    + split; [eapply WF_with_child; eauto|]. split.
      * intros Hp. destruct (pruned_inv _ Hp) as [A B]. cbn [tch] in *. destruct (child_split _ _ _ E) as (a & b' & Et & _ & Wi & _). rewrite Wi, Et in *. rewrite Forall_app in A, B. destruct A as [A1 A2], B as [B1 B2].
        constructor; rewrite Forall_app; split; auto; constructor; auto; try (exact (Forall_inv_tail A2)); try (exact (Forall_inv_tail B2)).
        apply Pn'. exact (Forall_inv B2).
      * intros [|s' r'] Q; [reflexivity|]. pose proof (Forall_inv Q) as Qs. pose proof (Forall_inv_tail Q) as Qr. rewrite !at_cons, same_cons. cbn [tch].
        pose proof (child_replace (Node tk tv tc) s n n' s' W (plain_nulf _ Ps) (plain_nulf _ Qs) E Tk) as Cr. cbn [tch] in Cr. rewrite Cr. destruct (teq s s') eqn:T; cbn [andb]; [|reflexivity].
        pose proof (child_same (Node tk tv tc) s s' W Ps Qs T) as Cs. cbn [tch] in Cs. rewrite Cs, E. apply An', Qr.
    + split; [eapply WF_without; eauto|]. split.
      * intros Hp. destruct (pruned_inv _ Hp) as [A B]. cbn [tch] in *. destruct (child_split _ _ _ E) as (a & b' & Et & _ & Wi & _). rewrite Wi, Et in *. rewrite Forall_app in A, B. destruct A as [A1 A2], B as [B1 B2].
        constructor; rewrite Forall_app; split; auto; try (exact (Forall_inv_tail A2)); try (exact (Forall_inv_tail B2)).
      * intros [|s' r'] Q; [reflexivity|]. pose proof (Forall_inv Q) as Qs. pose proof (Forall_inv_tail Q) as Qr. rewrite !at_cons, same_cons. cbn [tch].
        pose proof (child_remove (Node tk tv tc) s n s' W (plain_nulf _ Ps) (plain_nulf _ Qs) E) as Cr. cbn [tch] in Cr. rewrite Cr. destruct (teq s s') eqn:T; cbn [andb]; [|reflexivity].
        pose proof (child_same (Node tk tv tc) s s' W Ps Qs T) as Cs. cbn [tch] in Cs. rewrite Cs, E. rewrite <- (An' r' Qr). symmetry. apply at_inessential, Es.
Qed.
Lemma del_none : forall k t c b q, Forall plain k -> Forall plain q -> WF t -> del_node t k c b = None -> same k q = true -> at_key t q = [].
Proof.
  induction k as [|s r IH]; intros t c b q P Q W H Hs; cbn [del_node] in H; [discriminate|].
  pose proof (Forall_inv P) as Ps. pose proof (Forall_inv_tail P) as Pr. rewrite isempty_seg in H by exact Ps.
  destruct q as [|s' r']; [discriminate|]. rewrite same_cons in Hs. apply andb_true_iff in Hs. destruct Hs as [T Hs].
  pose proof (Forall_inv Q) as Qs. pose proof (Forall_inv_tail Q) as Qr. rewrite at_cons, (child_same t s s' W Ps Qs T).
  destruct (child (tch t) s) as [n|] eqn:E; [|reflexivity]. destruct (del_node n r c b) eqn:D; [discriminate|].
  eapply IH; eauto. destruct (child_plain _ _ _ W E). assumption.
Qed.

Lemma same_trans k a b : same a b = true -> same k a = same k b.
Proof.
  intros H. apply same_lows in H. destruct (same k b) eqn:E.
  - apply same_lows in E. apply same_lows. congruence.
  - destruct (same k a) eqn:F; [|reflexivity]. apply same_lows in F. assert (same k b = true) by (apply same_lows; congruence). congruence.
Qed.
Lemma same_sym a b : same a b = same b a.
Proof. unfold same. apply andb_comm. Qed.

Lemma drop_filter (k q : key) c b : forall r,
  map w_of (filter (fun e => same (e_key e) q) (drop_first (fun e => same (e_key e) k && Bool.eqb (e_below e) b && (e_cookie e =? c)) r)) =
  if same k q then unlink (map w_of (filter (fun e => same (e_key e) q) r)) c b else map w_of (filter (fun e => same (e_key e) q) r).
Proof.
  induction r as [|e r IH]; cbn [drop_first filter map unlink]; [destruct (same k q); reflexivity|].
  destruct (same (e_key e) k) eqn:E1; cbn [andb].
  - assert (E2 : same (e_key e) q = same k q).
    { destruct (same k q) eqn:Kq; [rewrite <- (same_trans _ _ _ Kq); exact E1|]. destruct (same (e_key e) q) eqn:F; [|reflexivity].
      rewrite same_sym in E1. rewrite <- (same_trans k _ _ F) in Kq. congruence. }
    destruct (Bool.eqb (e_below e) b && (e_cookie e =? c)) eqn:E3; cbn [filter]; rewrite E2.
    + destruct (same k q); [|reflexivity]. cbn [map unlink w_of cookie recurse]. rewrite andb_comm, E3. reflexivity.
    + destruct (same k q); [|exact IH]. cbn [map unlink w_of cookie recurse]. rewrite andb_comm, E3. f_equal. exact IH.
  - cbn [filter]. destruct (same (e_key e) q) eqn:E4; [|exact IH]. destruct (same k q) eqn:Kq; [rewrite (same_trans _ _ _ Kq) in E1; congruence|].
    cbn [map]. f_equal. exact IH.
Qed.
Lemma drop_Forall P p : forall r : list entry, Forall P r -> Forall P (drop_first p r).
Proof. induction 1 as [|e r H HF IH]; cbn; [constructor|]. destruct (p e); [exact HF|constructor; assumption]. Qed.

Definition req (o : wop) : request :=
  match o with Add k w => Watch k (recurse w) (cookie w) (what w) | Del k c b => Unwatch k b c end.
Definition op_key (o : wop) : key := match o with Add k _ => k | Del k _ _ => k end.

Lemma wstep_ok t r o : R t r -> pruned t -> canonical (op_key o) -> R (wstep t o) (request_spec r (req o)) /\ pruned (wstep t o).
Proof.
  intros (W & P & A) Pr C. destruct o as [k w|k c b]; cbn [wstep req request_spec op_key] in *; pose proof (canonical_named k C) as Pk.
  - rewrite add_named by exact C. split; [|apply add_pruned; assumption]. split; [apply add_WF; assumption|]. split.
    + rewrite Forall_app. auto.
    + intros q Q. rewrite add_at by assumption. rewrite A by exact Q. rewrite filter_app, map_app. cbn [filter e_key]. f_equal.
      destruct (same (named k) q); [|reflexivity]. destruct w; reflexivity.
  - unfold del_callback. rewrite del_named by exact C. destruct (del_node t (named k) c b) as [t'|] eqn:D.
    + destruct (del_ok _ _ _ _ _ W Pk D) as (W' & Pr' & A'). split; [|apply Pr', Pr]. split; [exact W'|]. split; [apply drop_Forall, P|].
      intros q Q. rewrite A' by exact Q. rewrite drop_filter, <- A by exact Q. reflexivity.
    + split; [|exact Pr]. split; [exact W|]. split; [apply drop_Forall, P|].
      intros q Q. rewrite drop_filter, <- A by exact Q. destruct (same (named k) q) eqn:E; [|reflexivity].
      rewrite (del_none _ _ _ _ _ Pk Q W D E). reflexivity.
Qed.
Lemma shuffle_pruned (t t' : wtree) : shuffle t t' -> pruned t -> pruned t' /\ essential t' = essential t.
Proof.
  induction 1 as [k v c c' Hp|k v a x y b Hs IH]; intros Hpr; destruct (pruned_inv _ Hpr) as [A B]; cbn [tch] in *.
  - split.
    + constructor; rewrite Forall_forall in *; intros d Hd; [apply A|apply B]; (eapply Permutation_in; [symmetry; exact Hp|exact Hd]).
    + unfold essential. cbn. destruct c; [apply Permutation_nil in Hp; subst; reflexivity|]. destruct c'; [symmetry in Hp; apply Permutation_nil in Hp; discriminate|]. reflexivity.
  - rewrite Forall_app in A, B. destruct A as [A1 A2], B as [B1 B2]. destruct (IH (Forall_inv B2)) as [Hy Ey]. split.
    + constructor; rewrite Forall_app; split; auto; constructor; try (exact (Forall_inv_tail A2)); try (exact (Forall_inv_tail B2)); auto.
      rewrite Ey. exact (Forall_inv A2).
    + unfold essential. cbn. destruct a; reflexivity.
Qed.
Lemma whistory_ok t os t' : whistory t os t' -> forall r, R t r -> pruned t -> Forall (fun o => canonical (op_key o)) os ->
  R t' (fold_left request_spec (map req os) r) /\ pruned t'.
Proof.
  induction 1 as [t|t o os t' H IH|t t1 os t' Hs H IH]; intros r HR Hp C; cbn [map fold_left].
  - auto.
  - destruct (wstep_ok t r o HR Hp (Forall_inv C)). apply IH; auto. exact (Forall_inv_tail C).
  - destruct HR as (W & P & A). destruct (shuffle_ok _ _ Hs W) as (W1 & _ & _ & L). destruct (shuffle_pruned _ _ Hs Hp). apply IH; auto.
    split; [exact W1|]. split; [exact P|]. intros k K. unfold at_key. rewrite L by exact K. apply A, K.
Qed.
Lemma reach os t : whistory wempty os t -> Forall (fun o => canonical (op_key o)) os -> R t (watches (map req os)) /\ pruned t.
Proof.
  intros H C. apply (whistory_ok _ _ _ H); auto.
  - split; [constructor; constructor|]. split; [constructor|]. intros [|s k] _; reflexivity.
  - constructor; constructor.
Qed.

(** ** Who is told *)
Lemma removelast_plain k n : Forall plain k -> n <= length k -> removelast k (Z.of_nat n) = firstn (length k - n) k.
Proof.
  intros P H. unfold removelast, range.
  replace (Z.of_nat (length k) <? Z.of_nat (length k) - Z.of_nat n)%Z with false by (symmetry; apply Z.ltb_ge; lia).
  change (0 <? 0)%Z with false. cbv iota.
  replace (Z.of_nat (length k) - Z.of_nat n <? 0)%Z with false by (symmetry; apply Z.ltb_ge; lia).
  change (Z.to_nat 0) with 0. cbn [skipn]. rewrite plain_collapse by (apply Forall_firstn, P). f_equal. lia.
Qed.
Lemma klast_plain k n : Forall plain k -> short k -> n <= length k -> klast k (Z.of_nat n) = skipn (length k - n) k.
Proof.
  intros P S H. unfold klast, range. unfold short, int_max in *.
  replace (if (Z.of_nat (length k) <? 2 ^ 31 - 1)%Z then Z.of_nat (length k) else (2 ^ 31 - 1)%Z) with (Z.of_nat (length k)).
  2:{ destruct (Z.of_nat (length k) <? 2 ^ 31 - 1)%Z eqn:E; [reflexivity|]. apply Z.ltb_ge in E. lia. }
  replace (Z.of_nat (length k) - Z.of_nat n <? 0)%Z with false by (symmetry; apply Z.ltb_ge; lia).
  replace (Z.of_nat (length k) <? Z.of_nat (length k) - Z.of_nat n)%Z with false by (symmetry; apply Z.ltb_ge; lia).
  replace (Z.to_nat (Z.of_nat (length k) - Z.of_nat n)) with (length k - n) by lia.
  rewrite firstn_all2; [|rewrite skipn_length; lia]. apply plain_collapse, Forall_skipn, P.
Qed.
Lemma check_ok t r k n : Forall plain k -> short k -> n <= length k ->
  tval t = map w_of (filter (fun e => same (e_key e) (firstn n k)) r) -> check t k (length k - n) = told_at r k n.
Proof.
  intros P S H E. unfold check, told_at. rewrite E. rewrite removelast_plain, klast_plain by (assumption || lia).
  replace (length k - (length k - n)) with n by lia.
  assert (Bn : (0 <? length k - n) = negb (n =? length k)).
  { destruct (n =? length k) eqn:En; [apply Nat.eqb_eq in En; apply Nat.ltb_ge; lia|apply Nat.eqb_neq in En; apply Nat.ltb_lt; lia]. }
  rewrite Bn. clear E Bn. induction r as [|e r IH]; [reflexivity|]. cbn [filter]. destruct (same (e_key e) (firstn n k)) eqn:Es; cbn [andb]; cbv beta iota; [|exact IH].
  cbn [map flat_map w_of recurse what]. destruct (e_below e) eqn:Eb, (n =? length k) eqn:En; cbn [negb andb orb map app]; try (f_equal; exact IH); exact IH.
Qed.
Lemma told_none r k n : (forall e, In e r -> same (e_key e) (firstn n k) = false) -> told_at r k n = [].
Proof.
  intros H. unfold told_at. replace (filter _ r) with (@nil entry); [reflexivity|]. symmetry.
  induction r as [|e r IH]; [reflexivity|]. cbn [filter]. rewrite (H e) by (left; reflexivity). apply IH. intros e' He'. apply H. right. exact He'.
Qed.
Lemma at_nil_none (t : wtree) r k : R t r -> Forall plain k -> at_key t k = [] -> forall e, In e r -> same (e_key e) k = false.
Proof.
  intros (W & P & A) Pk E e He. destruct (same (e_key e) k) eqn:Es; [|reflexivity]. rewrite A in E by exact Pk. apply map_eq_nil in E.
  assert (In e (filter (fun e => same (e_key e) k) r)) by (apply filter_In; auto). rewrite E in H. destruct H.
Qed.

Lemma find_at : forall p (t n : wtree) q, find t p = Some n -> Forall plain p -> at_key t (p ++ q) = at_key n q.
Proof.
  induction p as [|s p IH]; intros t n q H P; cbn [find app] in *; [congruence|].
  unfold findchild in H. rewrite isempty_seg in H by (exact (Forall_inv P)). rewrite at_cons. destruct (child (tch t) s); [|discriminate].
  eapply IH; [exact H|exact (Forall_inv_tail P)].
Qed.
Lemma find_app (t : wtree) : forall p q, find t (p ++ q) = match find t p with Some n => find n q | None => None end.
Proof. intros p. revert t. induction p as [|s p IH]; intros t q; cbn [find app]; [reflexivity|]. destruct (findchild t s); [apply IH|reflexivity]. Qed.
Lemma find_none_at : forall p (t : wtree) q, find t p = None -> Forall plain p -> at_key t (p ++ q) = [].
Proof.
  induction p as [|s p IH]; intros t q H P; cbn [find app] in *; [discriminate|].
  unfold findchild in H. rewrite isempty_seg in H by (exact (Forall_inv P)). rewrite at_cons. destruct (child (tch t) s); [|reflexivity].
  eapply IH; [exact H|exact (Forall_inv_tail P)].
Qed.
Definition down (v : option bytes) (o : option wtree) (k : key) : list event :=
  match v, o with None, Some n => deletioncheck n k | _, _ => [] end.
Lemma walk_ok t0 r v k : R t0 r -> Forall plain k -> short k -> forall rest p t, k = p ++ rest -> find t0 p = Some t ->
  walk t k rest v = flat_map (told_at r k) (seq (S (length p)) (length rest)) ++ down v (find t0 k) k.
Proof.
  intros HR P Sh. induction rest as [|s rest IH]; intros p t E F.
  - cbn [walk length seq flat_map app]. rewrite app_nil_r in E. subst p. rewrite F. destruct v; reflexivity.
  - cbn [walk length seq flat_map]. assert (E1 : k = (p ++ [s]) ++ rest) by (rewrite <- app_assoc; exact E).
    assert (Lk : length k = length p + length (s :: rest)) by (rewrite E, app_length; reflexivity). cbn [length] in Lk.
    assert (F1 : firstn (S (length p)) k = p ++ [s]).
    { rewrite E1. rewrite firstn_app. rewrite firstn_all2 by (rewrite app_length; cbn; lia). rewrite app_length. cbn [length].
      replace (S (length p) - (length p + 1)) with 0 by lia. rewrite firstn_O, app_nil_r. reflexivity. }
    assert (Pp : Forall plain (p ++ [s])) by (rewrite <- F1; apply Forall_firstn, P).
    assert (Fp : find t0 (p ++ [s]) = findchild t s) by (rewrite find_app, F; cbn [find]; destruct (findchild t s); reflexivity).
    destruct (findchild t s) as [c|] eqn:Fc.
    + rewrite <- app_assoc. f_equal.
      * replace (length rest) with (length k - S (length p)) by lia. apply check_ok; [assumption..|lia|].
        rewrite F1. destruct HR as (_ & _ & A). rewrite <- A by exact Pp. pose proof (find_at (p ++ [s]) t0 c [] Fp Pp) as H. rewrite app_nil_r in H. rewrite H. reflexivity.
      * rewrite (IH (p ++ [s]) c E1 Fp). rewrite app_length. cbn [length]. replace (S (length p + 1)) with (S (S (length p))) by lia. reflexivity.
    + assert (D : find t0 k = None) by (rewrite E1, find_app, Fp; reflexivity). rewrite D.
      assert (Z : forall q, Forall plain (p ++ [s] ++ q) -> at_key t0 (p ++ [s] ++ q) = []) by (intros q _; rewrite app_assoc; apply find_none_at; assumption).
      assert (N : forall n, length p < n -> told_at r k n = []).
      { intros n Hn. apply told_none. intros e He. eapply at_nil_none; [exact HR|apply Forall_firstn, P| |exact He].
        replace (firstn n k) with (p ++ [s] ++ firstn (n - length (p ++ [s])) rest).
        - apply Z. rewrite app_assoc. apply Forall_app. split; [exact Pp|]. apply Forall_firstn. rewrite E1 in P. apply Forall_app in P. apply P.
        - rewrite E1 at 1. rewrite (firstn_app n (p ++ [s]) rest). rewrite (firstn_all2 (p ++ [s])) by (rewrite app_length; cbn; lia). rewrite <- app_assoc. reflexivity. }
      assert (N2 : forall m a, length p < a -> flat_map (told_at r k) (seq a m) = []).
      { induction m as [|m IHm]; intros a Ha; [reflexivity|]. cbn [seq flat_map]. rewrite N by exact Ha. apply IHm. lia. }
      rewrite N by lia. rewrite N2 by lia. destruct v; reflexivity.
Qed.
Lemma gen_callback_ok t r k v : R t r -> Forall plain k -> short k ->
  gen_callback t k v = told_above r k ++ down v (find t k) k.
Proof.
  intros HR P Sh. unfold gen_callback, told_above. cbn [seq flat_map]. rewrite (walk_ok t r v k HR P Sh k [] t) by reflexivity.
  rewrite app_assoc. f_equal. f_equal.
  pose proof (check_ok t r k 0 P Sh) as H. rewrite Nat.sub_0_r in H. apply H; [lia|].
  destruct HR as (_ & _ & A). cbn [firstn]. rewrite <- A by constructor. reflexivity.
Qed.
