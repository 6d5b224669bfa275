From Verif Require Import Base BaseFacts DeltaModel DeltaSpec.
Local Open Scope Z_scope.

Section Delta.
Variable A : Type.
Notation machine := (machine A).
Notation event := (event A).

Lemma fifo_app w a w1 b w2 : fifo w a w1 -> @fifo A w1 b w2 -> fifo w (a ++ b) w2.
Proof. induction 1; intros H2; cbn [app]; [exact H2| | | |]; constructor; auto. Qed.
Lemma fifo_det w t w1 : @fifo A w t w1 -> forall w2, fifo w t w2 -> w1 = w2.
Proof.
  induction 1 as [w|w p t w' H IH|p w t w' H IH|w t w' H IH|w e t w' Hi H IH]; intros w2 H2; inversion H2; subst; auto.
  all: try (cbn in *; intuition discriminate).
Qed.

Definition Inv (m : machine) : Prop := nest m <= 0 -> deltas m = [].

Lemma loop_fifo (m m' : machine) fr e : Inv m -> flush_loop A m fr = (m', e) -> Inv m' /\ fifo (deltas m) e (deltas m').
Proof.
  unfold flush_loop, Inv. destruct (deltas m) as [|p q] eqn:E; intros H F; injection F as <- <-; cbn [nest deltas].
  - split; [reflexivity|constructor].
  - split; [intros N; discriminate (H N)|]. repeat constructor.
Qed.
Lemma unhold_fifo (m m' : machine) e : (nest m > 1 -> nest m <= 1 -> False) -> (nest m <= 0 -> deltas m = []) -> unhold A m = Ok (m', e) -> Inv m' /\ fifo (deltas m) e (deltas m').
Proof.
  unfold unhold. intros _ HI H. destruct (Z.gtb_spec (nest m) 0) as [Hp|Hp]; [|discriminate]. destruct (Z.eqb_spec (nest m) 1) as [E|E].
  - injection H as H. eapply loop_fifo; [exact HI|exact H].
  - injection H as <- <-. cbn [deltas]. split; [unfold Inv; cbn; lia|constructor].
Qed.
Lemma act_fifo (m m' : machine) a e : Inv m -> act A m a = Ok (m', e) -> Inv m' /\ fifo (deltas m) e (deltas m').
Proof.
  intros HI H. destruct a as [| |p| | |]; cbn [act] in H.
  - injection H as <- <-. split; [unfold Inv, hold in *; cbn; intros; apply HI; lia|]. apply F_other; [cbn; auto|constructor].
  - destruct (unhold A m) as [[m1 e1]| |] eqn:E; try discriminate. cbn [bind] in H. injection H as <- <-.
    destruct (unhold_fifo m m1 e1 ltac:(lia) HI E) as [I1 F1]. split; [exact I1|]. apply F_other; [cbn; auto|exact F1].
  - unfold delta in H. destruct (Z.eqb_spec (nest m) 0) as [E|E].
    + cbn [bind] in H. injection H as <- <-. unfold Inv in *. cbn [nest deltas]. split; [exact HI|]. rewrite HI by lia. constructor. cbn. repeat constructor.
    + match type of H with context [unhold A ?x] => destruct (unhold A x) as [[m1 e1]| |] eqn:U; try discriminate H end.
      cbn [bind] in H. injection H as <- <-. unfold unhold, hold in U. cbn [nest deltas stack] in U.
      destruct (Z.gtb_spec (nest m + 1) 0) as [Hp|Hp]; [|discriminate]. destruct (Z.eqb_spec (nest m + 1) 1) as [E1|E1]; [lia|].
      injection U as <- <-. cbn [deltas nest]. split; [unfold Inv; cbn; lia|]. repeat constructor.
  - injection H as <- <-. split; [unfold Inv; reflexivity|]. constructor. constructor.
  - destruct (flush_loop A m InFlush) as [m1 e1] eqn:E. injection H as <- <-. destruct (loop_fifo m m1 InFlush e1 HI E) as [I1 F1].
    split; [exact I1|]. apply F_other; [cbn; auto 10|exact F1].
  - injection H as H. unfold return_ in H. destruct (stack m) as [|fr r] eqn:Es.
    + injection H as <- <-. split; [exact HI|constructor].
    + assert (G : forall x : machine * list event, (let (m', e0) := flush_loop A {| nest := nest m; deltas := deltas m; stack := r |} fr in (m', EReturn :: e0)) = (m', e) -> Inv m' /\ fifo (deltas m) e (deltas m')).
      { intros _ G. destruct (flush_loop A _ fr) as [m1 e1] eqn:E. injection G as <- <-. 
        destruct (loop_fifo {| nest := nest m; deltas := deltas m; stack := r |} m1 fr e1 HI E) as [I1 F1]. split; [exact I1|]. apply F_other; [cbn; auto 10|exact F1]. }
      destruct fr; [apply G; [exact (m, [])|exact H]|apply G; [exact (m, [])|exact H]|].
      injection H as <- <-. split; [exact HI|]. apply F_other; [cbn; auto 10|constructor].
Qed.
Lemma run_fifo l : forall (m m' : machine) e, Inv m -> run A m l = Ok (m', e) -> Inv m' /\ fifo (deltas m) e (deltas m').
Proof.
  induction l as [|a l IH]; intros m m' e HI H; cbn [run] in H.
  - injection H as <- <-. split; [exact HI|constructor].
  - destruct (act A m a) as [[m1 e1]| |] eqn:E; try discriminate. cbn [bind] in H. destruct (run A m1 l) as [[m2 e2]| |] eqn:R; try discriminate.
    cbn [bind] in H. injection H as <- <-. destruct (act_fifo m m1 a e1 HI E) as [I1 F1]. destruct (IH m1 m2 e2 I1 R) as [I2 F2]. split; [exact I2|].
    eapply fifo_app; eauto.
Qed.
Lemma fifo_count w t w' : @fifo A w t w' -> ~ In EClear t -> w ++ raised t = dispatched t ++ w'.
Proof.
  induction 1 as [w|w p t w' H IH|p w t w' H IH|w t w' H IH|w e t w' Hi H IH]; intros N; cbn [raised dispatched].
  - rewrite app_nil_r. reflexivity.
  - rewrite <- IH by (intros X; apply N; right; exact X). rewrite <- app_assoc. reflexivity.
  - cbn [app]. rewrite IH by (intros X; apply N; right; exact X). reflexivity.
  - elim N. left. reflexivity.
  - assert (E : w ++ raised t = dispatched t ++ w') by (apply IH; intros X; apply N; right; exact X). cbn in Hi. decompose [or] Hi; subst; try exact E; contradiction.
Qed.

(** ** Polite code *)
Definition flushing (m : machine) : Z := match stack m with InUnhold :: _ => 1 | _ => 0 end.
Definition shape (m : machine) : Prop :=
  exists k, stack m = repeat InDelta k \/ stack m = InUnhold :: repeat InDelta k.
Definition Rel (m : machine) (o : list nat) : Prop :=
  shape m /\ exists h, o = h :: repeat 0%nat (length (stack m)) /\ nest m = Z.of_nat h + flushing m.
Fixpoint sum (o : list nat) : Z := match o with [] => 0 | h :: o => Z.of_nat h + sum o end.
Lemma sum_zero k : sum (repeat 0%nat k) = 0.
Proof. induction k; cbn; lia. Qed.

Lemma polite_app o a b o' : polite o (a ++ b) o' -> exists o1, @polite A o a o1 /\ polite o1 b o'.
Proof.
  revert o. induction a as [|e a IH]; intros o H; cbn [app] in H.
  - exists o. split; [constructor|exact H].
  - inversion H; subst; match goal with X : polite _ (a ++ b) _ |- _ => destruct (IH _ X) as (o1 & H1 & H2) end; exists o1; split; auto; constructor; assumption.
Qed.
Lemma polite_sum o t o' : @polite A o t o' -> sum o' = sum o + holds t.
Proof. induction 1; cbn [sum holds] in *; lia. Qed.

Lemma repeat_tail k (r : list frame) : InDelta :: r = repeat InDelta k -> exists k', k = S k' /\ r = repeat InDelta k'.
Proof. destruct k; [discriminate|]. cbn. intros E. injection E as ->. eauto. Qed.

Lemma act_polite (m m' : machine) a e o o' : Rel m o -> act A m a = Ok (m', e) -> polite o e o' ->
  Rel m' o' /\ forall x p y, e = x ++ Dispatched p :: y -> sum o + holds x = 0.
Proof.
  intros ((k & Sh) & h & -> & N) H P. unfold flushing in N. destruct a as [| |p| | |]; cbn [act] in H.
  - injection H as <- <-. inversion P as [|? ? ? ? P1| | | | |]; subst. inversion P1; subst. split.
    + split; [exists k; exact Sh|]. exists (S h). split; [reflexivity|]. unfold flushing. cbn [nest stack hold]. lia.
    + intros [|? [|? x]] q y E; discriminate.
  - unfold unhold in H. destruct (Z.gtb_spec (nest m) 0) as [Hp|Hp]; [|discriminate]. destruct (Z.eqb_spec (nest m) 1) as [E1|E1].
    + unfold flush_loop in H. destruct (deltas m) as [|p q] eqn:Ed; cbn [bind] in H; injection H as <- <-.
      * inversion P as [| |h0 ? ? ? P1| | | |]; subst. inversion P1; subst. destruct (stack m) as [|fr r] eqn:Es.
        -- split; [split; [exists 0%nat; left; reflexivity|]; exists h0; split; [reflexivity|]; unfold flushing; cbn [nest stack]; lia|].
           intros [|? [|? x]] q y E; discriminate.
        -- destruct Sh as [Sh|Sh]; [|injection Sh as -> ->; lia]. destruct fr; [destruct k; discriminate|destruct k; discriminate|].
           split; [split; [exists k; left; exact Sh|]; exists h0; split; [reflexivity|]; unfold flushing; cbn [nest stack]; lia|].
           intros [|? [|? x]] q y E; discriminate.
      * inversion P as [| |h0 ? ? ? P1| | | |]; subst. inversion P1 as [| | | |? ? ? ? P2| |]; subst. inversion P2; subst.
        assert (h0 = 0%nat /\ exists k, stack m = repeat InDelta k) as (-> & k' & Es).
        { destruct Sh as [Sh|Sh]; rewrite Sh in N; [|lia]. split; [|exists k; exact Sh]. destruct k; cbn in N; lia. }
        split.
        -- split; [exists k'; right; cbn [stack]; rewrite Es; reflexivity|]. exists 0%nat. split; [reflexivity|]. unfold flushing. cbn [nest stack]. lia.
        -- intros [|? [|? x]] q' y E; try discriminate.
           ++ injection E as <- <- <-. cbn [holds]. cbn [sum]. rewrite sum_zero. lia.
           ++ injection E as _ _ E. destruct x; discriminate.
    + cbn [bind] in H. injection H as <- <-. inversion P as [| |h0 ? ? ? P1| | | |]; subst. inversion P1; subst. split.
      * split; [exists k; exact Sh|]. exists h0. split; [reflexivity|]. unfold flushing. cbn [nest stack]. lia.
      * intros [|? [|? x]] q y E; discriminate.
  - unfold delta in H. destruct (Z.eqb_spec (nest m) 0) as [E|E].
    + cbn [bind] in H. injection H as <- <-. inversion P as [| | |? ? ? ? P1| | |]; subst. inversion P1 as [| | | |? ? ? ? P2| |]; subst. inversion P2; subst.
      assert (h = 0%nat /\ exists k, stack m = repeat InDelta k) as (-> & k' & Es).
      { destruct Sh as [Sh|Sh]; rewrite Sh in N; [|lia]. split; [|exists k; exact Sh]. destruct k; cbn in N; lia. }
      split.
      * split; [exists (S k'); left; cbn [stack]; rewrite Es; reflexivity|]. exists 0%nat. split; [reflexivity|]. unfold flushing. cbn [nest stack]. lia.
      * intros [|? [|? x]] q' y E'; try discriminate.
        -- injection E' as <- <- <-. cbn [holds sum]. rewrite sum_zero. lia.
        -- injection E' as _ _ E'. destruct x; discriminate.
    + unfold unhold, hold in H. cbn [nest deltas stack] in H.
      destruct (Z.gtb_spec (nest m + 1) 0) as [Hp|Hp]; [|discriminate]. destruct (Z.eqb_spec (nest m + 1) 1) as [E1|E1]; [lia|].
      cbn [bind] in H. injection H as <- <-. inversion P as [| | |? ? ? ? P1| | |]; subst. inversion P1; subst. split.
      * split; [exists k; exact Sh|]. exists h. split; [reflexivity|]. unfold flushing. cbn [nest stack]. lia.
      * intros [|? [|? x]] q y E'; discriminate.
  - injection H as <- <-. inversion P as [| | | | | |? ? ? P1]; subst. inversion P1; subst. split.
    + split; [exists k; exact Sh|]. exists h. split; [reflexivity|]. exact N.
    + intros [|? [|? x]] q y E'; discriminate.
  - destruct (flush_loop A m InFlush) as [m1 e1]. injection H as <- <-. inversion P.
  - injection H as H. unfold return_ in H. destruct (stack m) as [|fr r] eqn:Es.
    + injection H as <- <-. inversion P; subst. split.
      * split; [exists k; rewrite Es; exact Sh|]. exists h. rewrite Es. split; [reflexivity|]. unfold flushing. rewrite Es. exact N.
      * intros [|? x] q y E'; discriminate.
    + destruct fr.
      * unfold flush_loop in H. cbn [nest deltas stack] in H. destruct Sh as [Sh|Sh]; [destruct k; discriminate|]. injection Sh as ->.
        destruct (deltas m) as [|p q]; injection H as <- <-; inversion P as [| | | | |? ? ? P1|]; subst.
        -- inversion P1; subst. split.
           ++ split; [exists k; left; reflexivity|]. exists 0%nat. split; [reflexivity|]. unfold flushing. cbn [nest stack]. destruct k; cbn; lia.
           ++ intros [|? [|? x]] q y E'; discriminate.
        -- inversion P1 as [| | | |? ? ? ? P2| |]; subst. inversion P2; subst. split.
           ++ split; [exists k; right; reflexivity|]. exists 0%nat. split; [reflexivity|]. unfold flushing. cbn [nest stack]. lia.
           ++ intros [|? [|? x]] q' y E'; try discriminate.
              ** injection E' as <- <- <-. cbn [holds sum length]. rewrite sum_zero. lia.
              ** injection E' as _ _ E'. destruct x; discriminate.
      * destruct Sh as [Sh|Sh]; [destruct k; discriminate|discriminate].
      * injection H as <- <-. inversion P as [| | | | |? ? ? P1|]; subst. inversion P1; subst.
        destruct Sh as [Sh|Sh]; [|discriminate]. destruct (repeat_tail _ _ Sh) as (k' & -> & ->). split.
        -- split; [exists k'; left; reflexivity|]. exists 0%nat. split; [reflexivity|]. unfold flushing. cbn [nest stack]. destruct k'; cbn; lia.
        -- intros [|? [|? x]] q y E'; discriminate.
Qed.

Lemma run_polite l : forall (m m' : machine) e o o', Rel m o -> run A m l = Ok (m', e) -> polite o e o' ->
  Rel m' o' /\ forall x p y, e = x ++ Dispatched p :: y -> sum o + holds x = 0.
Proof.
  induction l as [|a l IH]; intros m m' e o o' R H P; cbn [run] in H.
  - injection H as <- <-. inversion P; subst. split; [exact R|]. intros [|? x] p y E; discriminate.
  - destruct (act A m a) as [[m1 e1]| |] eqn:E; try discriminate. cbn [bind] in H. destruct (run A m1 l) as [[m2 e2]| |] eqn:R2; try discriminate.
    cbn [bind] in H. injection H as <- <-. apply polite_app in P. destruct P as (o1 & P1 & P2).
    destruct (act_polite m m1 a e1 o o1 R E P1) as [R1 D1]. destruct (IH m1 m2 e2 o1 o' R1 R2 P2) as [R' D2]. split; [exact R'|].
    intros x p y Exy. apply polite_sum in P1.
    revert x Exy D1 P1. clear - D2. intros x Exy D1 P1.
    assert (G : (exists y', e1 = x ++ Dispatched p :: y') \/ exists x', x = e1 ++ x' /\ e2 = x' ++ Dispatched p :: y).
    { revert x Exy. clear. induction e1 as [|c e1 IH]; intros x E.
      - right. exists x. auto.
      - destruct x as [|d x]; cbn in E; injection E as -> E.
        + left. exists e1. reflexivity.
        + destruct (IH x E) as [(y' & ->)|(x' & -> & ->)]; [left; exists y'; reflexivity|right; exists x'; auto]. }
    destruct G as [(y' & ->)|(x' & -> & ->)].
    + eapply D1. reflexivity.
    + specialize (D2 x' p y eq_refl). assert (HH : forall u v, @holds A (u ++ v) = holds u + holds v).
      { clear. induction u as [|c u IH]; intros v; cbn [app holds]; [lia|]. rewrite IH. destruct c; lia. }
      rewrite HH. lia.
Qed.
Lemma Rel_start : Rel start [0%nat].
Proof. split; [exists 0%nat; left; reflexivity|]. exists 0%nat. split; reflexivity. Qed.
Lemma Inv_start : Inv start.
Proof. unfold Inv. reflexivity. Qed.
End Delta.
