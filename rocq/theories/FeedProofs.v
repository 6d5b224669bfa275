(** What a generator holds that is set to everything another one notifies. *)
From Verif Require Import Base BaseFacts Ctype KeyModel KeySpec KeyProofs TempModel TempSpec TreeProofs TempProofs.
Local Open Scope nat_scope.

Definition closed (m : contents) : Prop := forall a b, Forall plain (a ++ b) -> m (a ++ b) <> None -> m a <> None.
Definition folded (m : contents) : Prop := forall k k', Forall plain k -> Forall plain k' -> same k k' = true -> m k = m k'.
Lemma has_closed g : closed (has g).
Proof. intros a b P. unfold has. destruct (root g) as [t|]; [|auto]. apply lk_prefix. Qed.
Lemma has_folded g : WFo (root g) -> folded (has g).
Proof. intros W k k' P P' S. apply has_low; assumption. Qed.
Lemma same_sym k k' : same k k' = same k' k.
Proof. unfold same. apply andb_comm. Qed.
Lemma same_trans a b c : same a b = true -> same b c = true -> same a c = true.
Proof. rewrite !same_lows. congruence. Qed.
Lemma same_under a b c : same a b = true -> under b c = under a c.
Proof.
  intros E. apply same_lows in E. destruct (under a c) eqn:A, (under b c) eqn:B; try reflexivity; exfalso.
  - apply under_lows in A. rewrite E in A. apply under_lows in A. congruence.
  - apply under_lows in B. rewrite <- E in B. apply under_lows in B. congruence.
Qed.
(** A key that lies at or above one that is there is there. *)
Lemma closed_under m k q : closed m -> folded m -> Forall plain k -> Forall plain q -> under k q = true -> m q <> None -> m k <> None.
Proof.
  intros C F Pk Pq U H. apply under_lows in U. destruct U as (r & U).
  set (a := firstn (length k) q). assert (Ea : lows a = lows k).
  { unfold a, lows. rewrite <- firstn_map. change (map low q) with (lows q). rewrite U. unfold lows. rewrite firstn_app, map_length, Nat.sub_diag. cbn. rewrite app_nil_r. rewrite <- (map_length low k). apply firstn_all. }
  assert (Eq : q = a ++ skipn (length k) q) by (symmetry; apply firstn_skipn).
  assert (Pa : Forall plain a) by (rewrite Eq in Pq; apply Forall_app in Pq; apply Pq).
  rewrite <- (F a k Pa Pk) by (apply same_lows; exact Ea). rewrite Eq in H, Pq. exact (C _ _ Pq H).
Qed.
Definition touched (n : list notif) (k : key) : Prop := exists q w, In (q, w) n /\ same q k = true.
Lemma touched_dec n k : touched n k \/ ~ touched n k.
Proof.
  destruct (existsb (fun x => same (fst x) k) n) eqn:E.
  - left. apply existsb_exists in E. destruct E as ([q w] & H & S). exists q, w. auto.
  - right. intros (q & w & H & S). assert (existsb (fun x => same (fst x) k) n = true) by (apply existsb_exists; exists (q, w); auto). congruence.
Qed.
(** Setting everything notified, true of [m'], in a generator holding [m] *)
Definition fed (m m' : contents) (n : list notif) (c : contents) : Prop := forall k, Forall plain k ->
  (touched n k -> c k = m' k) /\
  (~ touched n k -> c k = m k \/ (m k = None /\ c k = Some [] /\ m' k <> None) \/ (c k = None /\ m' k = None)).
Lemma feed_ok m m' n : closed m' -> folded m' -> (forall q w, In (q, w) n -> Forall plain q /\ m' q = w) ->
  forall c, same_contents c (fold_left (fun m x => set_spec m (fst x) (snd x)) n m) -> fed m m' n c.
Proof.
  intros C F. induction n as [|[q w] n IH] using rev_ind; intros H c Hc k P.
  - split; [intros (q & w & [] & _)|]. intros _. left. apply Hc, P.
  - rewrite fold_left_app in Hc. cbn [fold_left fst snd] in Hc. set (c0 := fold_left (fun m x => set_spec m (fst x) (snd x)) n m) in *.
    destruct (H q w) as [Pq Eq]; [apply in_app_iff; right; left; reflexivity|].
    destruct (IH (fun q0 w0 Hi => H q0 w0 (proj2 (in_app_iff _ _ _) (or_introl Hi))) c0 (fun _ _ => eq_refl) k P) as [T N].
    assert (Tq : touched (n ++ [(q, w)]) k <-> touched n k \/ same q k = true).
    { split.
      - intros (q0 & w0 & Hi & S). apply in_app_iff in Hi. destruct Hi as [Hi|[Hi|[]]]; [left; exists q0, w0; auto|]. injection Hi as -> ->. auto.
      - intros [(q0 & w0 & Hi & S)|S]; [exists q0, w0; split; [apply in_app_iff; auto|exact S]|]. exists q, w. split; [apply in_app_iff; right; left; reflexivity|exact S]. }
    rewrite Hc by exact P. unfold set_spec. destruct w as [w|].
    + destruct (same q k) eqn:S.
      * rewrite <- (F q k Pq P S), Eq. split; [reflexivity|]. intros X. elim X. apply Tq. auto.
      * assert (Tk : touched (n ++ [(q, Some w)]) k <-> touched n k) by (rewrite Tq; intuition discriminate). rewrite !Tk.
        destruct (under k q) eqn:U; [|split; assumption]. assert (M : m' k <> None) by (apply (closed_under m' k q); auto; congruence). split.
        -- intros X. rewrite (T X). destruct (m' k); [reflexivity|congruence].
        -- intros X. destruct (N X) as [->|[(E1 & -> & E3)|(_ & E)]]; [|right; left; auto|congruence]. destruct (m k) eqn:Em; [left; reflexivity|]. right. left. auto.
    + destruct (under q k) eqn:U.
      * assert (M : m' k = None). { destruct (m' k) eqn:E; [|reflexivity]. exfalso. apply (closed_under m' q k C F Pq P U); congruence. } split; [intros _; symmetry; exact M|]. intros _. right. right. auto.
      * assert (S : same q k = false) by (unfold same; rewrite U; reflexivity). assert (Tk : touched (n ++ [(q, None)]) k <-> touched n k) by (rewrite Tq, S; intuition discriminate). rewrite !Tk. split; assumption.
Qed.
(** The same for a memory generator *)
Definition tsets (g : gen) (n : list notif) : gen := fold_left (fun g x => fst (tset g (fst x) (snd x))) n g.
Lemma tsets_has n : (forall q w, In (q, w) n -> Forall plain q) -> forall g, WFo (root g) ->
  WFo (root (tsets g n)) /\ same_contents (has (tsets g n)) (fold_left (fun m x => set_spec m (fst x) (snd x)) n (has g)).
Proof.
  intros H. induction n as [|[q w] n IH] using rev_ind; intros g W; [split; [exact W|intros k _; reflexivity]|].
  destruct (IH (fun q0 w0 Hi => H q0 w0 (proj2 (in_app_iff _ _ _) (or_introl Hi))) g W) as (W1 & E).
  destruct (tset (tsets g n) q w) as [g2 n2] eqn:Es. assert (Pq : Forall plain q) by (apply (H q w), in_app_iff; right; left; reflexivity).
  destruct (tset_ok _ _ _ _ _ W1 (or_introl Pq) Es) as (W2 & Hc & _). assert (Et : tsets g (n ++ [(q, w)]) = g2) by (transitivity (fst (tset (tsets g n) q w)); [unfold tsets; rewrite fold_left_app; reflexivity|rewrite Es; reflexivity]).
  rewrite Et, fold_left_app. cbn [fold_left fst snd]. split; [exact W2|]. intros k P. rewrite Hc by exact P. cbn [set_key]. destruct (plain_slashed _ Pq) as [-> _].
  unfold set_spec. destruct w; destruct (same q k), (under k q), (under q k); try reflexivity; rewrite ?E by exact P; reflexivity.
Qed.
Lemma tsets_fed g m' n : WFo (root g) -> closed m' -> folded m' -> (forall q w, In (q, w) n -> Forall plain q /\ m' q = w) ->
  WFo (root (tsets g n)) /\ fed (has g) m' n (has (tsets g n)).
Proof.
  intros W C F H. destruct (tsets_has n (fun q w Hi => proj1 (H q w Hi)) g W) as (W' & E). split; [exact W'|]. apply feed_ok; assumption.
Qed.
