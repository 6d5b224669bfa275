From Verif Require Import Base BaseFacts CowModel CowProofs KeyModel KeySpec KeyProofs KeyHeapModel KeyHeapSpec.
Local Open Scope nat_scope.

Definition one (b c : nat) : nat := if b =? c then 1 else 0.
Lemma one_same b : one b b = 1.
Proof. unfold one. rewrite Nat.eqb_refl. reflexivity. Qed.
Lemma one_other b c : b <> c -> one b c = 0.
Proof. unfold one. destruct (Nat.eqb_spec b c); congruence. Qed.

Definition content (h : kheap) (b : nat) : option (list bytes * nat) :=
  option_map (fun s => (vec s, used s)) (nth_error h b).
Record Inv (h : kheap) (f : nat -> nat) : Prop := {
  inv_refs : forall b s, nth_error h b = Some s ->
    refs s = f b + (if b =? 0 then 2 else 0) /\ live s = (0 <? refs s);
  inv_in : forall b, 0 < f b -> b < length h;
  inv_empty : content h 0 = Some ([[]], 0) }.
Definition keep (h h' : kheap) (f : nat -> nat) : Prop := forall b, 0 < f b -> content h' b = content h b.

Lemma Inv_ext h f g : (forall b, f b = g b) -> Inv h f -> Inv h g.
Proof.
  intros E [A B C]. split; [|intros b Hb; apply B; rewrite E; exact Hb|exact C].
  intros b s Hs. rewrite <- E. auto.
Qed.
Lemma keep_trans h1 h2 h3 f : keep h1 h2 f -> keep h2 h3 f -> keep h1 h3 f.
Proof. intros A B b H. rewrite B, A; auto. Qed.
Lemma keep_all h h' f : (forall b, b < length h -> content h' b = content h b) -> Inv h f -> keep h h' f.
Proof. intros A I b H. apply A, (inv_in h f I b H). Qed.

Lemma Inv_get h f b : Inv h f -> b = 0 \/ 0 < f b -> exists s, nth_error h b = Some s /\ getst h b = Ok s /\
  refs s = f b + (if b =? 0 then 2 else 0) /\ live s = true /\ content h b = Some (vec s, used s).
Proof.
  intros [A B C] H. assert (L : b < length h).
  { destruct H as [->|H]; [|auto]. unfold content in C. apply nth_error_Some. destruct (nth_error h 0); [discriminate|discriminate C]. }
  destruct (nth_error h b) as [s|] eqn:E; [|apply nth_error_None in E; lia].
  destruct (A b s E) as [R1 R2]. exists s. unfold getst, content. rewrite E.
  assert (Lv : live s = true). { rewrite R2. apply Nat.ltb_lt. rewrite R1. destruct H as [->|H]; cbn; lia. }
  rewrite Lv. auto.
Qed.

Lemma content_set h b s c : b < length h -> content (setst h b s) c = if b =? c then Some (vec s, used s) else content h c.
Proof.
  intros L. unfold content, setst. destruct (Nat.eqb_spec b c) as [->|N].
  - destruct (nth_error h c) eqn:E; [|apply nth_error_None in E; lia]. rewrite (setnth_same _ _ _ _ E). reflexivity.
  - rewrite setnth_other by assumption. reflexivity.
Qed.
Lemma nth_lt {A} (l : list A) i x : nth_error l i = Some x -> i < length l.
Proof. intros E. apply nth_error_Some. congruence. Qed.

Lemma kunlink_ok h k g : Inv h (fun c => one (ks k) c + g c) -> exists h', kunlink h k = Ok h' /\ Inv h' g /\
  (forall b, content h' b = content h b) /\ length h' = length h.
Proof.
  intros I. destruct (Inv_get h _ (ks k) I) as (s & E & G & R & Lv & Ct). { right. rewrite one_same. lia. }
  unfold kunlink. rewrite G. cbn [bind]. eexists. split; [reflexivity|].
  cbv beta in R. rewrite one_same in R. pose proof (nth_lt _ _ _ E) as Hl.
  assert (Cc : forall b, content (setst h (ks k) {| vec := vec s; used := used s; refs := refs s - 1; live := negb (refs s - 1 =? 0) |}) b = content h b).
  { intros b. rewrite content_set by assumption. cbn [vec used]. destruct (Nat.eqb_spec (ks k) b) as [<-|]; congruence. }
  split; [|split; [exact Cc|apply setnth_length]]. destruct I as [A B C]. split.
  - intros b t Et. unfold setst in Et. destruct (Nat.eq_dec (ks k) b) as [Hb|N].
    + rewrite <- Hb in *. rewrite (setnth_same _ _ _ _ E) in Et. injection Et as <-. cbn [refs live]. split; [lia|].
      destruct (Nat.eqb_spec (refs s - 1) 0), (Nat.ltb_spec 0 (refs s - 1)); cbn; congruence || lia.
    + rewrite setnth_other in Et by assumption. destruct (A b t Et) as [X Y]. cbv beta in X. rewrite one_other in X by assumption. auto.
  - intros b Hb. unfold setst. rewrite setnth_length. apply B. lia.
  - rewrite Cc. exact C.
Qed.
Lemma klink_ok h b g : Inv h g -> b = 0 \/ 0 < g b -> exists h', klink h b = Ok h' /\ Inv h' (fun c => one b c + g c) /\
  (forall b, content h' b = content h b) /\ length h' = length h.
Proof.
  intros I H. destruct (Inv_get h _ b I H) as (s & E & G & R & Lv & Ct).
  unfold klink. rewrite G. cbn [bind]. eexists. split; [reflexivity|]. pose proof (nth_lt _ _ _ E) as Hl.
  assert (Cc : forall c, content (setst h b {| vec := vec s; used := used s; refs := S (refs s); live := true |}) c = content h c).
  { intros c. rewrite content_set by assumption. cbn [vec used]. destruct (Nat.eqb_spec b c) as [<-|]; congruence. }
  split; [|split; [exact Cc|apply setnth_length]]. destruct I as [A B C]. split.
  - intros c t Et. unfold setst in Et. destruct (Nat.eq_dec b c) as [Hb|N].
    + rewrite <- Hb in *. rewrite (setnth_same _ _ _ _ E) in Et. injection Et as <-. cbn [refs live]. rewrite one_same. split; [lia|reflexivity].
    + rewrite setnth_other in Et by assumption. destruct (A c t Et) as [X Y]. rewrite one_other by assumption. auto.
  - intros c Hc. unfold setst. rewrite setnth_length. destruct (Nat.eq_dec b c) as [<-|N]; [exact Hl|]. rewrite one_other in Hc by assumption. apply B. exact Hc.
  - rewrite Cc. exact C.
Qed.
Lemma new_ok h g v u : Inv h g -> exists h', new_store h v u = (h', length h) /\ Inv h' (fun c => one (length h) c + g c) /\
  keep h h' g /\ content h' (length h) = Some (v, u) /\ g (length h) = 0 /\ length h <> 0.
Proof.
  intros I. destruct I as [A B C].
  assert (Hne : length h <> 0). { intros E. unfold content in C. destruct h; [discriminate|cbn in E; lia]. }
  assert (Hg : g (length h) = 0). { destruct (g (length h)) eqn:E; [reflexivity|]. specialize (B (length h)). lia. }
  eexists. split; [reflexivity|].
  assert (Cc : forall b, b < length h -> content (h ++ [{| vec := v; used := u; refs := 1; live := true |}]) b = content h b).
  { intros b Hb. unfold content. rewrite nth_error_app1 by assumption. reflexivity. }
  split; [|split; [intros b Hb; apply Cc, B; exact Hb|split; [|auto]]].
  - split.
    + intros b t Et. destruct (Nat.lt_ge_cases b (length h)) as [Hb|Hb].
      * rewrite nth_error_app1 in Et by assumption. rewrite one_other by lia. apply A. exact Et.
      * rewrite nth_error_app2 in Et by assumption. destruct (b - length h) as [|n] eqn:En; [|destruct n; discriminate].
        injection Et as <-. assert (b = length h) by lia. subst b. rewrite one_same, Hg. cbn [refs live].
        destruct (Nat.eqb_spec (length h) 0); [lia|]. split; reflexivity.
    + intros b Hb. rewrite app_length. cbn. destruct (Nat.eq_dec (length h) b) as [<-|N]; [lia|]. rewrite one_other in Hb by assumption. specialize (B b Hb). lia.
    + rewrite Cc by lia. exact C.
  - unfold content. rewrite nth_error_app2, Nat.sub_diag by lia. reflexivity.
Qed.
(* changing the contents of one store *)
Lemma upd_ok h f b v u F s' : Inv h f -> b <> 0 -> 0 < f b -> content h b = Some (v, u) ->
  (forall r, F {| vec := v; used := u; refs := r; live := true |} = Ok {| vec := fst s'; used := snd s'; refs := r; live := true |}) ->
  exists h', upd h b F = Ok h' /\ Inv h' f /\ content h' b = Some s' /\ (forall c, c <> b -> content h' c = content h c).
Proof.
  intros I Hb Hf Hc HF. destruct (Inv_get h _ b I) as (s & E & G & R & Lv & Ct). { auto. }
  rewrite Ct in Hc. injection Hc as <- <-. unfold upd. rewrite G. cbn [bind].
  replace s with {| vec := vec s; used := used s; refs := refs s; live := true |} by (destruct s; cbn in *; congruence).
  rewrite HF. cbn [bind]. eexists. split; [reflexivity|]. pose proof (nth_lt _ _ _ E) as Hl. destruct I as [A B C]. split; [split|split].
  - intros c t Et. unfold setst in Et. destruct (Nat.eq_dec b c) as [<-|N].
    + rewrite (setnth_same _ _ _ _ E) in Et. injection Et as <-. cbn [refs live]. split; [exact R|].
      destruct (A b s E) as [_ X]. congruence.
    + rewrite setnth_other in Et by assumption. auto.
  - intros c Hc. unfold setst. rewrite setnth_length. auto.
  - rewrite content_set by assumption. destruct (Nat.eqb_spec b 0); [lia|]. exact C.
  - rewrite content_set, Nat.eqb_refl by assumption. destruct s'. reflexivity.
  - intros c N. rewrite content_set by assumption. destruct (Nat.eqb_spec b c); congruence.
Qed.

(** ** Views *)
Definition hasv (h : kheap) (k : kref) (v : list bytes) : Prop :=
  exists w u, content h (ks k) = Some (w, u) /\ kl k <= kr k /\ kr k <= u /\ u <= length w /\
    firstn (kr k - kl k) (skipn (kl k) w) = v.
Definition whole (h : kheap) (k : kref) : Prop :=
  ks k = 0 \/ (kl k = 0 /\ exists w, content h (ks k) = Some (w, kr k)).
Definition shaped (h : kheap) (k : kref) (c : shape) : Prop :=
  match c with Whole => whole h k | Front => ks k = 0 \/ kl k = 0 | Rest => True end.
Lemma hasv_keep h h' k v : content h' (ks k) = content h (ks k) -> hasv h k v -> hasv h' k v.
Proof. intros E (w & u & H & R). exists w, u. rewrite E. auto. Qed.
Lemma whole_keep h h' k : content h' (ks k) = content h (ks k) -> whole h k -> whole h' k.
Proof. intros E [H|(A & w & B)]; [left; exact H|right; split; [exact A|exists w; congruence]]. Qed.
Lemma shaped_keep h h' k c : content h' (ks k) = content h (ks k) -> shaped h k c -> shaped h' k c.
Proof. intros E. destruct c; cbn; auto. apply whole_keep, E. Qed.
Lemma shaped_0 h k c : ks k = 0 -> shaped h k c.
Proof. intros E. destruct c; cbn; auto. left. exact E. Qed.
Lemma hasv_length h k v : hasv h k v -> length v = kr k - kl k.
Proof. intros (w & u & _ & A & B & C & <-). rewrite firstn_length, skipn_length. lia. Qed.
Lemma nth_error_firstn_lt {A} (l : list A) n i : i < n -> nth_error (firstn n l) i = nth_error l i.
Proof. revert n i. induction l as [|x l IH]; intros [|n] [|i] H; cbn; try lia; try reflexivity. apply IH. lia. Qed.
Lemma nth_error_skipn_add {A} (l : list A) n i : nth_error (skipn n l) i = nth_error l (n + i).
Proof. revert n. induction l as [|x l IH]; intros [|n]; cbn; try reflexivity; [destruct i; reflexivity|apply IH]. Qed.

Lemma kseg_ok h f k v i : Inv h f -> 0 < f (ks k) -> hasv h k v -> kl k <= i < kr k ->
  exists x, kseg h k i = Ok x /\ nth_error v (i - kl k) = Some x.
Proof.
  intros I Hf (w & u & Hc & A & B & C & <-) Hi.
  destruct (Inv_get h _ (ks k) I) as (s & E & G & R & Lv & Ct). { auto. }
  rewrite Ct in Hc. injection Hc as <- <-. unfold kseg. rewrite G. cbn [bind]. unfold seg.
  destruct (nth_error (vec s) i) as [x|] eqn:Ex; [|apply nth_error_None in Ex; lia].
  exists x. split; [reflexivity|]. rewrite nth_error_firstn_lt by lia. rewrite nth_error_skipn_add. rewrite <- Ex. f_equal. lia.
Qed.
Lemma copy_segs_ok s : forall n i, i + n <= length (vec s) -> copy_segs s i n = Ok (firstn n (skipn i (vec s))).
Proof.
  induction n as [|n IH]; intros i H; cbn [copy_segs]; [reflexivity|]. unfold seg.
  destruct (nth_error (vec s) i) as [x|] eqn:Ex; [|apply nth_error_None in Ex; lia]. cbn [of_opt bind].
  rewrite IH by lia. cbn [bind]. f_equal.
  replace (skipn i (vec s)) with (x :: skipn (S i) (vec s)); [reflexivity|].
  clear - Ex. revert i Ex. generalize (vec s). intros l. induction l as [|y l IH]; intros [|i] E; cbn in *; try discriminate; [congruence|]. apply IH, E.
Qed.
Lemma klist_ok h f k v : Inv h f -> 0 < f (ks k) -> hasv h k v -> klist h k = Ok v.
Proof.
  intros I Hf (w & u & Hc & A & B & C & <-). destruct (Inv_get h _ (ks k) I) as (s & E & G & R & Lv & Ct). { auto. }
  rewrite Ct in Hc. injection Hc as <- <-. unfold klist. rewrite G. cbn [bind]. apply copy_segs_ok. lia.
Qed.

Definition EK : kref := {| ks := EMPTY_store; kl := 0; kr := 0 |}.
Lemma hasv_EK h f : Inv h f -> hasv h EK [].
Proof. intros I. exists [[]], 0. rewrite <- (inv_empty h f I). cbn. repeat split; lia. Qed.

Definition done (h : kheap) (g : nat -> nat) (v : list bytes) (c : shape) (r : res (kheap * kref)) : Prop :=
  exists h' k', r = Ok (h', k') /\ Inv h' (fun b => one (ks k') b + g b) /\ keep h h' g /\ hasv h' k' v /\ shaped h' k' c.

Lemma kcollapse_ok h k g v c : Inv h (fun b => one (ks k) b + g b) -> hasv h k v -> shaped h k c ->
  done h g (root_or v) c (kcollapse h k).
Proof.
  intros I V W. unfold kcollapse. pose proof (hasv_length h k v V) as Hl.
  assert (T : exists t, (if kr k - kl k =? 1 then let! s := kseg h k (kr k - 1) in Ok (isnil s) else Ok (kr k =? kl k)) = Ok t /\
    (t = true -> root_or v = []) /\ (t = false -> root_or v = v)).
  { destruct (Nat.eqb_spec (kr k - kl k) 1) as [H1|H1].
    - destruct (kseg_ok h _ k v (kr k - 1) I) as (x & Ex & Nx). { rewrite one_same. lia. } { exact V. } { lia. }
      rewrite Ex. cbn [bind]. replace (kr k - 1 - kl k) with 0 in Nx by lia. rewrite H1 in Hl.
      destruct v as [|y [|z v]]; cbn in Hl; try lia. cbn in Nx. injection Nx as ->.
      exists (isnil x). destruct x; cbn; repeat split; congruence || reflexivity.
    - exists (kr k =? kl k). split; [reflexivity|]. destruct V as (w & u & _ & A & _).
      destruct (Nat.eqb_spec (kr k) (kl k)) as [H2|H2]; split; intros E; try discriminate.
      + destruct v; [reflexivity|cbn in Hl; lia].
      + destruct v as [|y [|z v]]; cbn in Hl; [reflexivity|lia|]. destruct y; reflexivity. }
  destruct T as (t & -> & Tt & Tf). cbn [bind]. destruct t.
  - rewrite Tt by reflexivity. destruct (kunlink_ok h k g I) as (h1 & -> & I1 & C1 & L1). cbn [bind].
    destruct (klink_ok h1 EMPTY_store g I1) as (h2 & -> & I2 & C2 & L2). { left. reflexivity. } cbn [bind].
    exists h2, EK. split; [reflexivity|]. split; [exact I2|]. split; [intros b _; rewrite C2, C1; reflexivity|].
    split; [eapply hasv_EK; exact I2|apply shaped_0; reflexivity].
  - rewrite Tf by reflexivity. exists h, k. split; [reflexivity|]. split; [exact I|]. split; [intros b _; reflexivity|]. auto.
Qed.

Lemma kunique_ok h k g v c : Inv h (fun b => one (ks k) b + g b) -> hasv h k v -> shaped h k c ->
  exists h' k' w u, kunique h k = Ok (h', k') /\ Inv h' (fun b => one (ks k') b + g b) /\ keep h h' g /\
    ks k' <> 0 /\ g (ks k') = 0 /\ hasv h' k' v /\
    content h' (ks k') = Some (w, u) /\ (c = Whole -> kl k' = 0 /\ kr k' = u) /\ (c = Front -> kl k' = 0).
Proof.
  intros I V W. unfold kunique. destruct (Inv_get h _ (ks k) I) as (s & E & G & R & Lv & Ct). { rewrite one_same. lia. }
  rewrite G. cbn [bind]. cbv beta in R. rewrite one_same in R. destruct (Nat.eqb_spec (refs s) 1) as [H1|H1].
  - exists h, k, (vec s), (used s). destruct (Nat.eqb_spec (ks k) 0) as [H0|H0]; [lia|].
    split; [reflexivity|]. split; [exact I|]. split; [intros b _; reflexivity|]. split; [exact H0|]. split; [lia|]. split; [exact V|].
    split; [exact Ct|]. split; intros ->; cbn in W.
    + destruct W as [X|(X & w & Y)]; [congruence|]. split; [exact X|congruence].
    + destruct W as [X|X]; [congruence|exact X].
  - destruct (kunlink_ok h k g I) as (h1 & U1 & I1 & C1 & L1). unfold kunlink in U1. rewrite G in U1. cbn [bind] in U1.
    replace (negb (refs s - 1 =? 0)) with true in U1 by (destruct (Nat.eqb_spec (refs s - 1) 0); [lia|reflexivity]).
    injection U1 as ->. destruct V as (w & u & Hc & A & B & C & Hv). rewrite Ct in Hc. injection Hc as <- <-.
    rewrite copy_segs_ok by lia. cbn [bind]. rewrite Hv.
    assert (Lv' : length v = kr k - kl k). { rewrite <- Hv, firstn_length, skipn_length. lia. }
    destruct (new_ok h1 g v (length v) I1) as (h2 & -> & I2 & K2 & C2 & G2 & N2).
    exists h2, {| ks := length h1; kl := 0; kr := kr k - kl k |}, v, (length v). cbn [ks kl kr].
    split; [reflexivity|]. split; [exact I2|]. split. { intros b Hb. rewrite K2 by assumption. apply C1. }
    split; [exact N2|]. split; [exact G2|]. split; [|split; [exact C2|split; auto]].
    exists v, (length v). cbn [ks kl kr]. rewrite <- Lv', C2, Nat.sub_0_r. cbn [skipn]. rewrite firstn_all.
    repeat split; lia.
Qed.

(** ** Vectors *)
Lemma put_ok v i x : i < length v -> exists v', put v i x = Ok v' /\ length v' = length v /\
  nth_error v' i = Some x /\ forall j, j <> i -> nth_error v' j = nth_error v j.
Proof.
  intros H. unfold put. destruct (Nat.ltb_spec i (length v)); [|lia]. eexists. split; [reflexivity|].
  assert (L : length (firstn i v) = i) by (rewrite firstn_length; lia). split; [|split].
  - rewrite app_length, L. cbn [length]. rewrite skipn_length. lia.
  - rewrite nth_error_app2, L, Nat.sub_diag by lia. reflexivity.
  - intros j Hj. destruct (Nat.lt_ge_cases j i).
    + rewrite nth_error_app1 by lia. apply nth_error_firstn_lt. lia.
    + rewrite nth_error_app2, L by lia. destruct (j - i) as [|m] eqn:Em; [lia|]. cbn [nth_error].
      rewrite nth_error_skipn_add. f_equal. lia.
Qed.
Lemma firstn_ext {A} : forall n (a b : list A), (forall j, j < n -> nth_error a j = nth_error b j) -> firstn n a = firstn n b.
Proof.
  induction n as [|n IH]; intros a b H; [reflexivity|]. pose proof (H 0) as H0. destruct a as [|x a], b as [|y b]; cbn in *; try reflexivity.
  - specialize (H0 ltac:(lia)). discriminate.
  - specialize (H0 ltac:(lia)). discriminate.
  - specialize (H0 ltac:(lia)). injection H0 as ->. f_equal. apply IH. intros j Hj. apply (H (S j)). lia.
Qed.
Lemma firstn_snoc {A} (l : list A) n x : nth_error l n = Some x -> firstn (S n) l = firstn n l ++ [x].
Proof. revert n. induction l as [|y l IH]; intros [|n] H; cbn in *; try discriminate; [congruence|]. f_equal. apply IH, H. Qed.

Lemma shift_up_ok shift : 0 < shift -> forall n v, n + shift <= length v -> exists v', shift_up v n shift = Ok v' /\ length v' = length v /\
  (forall j, j < n -> nth_error v' (j + shift) = nth_error v j) /\ (forall j, n + shift <= j -> nth_error v' j = nth_error v j).
Proof.
  intros Hs. induction n as [|n IH]; intros v H; cbn [shift_up].
  - exists v. repeat split; auto. intros; lia.
  - destruct (nth_error v n) as [x|] eqn:Ex; [|apply nth_error_None in Ex; lia]. cbn [of_opt bind].
    destruct (put_ok v (n + shift) x) as (v1 & -> & L1 & P1 & O1); [lia|]. cbn [bind].
    destruct (IH v1) as (v2 & -> & L2 & A2 & B2); [lia|]. exists v2. split; [reflexivity|]. split; [lia|]. split.
    + intros j Hj. destruct (Nat.eq_dec j n) as [->|N].
      * rewrite B2 by lia. congruence.
      * rewrite A2 by lia. apply O1. lia.
    + intros j Hj. rewrite B2 by lia. apply O1. lia.
Qed.
Lemma copy_up_ok old shift : forall n i v, i + n <= length old -> i + n + shift <= length v ->
  exists v', copy_up old v i n shift = Ok v' /\ length v' = length v /\
  (forall j, i <= j < i + n -> nth_error v' (j + shift) = nth_error old j) /\ (forall j, j < i + shift -> nth_error v' j = nth_error v j).
Proof.
  induction n as [|n IH]; intros i v H1 H2; cbn [copy_up].
  - exists v. repeat split; auto. intros; lia.
  - destruct (nth_error old i) as [x|] eqn:Ex; [|apply nth_error_None in Ex; lia]. cbn [of_opt bind].
    destruct (put_ok v (i + shift) x) as (v1 & -> & L1 & P1 & O1); [lia|]. cbn [bind].
    destruct (IH (S i) v1) as (v2 & -> & L2 & A2 & B2); [lia|lia|]. exists v2. split; [reflexivity|]. split; [lia|]. split.
    + intros j Hj. destruct (Nat.eq_dec j i) as [->|N].
      * rewrite B2 by lia. congruence.
      * apply A2. lia.
    + intros j Hj. rewrite B2 by lia. apply O1. lia.
Qed.
Lemma resize_ok v u size shift : u <= length v -> u + shift <= size ->
  exists v', (forall r, resize {| vec := v; used := u; refs := r; live := true |} size shift =
      Ok {| vec := v'; used := u + shift; refs := r; live := true |}) /\
    size <= length v' /\ (forall j, j < u -> nth_error v' (j + shift) = nth_error v j).
Proof.
  intros Hu Hs. unfold resize. cbn [vec used refs]. destruct (Nat.leb_spec size (length v)).
  - destruct (Nat.ltb_spec 0 shift).
    + destruct (shift_up_ok shift ltac:(assumption) u v) as (v' & E & L & A & _); [lia|]. exists v'. rewrite E. cbn [bind].
      split; [reflexivity|]. split; [lia|exact A].
    + exists v. assert (shift = 0) by lia. subst shift. split; [intros r; rewrite Nat.add_0_r; reflexivity|]. split; [lia|].
      intros j _. f_equal. lia.
  - replace (Nat.min (Nat.min (size - shift) (length v)) u) with u by lia.
    destruct (copy_up_ok v shift u 0 (repeat [] size)) as (v' & E & L & A & _); [lia|rewrite repeat_length; lia|].
    exists v'. rewrite E. cbn [bind]. split; [reflexivity|]. rewrite repeat_length in L. split; [lia|]. intros j Hj. apply A. lia.
Qed.

Lemma resize0_ok v u size : u <= length v ->
  exists v', (forall r, resize {| vec := v; used := u; refs := r; live := true |} size 0 =
      Ok {| vec := v'; used := u; refs := r; live := true |}) /\
    size <= length v' /\ u <= length v' /\ (forall j, j < u -> nth_error v' j = nth_error v j).
Proof.
  intros Hu. unfold resize. cbn [vec used refs]. destruct (Nat.leb_spec size (length v)).
  - exists v. cbn. split; [reflexivity|]. auto.
  - replace (Nat.min (Nat.min (size - 0) (length v)) u) with u by lia.
    destruct (copy_up_ok v 0 u 0 (repeat [] size)) as (v' & E & L & A & _); [lia|rewrite repeat_length; lia|].
    exists v'. rewrite E. cbn [bind]. rewrite Nat.add_0_r. split; [reflexivity|]. rewrite repeat_length in L. split; [lia|]. split; [lia|].
    intros j Hj. rewrite <- A by lia. f_equal. lia.
Qed.

Lemma nil_named x : isnil x = negb (not_empty x).
Proof. destruct x; reflexivity. Qed.
Lemma skipn_cons_nth {A} (l : list A) i x : nth_error l i = Some x -> skipn i l = x :: skipn (S i) l.
Proof. revert i. induction l as [|y l IH]; intros [|i] E; cbn in *; try discriminate; [congruence|]. apply IH, E. Qed.

(* the copying loop of append; [a] is another key *)
Lemma append_loop_ok a y : forall fuel h f k j v u, kr a - j < fuel -> kl a <= j <= kr a ->
  Inv h f -> ks k <> 0 -> ks a <> ks k -> 0 < f (ks k) -> 0 < f (ks a) -> hasv h a y ->
  kl k = 0 -> content h (ks k) = Some (v, u) -> kr k <= u <= length v -> kr k + (kr a - j) + 1 <= length v ->
  exists h' k' v', append_loop fuel h k (Some a) j = Ok (h', k') /\ Inv h' f /\ ks k' = ks k /\ kl k' = 0 /\
    content h' (ks k) = Some (v', Nat.max u (kr k')) /\ kr k' < length v' /\ u <= length v' /\
    firstn (kr k') v' = firstn (kr k) v ++ named (skipn (j - kl a) y) /\
    (forall b, b <> ks k -> content h' b = content h b).
Proof.
  induction fuel as [|fuel IH]; intros h f k j v u Hf Hj I N0 Na Fk Fa Vy K0 Ck Hu Hl; [lia|]. cbn [append_loop arg].
  pose proof (hasv_length h a y Vy) as Hy.
  destruct (Nat.ltb_spec j (kr a)).
  - destruct (kseg_ok h f a y j I Fa Vy) as (x & Ex & Nx); [lia|]. rewrite Ex. cbn [bind].
    rewrite nil_named, (skipn_cons_nth _ _ _ Nx). unfold named. cbn [filter].
    replace (S (j - kl a)) with (S j - kl a) by lia. destruct (not_empty x) eqn:En; cbn [negb].
    + destruct (put_ok v (kr k) x) as (v1 & P1 & L1 & Q1 & O1); [lia|].
      destruct (upd_ok h f (ks k) v u (fun s => replace s (kr k) x) (v1, Nat.max u (S (kr k))) I N0 Fk Ck) as (h1 & -> & I1 & C1 & O2).
      { intros r. unfold replace. cbn [vec used refs fst snd]. rewrite P1. cbn [bind]. f_equal. f_equal. destruct (Nat.leb_spec u (kr k)); lia. }
      cbn [bind].
      destruct (IH h1 f {| ks := ks k; kl := kl k; kr := S (kr k) |} (S j) v1 (Nat.max u (S (kr k)))) as (h2 & k2 & v2 & E2 & I2 & S2 & L2 & C2 & R2 & R3 & F2 & K2);
        cbn [ks kl kr]; auto; try lia.
      { eapply hasv_keep; [|exact Vy]. apply O2. auto. }
      assert (Hk2 : kr k < kr k2).
      { apply (f_equal (@length bytes)) in F2. cbn [kr] in F2. rewrite app_length, !firstn_length in F2. lia. }
      exists h2, k2, v2. split; [exact E2|]. split; [exact I2|]. split; [exact S2|]. split; [exact L2|].
      split; [cbn [ks] in C2; rewrite C2; do 2 f_equal; lia|].
      split; [exact R2|]. split; [lia|]. split.
      * cbn [kr] in F2. rewrite F2, (firstn_snoc v1 _ x Q1), <- app_assoc. cbn [app].
        rewrite (firstn_ext (kr k) v1 v) by (intros i Hi; apply O1; lia). reflexivity.
      * intros b Hb. rewrite K2, O2 by assumption. reflexivity.
    + destruct (IH h f k (S j) v u) as (h2 & k2 & v2 & E2 & R); auto; try lia. exists h2, k2, v2. split; [exact E2|exact R].
  - exists h, k, v. split; [reflexivity|]. split; [exact I|]. split; [reflexivity|]. split; [exact K0|].
    split; [rewrite Ck; do 2 f_equal; lia|].
    split; [lia|]. split; [lia|]. split; [|auto]. rewrite skipn_all2 by lia. cbn. rewrite app_nil_r. reflexivity.
Qed.

Lemma last_nth {A} (l : list A) d : l <> [] -> nth_error l (length l - 1) = Some (last l d).
Proof.
  intros H. destruct (exists_last H) as (m & x & ->). rewrite last_last, app_length. cbn.
  rewrite nth_error_app2 by lia. replace (length m + 1 - 1 - length m) with 0 by lia. reflexivity.
Qed.
Lemma ktrailing_ok h f k v : Inv h f -> 0 < f (ks k) -> hasv h k v -> ktrailing h k = Ok (ends_in_slash v).
Proof.
  intros I Hf V. pose proof (hasv_length h k v V) as Hl. unfold ktrailing, ends_in_slash. destruct (Nat.ltb_spec (kl k) (kr k)).
  - destruct (kseg_ok h f k v (kr k - 1) I Hf V) as (x & -> & Nx); [lia|]. cbn [bind].
    destruct (Nat.eqb_spec (length v) 0); [lia|]. cbn [negb andb].
    assert (Hne : v <> []) by (intros ->; cbn in *; lia).
    pose proof (last_nth v (B "x") Hne) as Lx. replace (length v - 1) with (kr k - 1 - kl k) in Lx by lia.
    rewrite Nx in Lx. injection Lx as ->. rewrite nil_named. reflexivity.
  - destruct (Nat.eqb_spec (length v) 0); [reflexivity|]. destruct V as (? & ? & _ & ? & _). lia.
Qed.
Lemma kempty_ok h k v : hasv h k v -> kempty k = (length v =? 0).
Proof.
  intros V. rewrite (hasv_length h k v V). destruct V as (? & ? & _ & ? & _). unfold kempty.
  destruct (Nat.eqb_spec (kr k) (kl k)), (Nat.eqb_spec (kr k - kl k) 0); try reflexivity; lia.
Qed.
Lemma slash_flag h f a y : Inv h f -> 0 < f (ks a) -> hasv h a y ->
  (if kempty a then Ok true else ktrailing h a) = Ok ((length y =? 0) || ends_in_slash y).
Proof.
  intros I Hf V. rewrite (kempty_ok h a y V). destruct (length y =? 0); [reflexivity|]. cbn [orb]. eapply ktrailing_ok; eassumption.
Qed.
Lemma nodup_store k g b : g (ks k) = 0 -> 0 < g b -> b <> ks k.
Proof. intros A B ->. lia. Qed.

Lemma kappend_ok h k a g v y c : Inv h (fun b => one (ks k) b + g b) -> 0 < g (ks a) -> hasv h k v -> hasv h a y -> shaped h k c ->
  c <> Rest -> Forall plain v -> done h g (joined_keys v y) c (kappend h k (Some a)).
Proof.
  intros I Ga V Vy W Hc Pv. unfold kappend. cbn [arg].
  rewrite (slash_flag h _ a y I) by (auto; lia). cbn [bind]. set (t := (length y =? 0) || ends_in_slash y).
  destruct (kunique_ok h k g v c I V) as (h1 & k1 & w & u & -> & I1 & K1 & N1 & G1 & V1 & C1 & W1 & W2). { auto. }
  cbn [bind]. assert (L1 : kl k1 = 0) by (destruct c; [apply W1; reflexivity|apply W2; reflexivity|congruence]).
  assert (R1 : c = Whole -> kr k1 = u) by (intros E; apply W1, E). clear W1 W2.
  assert (Vy1 : hasv h1 a y). { eapply hasv_keep; [|exact Vy]. apply K1. exact Ga. }
  assert (Na : ks a <> ks k1) by (eapply nodup_store; eassumption).
  destruct V1 as (w' & u' & C1' & B1 & B2 & B3 & Hv). rewrite C1 in C1'. injection C1' as <- <-.
  pose proof Vy1 as Vy1'. pose proof (hasv_length h1 a y Vy1) as Hly. destruct Vy1' as (wa & ua & _ & Ba & _).
  rewrite L1 in *. rewrite Nat.sub_0_r in *. cbn [skipn] in Hv.
  assert (F1 : 0 < one (ks k1) (ks k1) + g (ks k1)) by (rewrite one_same; lia).
  destruct (resize0_ok w u (kr k1 + (kr a - kl a) + 1)) as (w2 & E2 & S2 & U2 & A2). { lia. }
  destruct (upd_ok h1 _ (ks k1) w u (fun s => resize s (kr k1 + (kr a - kl a) + 1) 0) (w2, u) I1 N1 F1 C1) as (h2 & -> & I2 & C2 & O2).
  { intros r. exact (E2 r). }
  cbn [bind].
  destruct (append_loop_ok a y (S (S (vec_size h2 k1 + kr a))) h2 (fun b => one (ks k1) b + g b) k1 (kl a) w2 u) as (h3 & k3 & w3 & -> & I3 & S3 & L3 & C3 & R3 & U3 & F3 & O3);
    try exact I2; auto; try lia.
  { eapply hasv_keep; [|exact Vy1]. apply O2. exact Na. }
  cbn [bind]. rewrite Nat.sub_diag in F3. cbn [skipn] in F3.
  rewrite (firstn_ext (kr k1) w2 w) in F3. 2:{ intros j Hj. apply A2. lia. }
  assert (Hk3 : kr k1 <= kr k3).
  { apply (f_equal (@length bytes)) in F3. rewrite app_length, !firstn_length in F3. lia. }
  rewrite Hv in F3.
  assert (Keep3 : keep h h3 g).
  { intros b Hb. pose proof (nodup_store _ _ _ G1 Hb). rewrite O3, O2 by assumption. apply K1. exact Hb. }
  assert (Nv : named v = v) by (apply filter_plain; exact Pv).
  assert (Fin : forall h4 k4 w4 x, Inv h4 (fun b => one (ks k1) b + g b) -> ks k4 = ks k1 -> kl k4 = 0 -> content h4 (ks k1) = Some (w4, Nat.max u (kr k4)) ->
     kr k1 <= kr k4 <= length w4 -> u <= length w4 -> firstn (kr k4) w4 = x -> (forall b, b <> ks k1 -> content h4 b = content h3 b) ->
     done h g (root_or x) c (kcollapse h4 k4)).
  { intros h4 k4 w4 x I4 S4 L4 C4 R4 U4 F4 O4.
    destruct (kcollapse_ok h4 k4 g x c) as (h5 & k5 & -> & I5 & K5 & V5 & W5).
    - rewrite S4. exact I4.
    - exists w4, (Nat.max u (kr k4)). rewrite S4, L4, Nat.sub_0_r. cbn [skipn]. repeat split; auto; lia.
    - destruct c; cbn; [|auto|congruence]. right. split; [exact L4|]. exists w4. rewrite S4, C4. do 2 f_equal. specialize (R1 eq_refl). lia.
    - exists h5, k5. split; [reflexivity|]. split; [exact I5|]. split; [|auto].
      intros b Hb. rewrite K5 by assumption. rewrite O4 by (eapply nodup_store; eassumption). apply Keep3. exact Hb. }
  unfold joined_keys. fold t. rewrite Nv. destruct t.
  - destruct (put_ok w3 (kr k3) []) as (w4 & P4 & L4 & Q4 & O4); [exact R3|].
    rewrite <- S3 in C3. rewrite <- S3 in F1 at 2. rewrite <- S3 in N1. rewrite <- S3 in G1.
    assert (F3' : 0 < one (ks k1) (ks k3) + g (ks k3)) by (rewrite S3, one_same; lia).
    destruct (upd_ok h3 _ (ks k3) w3 (Nat.max u (kr k3)) (fun s => replace s (kr k3) []) (w4, Nat.max u (S (kr k3))) I3 N1 F3' C3) as (h4 & -> & I4 & C4 & O5).
    { intros r. unfold replace. cbn [vec used refs fst snd]. rewrite P4. cbn [bind]. f_equal. f_equal. destruct (Nat.leb_spec (Nat.max u (kr k3)) (kr k3)); lia. }
    cbn [bind]. eapply Fin with (w4 := w4); cbn [ks kl kr]; auto; try lia.
    + rewrite <- S3. exact C4.
    + rewrite (firstn_snoc w4 _ [] Q4). rewrite (firstn_ext (kr k3) w4 w3) by (intros; apply O4; lia). rewrite F3, <- app_assoc. reflexivity.
    + intros b Hb. apply O5. congruence.
  - cbn [bind]. rewrite app_nil_r. eapply Fin with (w4 := w3); auto. lia.
Qed.

Lemma count_segs_ok h f a y : Inv h f -> 0 < f (ks a) -> hasv h a y -> forall n j, kl a <= j -> j + n = kr a ->
  count_segs h a j n = Ok (length (named (skipn (j - kl a) y))).
Proof.
  intros I Fa Vy. pose proof (hasv_length h a y Vy) as Hy. induction n as [|n IH]; intros j H1 H2; cbn [count_segs].
  - rewrite skipn_all2 by lia. reflexivity.
  - destruct (kseg_ok h f a y j I Fa Vy) as (x & -> & Nx); [lia|]. cbn [bind]. rewrite IH by lia. cbn [bind].
    rewrite (skipn_cons_nth _ _ _ Nx). replace (S (j - kl a)) with (S j - kl a) by lia. unfold named. cbn [filter].
    destruct x; reflexivity.
Qed.

Definition tail_ok (r : list bytes) : Prop := canonical r \/ r = [[]].
Lemma tail_cons x r : tail_ok (x :: r) -> (x = [] /\ r = []) \/ (not_empty x = true /\ tail_ok r).
Proof.
  intros [C|E]; [|injection E as -> ->; auto]. apply canonical_cons in C. destruct C as [[P _] C]. right.
  split; [destruct x; [congruence|reflexivity]|exact C].
Qed.

(* the copying loop of prepend *)
Lemma prepend_loop_ok a y : forall fuel h f k j v u, kr a - j < fuel -> kl a <= j <= kr a ->
  Inv h f -> ks k <> 0 -> ks a <> ks k -> 0 < f (ks k) -> 0 < f (ks a) -> hasv h a y -> tail_ok (skipn (j - kl a) y) ->
  kl k = 0 -> content h (ks k) = Some (v, u) -> u <= length v -> j - kl a + length (named (skipn (j - kl a) y)) <= u ->
  exists h' v', prepend_loop fuel h k (Some a) j = Ok (h', {| ks := ks k; kl := 0; kr := kr k + length (named (skipn (j - kl a) y)) |}) /\
    Inv h' f /\ content h' (ks k) = Some (v', u) /\ length v' = length v /\
    firstn (j - kl a + length (named (skipn (j - kl a) y))) v' = firstn (j - kl a) v ++ named (skipn (j - kl a) y) /\
    (forall i, j - kl a + length (named (skipn (j - kl a) y)) <= i -> nth_error v' i = nth_error v i) /\
    (forall b, b <> ks k -> content h' b = content h b).
Proof.
  induction fuel as [|fuel IH]; intros h f k j v u Hf Hj I N0 Na Fk Fa Vy T K0 Ck Hu Hl; [lia|]. cbn [prepend_loop arg].
  pose proof (hasv_length h a y Vy) as Hy.
  destruct (Nat.ltb_spec j (kr a)).
  - destruct (kseg_ok h f a y j I Fa Vy) as (x & Ex & Nx); [lia|]. rewrite Ex. cbn [bind].
    rewrite nil_named. rewrite (skipn_cons_nth _ _ _ Nx) in *.
    replace (S (j - kl a)) with (S j - kl a) in * by lia. destruct (tail_cons _ _ T) as [[-> En]|[En T']].
    + cbn [not_empty negb]. rewrite En in *. cbn [named filter not_empty length] in *.
      assert (S j = kr a). { apply (f_equal (@length bytes)) in En. rewrite skipn_length in En. change (@length bytes []) with 0 in En. lia. }
      destruct fuel as [|fuel]; [lia|]. cbn [prepend_loop arg]. destruct (Nat.ltb_spec (S j) (kr a)); [lia|].
      exists h, v. rewrite !Nat.add_0_r, app_nil_r. split; [destruct k; cbn in *; subst; reflexivity|]. auto 10.
    + unfold named in Hl |- *. cbn [filter] in Hl |- *. rewrite En in Hl |- *. cbn [length negb] in Hl |- *.
      destruct (put_ok v (j - kl a) x) as (v1 & P1 & L1 & Q1 & O1); [lia|].
      destruct (upd_ok h f (ks k) v u (fun s => replace s (kl k + (j - kl a)) x) (v1, u) I N0 Fk Ck) as (h1 & -> & I1 & C1 & O2).
      { intros r. unfold replace. cbn [vec used refs]. rewrite K0. cbn [Nat.add]. rewrite P1. cbn [bind]. destruct (Nat.leb_spec u (j - kl a)); [lia|]. reflexivity. }
      cbn [bind].
      destruct (IH h1 f {| ks := ks k; kl := kl k; kr := S (kr k) |} (S j) v1 u) as (h2 & v2 & E2 & I2 & C2 & L2 & F2 & A2 & K2);
        cbn [ks kl kr]; auto; try lia.
      { eapply hasv_keep; [|exact Vy]. apply O2. auto. }
      { unfold named. lia. }
      exists h2, v2. cbn [ks kr] in *. unfold named in *. split. { rewrite E2. do 3 f_equal. lia. } split; [exact I2|]. split; [exact C2|]. split; [lia|].
      replace (j - kl a + S (length (filter not_empty (skipn (S j - kl a) y)))) with (S j - kl a + length (filter not_empty (skipn (S j - kl a) y))) by lia.
      split; [|split].
      * rewrite F2. replace (S j - kl a) with (S (j - kl a)) at 1 by lia. rewrite (firstn_snoc v1 _ x Q1), <- app_assoc. cbn [app].
        rewrite (firstn_ext _ v1 v) by (intros i Hi; apply O1; lia). reflexivity.
      * intros i Hi. rewrite A2 by lia. apply O1. lia.
      * intros b Hb. rewrite K2, O2 by assumption. reflexivity.
  - exists h, v. rewrite skipn_all2 by lia. cbn. rewrite !Nat.add_0_r, app_nil_r.
    split; [destruct k; cbn in *; subst; reflexivity|]. auto 10.
Qed.

Lemma kprepend_ok h k a g v y : Inv h (fun b => one (ks k) b + g b) -> 0 < g (ks a) -> hasv h k v -> hasv h a y -> whole h k ->
  canonical y -> done h g (root_or (named y ++ v)) Whole (kprepend h k (Some a)).
Proof.
  intros I Ga V Vy W Cy. unfold kprepend. cbn [arg].
  destruct (kunique_ok h k g v Whole I V) as (h1 & k1 & w & u & -> & I1 & K1 & N1 & G1 & V1 & C1 & W1 & _). { auto. }
  cbn [bind]. destruct (W1 eq_refl) as [L1 R1]. assert (Vy1 : hasv h1 a y). { eapply hasv_keep; [|exact Vy]. apply K1. exact Ga. }
  assert (Na : ks a <> ks k1) by (eapply nodup_store; eassumption).
  destruct V1 as (w' & u' & C1' & B1 & B2 & B3 & Hv). rewrite C1 in C1'. injection C1' as <- <-.
  pose proof Vy1 as Vy1'. pose proof (hasv_length h1 a y Vy1) as Hly. destruct Vy1' as (wa & ua & _ & Ba & _).
  assert (F1 : 0 < one (ks k1) (ks k1) + g (ks k1)) by (rewrite one_same; lia).
  rewrite (count_segs_ok h1 _ a y I1) by (auto; lia). cbn [bind]. rewrite Nat.sub_diag. cbn [skipn].
  set (sh := length (named y)). rewrite L1 in *. rewrite Nat.sub_0_r in *. cbn [skipn] in Hv.
  destruct (resize_ok w u (sh + kr k1) sh) as (w2 & E2 & S2 & A2). { lia. } { lia. }
  destruct (upd_ok h1 _ (ks k1) w u (fun s => resize s (sh + kr k1) sh) (w2, u + sh) I1 N1 F1 C1) as (h2 & -> & I2 & C2 & O2).
  { intros r. exact (E2 r). }
  cbn [bind].
  destruct (prepend_loop_ok a y (S (S (vec_size h2 k1 + kr a))) h2 (fun b => one (ks k1) b + g b) k1 (kl a) w2 (u + sh)) as (h3 & w3 & -> & I3 & C3 & L3 & F3 & A3 & O3);
    try exact I2; auto; try lia.
  { eapply hasv_keep; [|exact Vy1]. apply O2. exact Na. }
  { rewrite Nat.sub_diag. cbn [skipn]. left. exact Cy. }
  { rewrite Nat.sub_diag. cbn [skipn]. fold sh. lia. }
  cbn [bind]. rewrite Nat.sub_diag in *. cbn [skipn firstn Nat.add] in *. fold sh in F3, A3 |- *.
  set (k3 := {| ks := ks k1; kl := 0; kr := kr k1 + sh |}).
  destruct (kcollapse_ok h3 k3 g (named y ++ v) Whole) as (h5 & k5 & -> & I5 & K5 & V5 & W5).
  - exact I3.
  - exists w3, (u + sh). cbn [ks kl kr k3]. rewrite Nat.sub_0_r. cbn [skipn]. split; [exact C3|]. split; [lia|]. split; [lia|]. split; [lia|].
    rewrite <- (firstn_skipn sh (firstn (kr k1 + sh) w3)). f_equal.
    + rewrite firstn_firstn, Nat.min_l by lia. exact F3.
    + rewrite skipn_firstn_comm. replace (kr k1 + sh - sh) with (kr k1) by lia. rewrite <- Hv. apply firstn_ext.
      intros j Hj. rewrite nth_error_skipn_add, A3 by lia. rewrite <- A2 by lia. f_equal. lia.
  - right. cbn [ks kl kr k3]. split; [reflexivity|]. exists w3. rewrite R1. exact C3.
  - exists h5, k5. split; [reflexivity|]. split; [exact I5|]. split; [|auto].
    intros b Hb. pose proof (nodup_store _ _ _ G1 Hb). rewrite K5, O3, O2 by assumption. apply K1. exact Hb.
Qed.

(** parts of keys *)
Lemma hasv_part h k v i j : hasv h k v -> i <= j -> j <= kr k - kl k ->
  hasv h {| ks := ks k; kl := kl k + i; kr := kl k + j |} (skipn i (firstn j v)).
Proof.
  intros (w & u & Hc & A & B & C & Hv) Hi Hj. exists w, u. cbn [ks kl kr]. split; [exact Hc|]. split; [lia|]. split; [lia|]. split; [lia|].
  rewrite <- Hv, firstn_firstn, Nat.min_l by lia. rewrite skipn_firstn_comm. replace (kl k + j - (kl k + i)) with (j - i) by lia.
  rewrite (Nat.add_comm (kl k) i), <- skipn_skipn_add. reflexivity.
Qed.
Lemma kcollapse_empty h k g c : Inv h (fun b => one (ks k) b + g b) -> kr k = kl k -> done h g [] c (kcollapse h k).
Proof.
  intros I E. unfold kcollapse. rewrite E, Nat.sub_diag, Nat.eqb_refl. cbn [Nat.eqb bind].
  destruct (kunlink_ok h k g I) as (h1 & -> & I1 & C1 & L1). cbn [bind].
  destruct (klink_ok h1 EMPTY_store g I1) as (h2 & -> & I2 & C2 & L2). { left. reflexivity. } cbn [bind].
  exists h2, EK. split; [reflexivity|]. split; [exact I2|]. split; [intros b _; rewrite C2, C1; reflexivity|].
  split; [eapply hasv_EK; exact I2|apply shaped_0; reflexivity].
Qed.
Lemma krange_ok h k g v i j c : Inv h g -> 0 < g (ks k) -> hasv h k v -> shaped h k c ->
  done h g (part i j v) (range_shape c i) (krange h k i j).
Proof.
  intros I Gk V W. unfold krange. pose proof (hasv_length h k v V) as Hl. cbv zeta.
  set (n := Z.of_nat (kr k - kl k)). set (j1 := if (n <? j)%Z then n else j). set (i1 := if (i <? 0)%Z then 0%Z else i).
  set (j2 := if (j1 <? i1)%Z then i1 else j1).
  destruct (klink_ok h (ks k) g I) as (h1 & -> & I1 & C1 & L1); [auto|]. cbn [bind].
  assert (Hdone : forall x c r, done h1 g x c r -> done h g x c r).
  { intros x c' r (h2 & k2 & E & I2 & K2 & R). exists h2, k2. split; [exact E|]. split; [exact I2|]. split; [|exact R].
    intros b Hb. rewrite K2 by assumption. apply C1. }
  apply Hdone. unfold part. destruct (Z.ltb_spec j1 i1) as [Hlt|Hge].
  - replace (skipn (Z.to_nat i) (firstn (Z.to_nat j) v)) with (@nil bytes).
    2:{ symmetry. apply skipn_all2. rewrite firstn_length. subst j1 i1. destruct (Z.ltb_spec n j), (Z.ltb_spec i 0); lia. }
    apply (kcollapse_empty h1 {| ks := ks k; kl := kl k + Z.to_nat i1; kr := kl k + Z.to_nat j2 |} g); [exact I1|].
    cbn [kl kr]. subst j2. lia.
  - assert (Hi : Z.to_nat i1 = Z.to_nat i) by (subst i1; destruct (Z.ltb_spec i 0); lia).
    assert (Hj : firstn (Z.to_nat j1) v = firstn (Z.to_nat j) v).
    { subst j1. destruct (Z.ltb_spec n j); [|reflexivity]. rewrite !firstn_all2 by lia. reflexivity. }
    rewrite <- Hi, <- Hj. apply kcollapse_ok; [exact I1| |].
    + subst j2. apply hasv_part; [eapply hasv_keep; [apply C1|exact V]| |]; subst i1 j1; destruct (Z.ltb_spec n j), (Z.ltb_spec i 0); lia.
    + unfold range_shape. destruct (is_rest c) eqn:Er; cbn [orb]; [exact Logic.I|]. destruct (Z.ltb_spec 0 i); [exact Logic.I|]. cbn [shaped ks kl].
      destruct c; [destruct W as [W|[W _]]|destruct W as [W|W]|discriminate]; auto; right; rewrite W; subst i1; destruct (Z.ltb_spec i 0); lia.
Qed.

Lemma kconcat_ok h p k g v y : Inv h g -> 0 < g (ks p) -> 0 < g (ks k) -> hasv h p v -> hasv h k y ->
  done h g (joined_keys v y) Whole (kconcat h p k).
Proof.
  intros I Gp Gk V Vy. unfold kconcat. rewrite (slash_flag h _ k y I) by auto. cbn [bind].
  rewrite (klist_ok h g p v), (klist_ok h g k y) by assumption. cbn [bind]. unfold joined_keys.
  set (t := (length y =? 0) || ends_in_slash y).
  pose proof (filter_length_le not_empty v) as Hv. pose proof (filter_length_le not_empty y) as Hy.
  destruct (put_all_ok v (repeat [] (length v + length y + 1)) 0) as (w1 & -> & L1 & F1); [lia|rewrite repeat_length; lia|].
  rewrite repeat_length in L1. cbn [bind Nat.add firstn app] in *.
  destruct (put_all_ok y w1 (length (filter not_empty v))) as (w2 & -> & L2 & F2); [lia|lia|]. cbn [bind].
  rewrite F1 in F2. set (n := length (filter not_empty v) + length (filter not_empty y)) in *.
  assert (Fin : forall w x u, firstn u w = x -> u <= length w ->
     done h g (root_or x) Whole (let (h0, b) := new_store h w u in kcollapse h0 {| ks := b; kl := 0; kr := u |})).
  { intros w x u Fx Hu. destruct (new_ok h g w u I) as (h2 & -> & I2 & K2 & C2 & G2 & N2).
    destruct (kcollapse_ok h2 {| ks := length h; kl := 0; kr := u |} g x Whole) as (h5 & k5 & -> & I5 & K5 & V5 & W5).
    - exact I2.
    - exists w, u. cbn [ks kl kr]. rewrite Nat.sub_0_r. cbn [skipn]. repeat split; auto; lia.
    - right. split; [reflexivity|]. exists w. exact C2.
    - exists h5, k5. split; [reflexivity|]. split; [exact I5|]. split; [|auto]. intros b Hb. rewrite K5 by assumption. apply K2. exact Hb. }
  destruct t.
  - destruct (put_ok w2 n []) as (w4 & P4 & L4 & Q4 & O4); [lia|]. rewrite P4. cbn [bind].
    apply Fin; [|lia]. rewrite (firstn_snoc w4 _ [] Q4). rewrite (firstn_ext n w4 w2) by (intros; apply O4; lia). rewrite F2, <- app_assoc. reflexivity.
  - cbn [bind]. apply Fin; [|lia]. rewrite app_nil_r. exact F2.
Qed.

Lemma kpop_ok h k g v n : Inv h (fun b => one (ks k) b + g b) -> hasv h k v -> canonical v ->
  exists h' k' r, kpop h k n = Ok (h', k', r) /\ Inv h' (fun b => one (ks r) b + (one (ks k') b + g b)) /\ keep h h' g /\
    hasv h' k' (root_or (skipn (Z.to_nat n) v)) /\ hasv h' r (root_or (firstn (Z.to_nat n) v)).
Proof.
  intros I V Cv. unfold kpop. destruct (Z.eqb_spec n 0) as [->|Hn].
  - destruct (klink_ok h EMPTY_store _ I) as (h2 & -> & I2 & C2 & L2). { left. reflexivity. } cbn [bind].
    exists h2, k, EK. split; [reflexivity|]. split; [exact I2|]. split; [intros b _; apply C2|]. cbn [Z.to_nat skipn firstn].
    pose proof (canonical_not_nilseg v Cv). replace (root_or v) with v by (destruct v as [|[|c x] [|z r]]; try reflexivity; congruence).
    split; [eapply hasv_keep; [apply C2|exact V]|eapply hasv_EK; exact I2].
  - destruct (kunique_ok h k g v Rest I V) as (h1 & k1 & w & u & -> & I1 & K1 & N1 & G1 & V1 & C1 & _). { exact Logic.I. }
    cbn [bind]. cbv zeta. pose proof (hasv_length h1 k1 v V1) as Hl.
    set (n1 := if (Z.of_nat (kr k1 - kl k1) <? n)%Z then Z.of_nat (kr k1 - kl k1) else n).
    set (n2 := if (n1 <? 0)%Z then 0%Z else n1). cbn [ks kl kr].
    assert (H2 : (0 <= n2 <= Z.of_nat (length v))%Z) by (subst n2 n1; destruct (Z.ltb_spec (Z.of_nat (kr k1 - kl k1)) n); match goal with |- context [(?a <? 0)%Z] => destruct (Z.ltb_spec a 0) end; lia).
    assert (Es : skipn (Z.to_nat n2) v = skipn (Z.to_nat n) v /\ firstn (Z.to_nat n2) v = firstn (Z.to_nat n) v).
    { subst n2 n1. destruct (Z.ltb_spec (Z.of_nat (kr k1 - kl k1)) n) as [A|A].
      - destruct (Z.ltb_spec (Z.of_nat (kr k1 - kl k1)) 0); [lia|]. rewrite !skipn_all2, !firstn_all2 by lia. auto.
      - destruct (Z.ltb_spec n 0) as [D|D]; [|auto]. replace (Z.to_nat n) with 0 by lia. auto. }
    destruct (klink_ok h1 (ks k1) _ I1) as (h2 & -> & I2 & C2 & L2). { right. rewrite one_same. lia. } cbn [bind].
    set (kk := {| ks := ks k1; kl := kl k1 + Z.to_nat n2; kr := kr k1 |}).
    set (rr := {| ks := ks k1; kl := kl k1; kr := kl k1 + Z.to_nat n2 |}).
    assert (V2 : hasv h2 k1 v) by (eapply hasv_keep; [apply C2|exact V1]).
    assert (Vk : hasv h2 kk (skipn (Z.to_nat n2) v)).
    { pose proof (hasv_part h2 k1 v (Z.to_nat n2) (length v) V2) as P. rewrite firstn_all in P.
      replace kk with {| ks := ks k1; kl := kl k1 + Z.to_nat n2; kr := kl k1 + length v |}; [apply P; lia|].
      unfold kk. f_equal. destruct V1 as (? & ? & _ & ? & _). lia. }
    assert (Vr : hasv h2 rr (firstn (Z.to_nat n2) v)).
    { pose proof (hasv_part h2 k1 v 0 (Z.to_nat n2) V2) as P. cbn [skipn] in P. rewrite Nat.add_0_r in P. apply P; lia. }
    destruct (kcollapse_ok h2 kk (fun b => one (ks k1) b + g b) (skipn (Z.to_nat n2) v) Rest) as (h3 & k3 & -> & I3 & K3 & V3 & _).
    { exact I2. } { exact Vk. } { exact Logic.I. }
    cbn [bind].
    destruct (kcollapse_ok h3 rr (fun b => one (ks k3) b + g b) (firstn (Z.to_nat n2) v) Rest) as (h4 & k4 & -> & I4 & K4 & V4 & _).
    { eapply Inv_ext; [|exact I3]. intros b. cbn [ks rr]. lia. }
    { eapply hasv_keep; [|exact Vr]. apply K3. cbn [ks rr]. rewrite one_same. lia. } { exact Logic.I. }
    cbn [bind]. exists h4, k3, k4. split; [reflexivity|]. split; [exact I4|]. destruct Es as [<- <-]. split; [|split; [|exact V4]].
    + intros b Hb. rewrite K4 by (lia). rewrite K3 by lia. rewrite C2. apply K1. exact Hb.
    + eapply hasv_keep; [|exact V3]. apply K4. rewrite one_same. lia.
Qed.

(** ** Canonical results *)
Lemma collapse_root k : KeyModel.collapse k = root_or k.
Proof. destruct k as [|[|c x] [|z r]]; reflexivity. Qed.
Lemma plain_canonical k : Forall plain k -> canonical k.
Proof. left. assumption. Qed.
Lemma named_plain k : canonical k -> Forall plain (named k).
Proof. intros C. rewrite <- stem_named by exact C. apply stem_plain, C. Qed.
Lemma canonical_joined v y : canonical v -> canonical y -> canonical (joined_keys v y).
Proof.
  intros Cv Cy. unfold joined_keys. apply named_plain in Cv, Cy. pose proof (conj Cv Cy) as H. rewrite <- Forall_app in H.
  rewrite app_assoc. destruct ((length y =? 0) || ends_in_slash y).
  - destruct (named v ++ named y) as [|x l] eqn:E; [left; constructor|]. rewrite <- E in *. rewrite <- collapse_root, collapse_id.
    + right. exists (named v ++ named y). split; [congruence|]. auto.
    + rewrite E. destruct l; discriminate.
  - rewrite app_nil_r, <- collapse_root, plain_collapse by exact H. left. exact H.
Qed.
Lemma canonical_part i j v : canonical v -> canonical (part i j v).
Proof. intros C. unfold part. rewrite <- collapse_root. apply canonical_skipn, canonical_firstn, C. Qed.
Lemma canonical_rest n v : canonical v -> canonical (root_or (skipn n v)).
Proof. intros C. rewrite <- collapse_root. apply canonical_skipn, C. Qed.
Lemma canonical_front n v : canonical v -> canonical (root_or (firstn n v)).
Proof.
  intros C. rewrite <- collapse_root, collapse_id; [apply canonical_firstn, C|]. apply canonical_not_nilseg, canonical_firstn, C.
Qed.
Lemma canonical_prepend y v : canonical y -> canonical v -> canonical (root_or (named y ++ v)).
Proof.
  intros Cy Cv. apply named_plain in Cy. destruct Cv as [Pv|(k & Hk & Pk & ->)].
  - pose proof (conj Cy Pv) as H. rewrite <- Forall_app in H. rewrite <- collapse_root, plain_collapse by exact H. left. exact H.
  - pose proof (conj Cy Pk) as H. rewrite <- Forall_app in H. rewrite <- collapse_root, collapse_id, app_assoc.
    + right. exists (named y ++ k). split; [|auto]. destruct (named y); [exact Hk|discriminate].
    + rewrite app_assoc. intros E. apply (f_equal (@length bytes)) in E. rewrite !app_length in E. cbn in E. destruct k; [congruence|cbn in E; lia].
Qed.
Lemma no_slash_plain v : canonical v -> ends_in_slash v = false -> Forall plain v.
Proof.
  intros [P|(k & Hk & Pk & ->)] E; [exact P|]. unfold ends_in_slash in E. rewrite last_last in E. rewrite app_length in E. cbn in E.
  rewrite Nat.add_1_r in E. discriminate.
Qed.

(** ** Programs *)
Fixpoint cntv (e : list (option kref)) (b : nat) : nat :=
  match e with [] => 0 | Some k :: r => one (ks k) b + cntv r b | None :: r => cntv r b end.
Lemma cnt_take b : forall e x k, nth_error e x = Some (Some k) -> cntv e b = one (ks k) b + cntv (setnth e x None) b.
Proof.
  induction e as [|o e IH]; intros [|x] k H; cbn in H; try discriminate.
  - injection H as ->. reflexivity.
  - cbn [setnth cntv]. specialize (IH x k H). destruct o; lia.
Qed.
Lemma cnt_free b : forall e x, nth_error e x = Some None -> cntv (setnth e x None) b = cntv e b.
Proof.
  induction e as [|o e IH]; intros [|x] H; cbn in H; try discriminate.
  - injection H as ->. reflexivity.
  - cbn [setnth cntv]. specialize (IH x H). destruct o; lia.
Qed.
Lemma cnt_set b e x o k : nth_error e x = Some o -> cntv (setnth e x (Some k)) b = one (ks k) b + cntv (setnth e x None) b.
Proof.
  intros H. rewrite (cnt_take b (setnth e x (Some k)) x k) by (eapply setnth_same; exact H). rewrite setnth_setnth. reflexivity.
Qed.
Lemma cnt_var e x k : nth_error e x = Some (Some k) -> 0 < cntv e (ks k).
Proof. intros H. rewrite (cnt_take _ e x k H), one_same. lia. Qed.
Lemma cnt_other e x y k : x <> y -> nth_error e y = Some (Some k) -> 0 < cntv (setnth e x None) (ks k).
Proof. intros N H. apply (cnt_var _ y). rewrite setnth_other by assumption. exact H. Qed.

Record Rel (s : kstate) (e : aenv) : Prop := {
  rel_inv : Inv (khp s) (cntv (kenv s));
  rel_len : length (kenv s) = length e;
  rel_some : forall x k, nth_error (kenv s) x = Some (Some k) ->
    exists a, nth_error e x = Some (Some a) /\ hasv (khp s) k (val a) /\ canonical (val a) /\ shaped (khp s) k (cut a);
  rel_none : forall x, nth_error (kenv s) x = Some None -> nth_error e x = Some None }.

Lemma rel_init n : Rel (kinit n) (repeat None n).
Proof.
  assert (Z0 : forall b n, cntv (repeat None n) b = 0) by (intros b m; induction m; auto).
  split; cbn [khp kenv kinit].
  - split.
    + intros [|[|b]] s E; cbn in E; try discriminate. injection E as <-. rewrite Z0. cbn. auto.
    + intros b. rewrite Z0. lia.
    + reflexivity.
  - rewrite !repeat_length. reflexivity.
  - intros x k E. apply nth_error_In, repeat_spec in E. discriminate.
  - intros x E. apply nth_lt in E. rewrite repeat_length in E. clear - E. revert x E. induction n as [|n IH]; intros [|x] E; cbn; try lia; [reflexivity|]. apply IH. lia.
Qed.
Lemma rel_get s e x a : Rel s e -> aget e x = Some a -> exists k, nth_error (kenv s) x = Some (Some k) /\ kvar s x = Ok k /\
  hasv (khp s) k (val a) /\ canonical (val a) /\ shaped (khp s) k (cut a) /\ 0 < cntv (kenv s) (ks k).
Proof.
  intros [A B C D] G. unfold aget in G. destruct (nth_error e x) as [o|] eqn:E; [|discriminate]. subst o.
  destruct (nth_error (kenv s) x) as [[k|]|] eqn:Ex.
  - exists k. destruct (C x k Ex) as (a' & Ea & R). rewrite E in Ea. injection Ea as <-. split; [reflexivity|]. split; [unfold kvar; rewrite Ex; reflexivity|].
    destruct R as (R1 & R2 & R3). repeat split; auto. eapply cnt_var; exact Ex.
  - rewrite (D x Ex) in E. discriminate.
  - apply nth_error_None in Ex. apply nth_lt in E. lia.
Qed.
Lemma rel_free s e x : Rel s e -> afree e x = true -> nth_error (kenv s) x = Some None /\ kfresh s x = Ok tt.
Proof.
  intros [A B C D] G. unfold afree in G. destruct (nth_error e x) as [[a|]|] eqn:E; try discriminate.
  destruct (nth_error (kenv s) x) as [[k|]|] eqn:Ex.
  - destruct (C x k Ex) as (a' & Ea & _). congruence.
  - unfold kfresh. rewrite Ex. auto.
  - apply nth_error_None in Ex. apply nth_lt in E. lia.
Qed.
Lemma rel_update s e x o r v c : Rel s e -> nth_error (kenv s) x = Some o -> canonical v ->
  done (khp s) (cntv (setnth (kenv s) x None)) v c r ->
  exists s', kset s x r = Ok s' /\ Rel s' (setnth e x (Some {| val := v; cut := c |})).
Proof.
  intros [A B C D] Ex Cv (h' & k' & -> & I' & K' & V' & W'). eexists. split; [reflexivity|]. split; cbn [khp kenv].
  - eapply Inv_ext; [|exact I']. intros b. symmetry. eapply cnt_set. exact Ex.
  - rewrite !setnth_length. exact B.
  - assert (Hx : exists o', nth_error e x = Some o').
    { destruct (nth_error e x) eqn:E; [eauto|]. apply nth_error_None in E. apply nth_lt in Ex. lia. }
    destruct Hx as (o' & Eo). intros y k Ey. destruct (Nat.eq_dec x y) as [<-|N].
    + rewrite (setnth_same _ _ _ _ Ex) in Ey. injection Ey as <-. rewrite (setnth_same _ _ _ _ Eo). eexists. split; [reflexivity|]. auto.
    + rewrite setnth_other in Ey by assumption. rewrite setnth_other by assumption. destruct (C y k Ey) as (a & Ea & R1 & R2 & R3).
      assert (E : content h' (ks k) = content (khp s) (ks k)) by (apply K'; eapply cnt_other; eassumption).
      exists a. split; [exact Ea|]. split; [eapply hasv_keep; eassumption|]. split; [exact R2|]. eapply shaped_keep; eauto.
  - intros y Ey. destruct (Nat.eq_dec x y) as [<-|N].
    + rewrite (setnth_same _ _ _ _ Ex) in Ey. discriminate.
    + rewrite setnth_other in Ey by assumption. rewrite setnth_other by assumption. auto.
Qed.
Lemma rel_fresh_done s e x r v c : Rel s e -> afree e x = true -> canonical v -> done (khp s) (cntv (kenv s)) v c r ->
  exists s', (let! _ := kfresh s x in kset s x r) = Ok s' /\ Rel s' (setnth e x (Some {| val := v; cut := c |})).
Proof.
  intros R F Cv (h' & k' & E & I' & K' & V'). destruct (rel_free s e x R F) as [Ex ->]. cbn [bind].
  eapply rel_update; eauto. exists h', k'. split; [exact E|]. split; [|split; [|exact V']].
  - eapply Inv_ext; [|exact I']. intros b. rewrite (cnt_free b _ x Ex). reflexivity.
  - intros b Hb. apply K'. rewrite (cnt_free b _ x Ex) in Hb. exact Hb.
Qed.
Lemma link_done h g k v c : Inv h g -> ks k = 0 \/ 0 < g (ks k) -> hasv h k v -> shaped h k c ->
  done h g v c (let! h := klink h (ks k) in Ok (h, k)).
Proof.
  intros I H V W. destruct (klink_ok h (ks k) g I H) as (h1 & -> & I1 & C1 & L1). cbn [bind]. exists h1, k.
  split; [reflexivity|]. split; [exact I1|]. split; [intros b _; apply C1|]. split; [eapply hasv_keep; [apply C1|exact V]|].
  eapply shaped_keep; [apply C1|auto].
Qed.

Lemma kstep_ok s e o e' : Rel s e -> kc_string o -> ameaning e o = Some e' -> exists s', kstep s o = Ok s' /\ Rel s' e'.
Proof.
  intros R Hc M. pose proof (rel_inv s e R) as I. destruct o as [x|x t|x y|x y z|x y i j|x y n|x y|x y|x y|x]; cbn [ameaning kstep] in *.
  - destruct (afree e x) eqn:F; [|discriminate]. injection M as <-. eapply rel_fresh_done; eauto; [left; constructor|].
    apply (link_done _ _ EK); auto; [eapply hasv_EK; exact I|left; reflexivity].
  - destruct (afree e x) eqn:F; [|discriminate]. injection M as <-. eapply rel_fresh_done; eauto; [apply path_key_canonical, Hc|].
    destruct (make_store_ok 4 t Hc) as (w & u & -> & Fu & Lu & _ & Hu). cbn [bind].
    destruct (new_ok (khp s) _ w u I) as (h2 & -> & I2 & K2 & C2 & G2 & N2). exists h2, {| ks := length (khp s); kl := 0; kr := u |}.
    split; [reflexivity|]. split; [exact I2|]. split; [exact K2|]. split.
    + exists w, u. cbn [ks kl kr]. rewrite Nat.sub_0_r. cbn [skipn]. repeat split; auto; lia.
    + right. split; [reflexivity|]. exists w. exact C2.
  - destruct (afree e x) eqn:F; [|discriminate]. destruct (aget e y) as [a|] eqn:Gy; [|discriminate]. injection M as <-.
    destruct (rel_get s e y a R Gy) as (k & Ek & -> & V & Cv & W & P). destruct (rel_free s e x R F) as [Ex Ef]. rewrite Ef. cbn [bind].
    pose proof (rel_fresh_done s e x (let! h := klink (khp s) (ks k) in Ok (h, k)) (val a) (cut a) R F Cv) as Q. rewrite Ef in Q. cbn [bind] in Q.
    apply Q, link_done; auto.
  - destruct (afree e x) eqn:F; [|discriminate]. destruct (aget e y) as [a|] eqn:Gy; [|discriminate]. destruct (aget e z) as [a2|] eqn:Gz; [|discriminate]. injection M as <-.
    destruct (rel_get s e y a R Gy) as (k & Ek & -> & V & Cv & W & P). destruct (rel_get s e z a2 R Gz) as (k2 & Ek2 & -> & V2 & Cv2 & W2 & P2).
    cbn [bind]. apply rel_fresh_done; auto; [apply canonical_joined; assumption|]. apply kconcat_ok; auto.
  - destruct (afree e x) eqn:F; [|discriminate]. destruct (aget e y) as [a|] eqn:Gy; [|discriminate]. injection M as <-.
    destruct (rel_get s e y a R Gy) as (k & Ek & -> & V & Cv & W & P). cbn [bind].
    apply rel_fresh_done; auto; [apply canonical_part; assumption|]. apply krange_ok; auto.
  - destruct (afree e x) eqn:F; [|discriminate]. destruct (aget e y) as [a|] eqn:Gy; [|discriminate]. injection M as <-.
    destruct (rel_get s e y a R Gy) as (k & Ek & -> & V & Cv & W & P). destruct (rel_free s e x R F) as [Ex ->]. cbn [bind].
    assert (Nxy : x <> y) by congruence.
    destruct (kpop_ok (khp s) k (cntv (setnth (kenv s) y None)) (val a) n) as (h' & k' & r & -> & I' & K' & V1 & V2); auto.
    { eapply Inv_ext; [|exact I]. intros b. eapply cnt_take. exact Ek. }
    cbn [bind]. eexists. split; [reflexivity|].
    destruct R as [_ B C D]. split; cbn [khp kenv].
    + eapply Inv_ext; [|exact I']. intros b.
      assert (Ex' : nth_error (setnth (kenv s) y (Some k')) x = Some None) by (rewrite setnth_other by auto; exact Ex).
      rewrite (cnt_set b _ x _ r Ex'), (cnt_free b _ x Ex'), (cnt_set b _ y _ k' Ek). reflexivity.
    + rewrite !setnth_length. exact B.
    + intros i k0 E0. destruct (Nat.eq_dec x i) as [Hi|N].
      * subst i. erewrite setnth_same in E0 by (rewrite setnth_other by auto; exact Ex). injection E0 as <-.
        eexists. split; [eapply setnth_same; rewrite setnth_other by auto; apply D; exact Ex|].
        cbn [val cut]. split; [exact V2|]. split; [apply canonical_front, Cv|exact Logic.I].
      * rewrite setnth_other in E0 by assumption. rewrite setnth_other by assumption. destruct (Nat.eq_dec y i) as [Hi|N2].
        { subst i. rewrite (setnth_same _ _ _ _ Ek) in E0. injection E0 as <-. destruct (C y k Ek) as (a' & Ea & _).
          rewrite (setnth_same _ _ _ _ Ea). eexists. split; [reflexivity|]. cbn [val cut]. split; [exact V1|]. split; [apply canonical_rest, Cv|exact Logic.I]. }
        rewrite setnth_other in E0 by assumption. rewrite setnth_other by assumption. destruct (C i k0 E0) as (a0 & Ea & R1 & R2 & R3).
        assert (E : content h' (ks k0) = content (khp s) (ks k0)) by (apply K'; eapply cnt_other; eassumption).
        exists a0. split; [exact Ea|]. split; [eapply hasv_keep; eassumption|]. split; [exact R2|]. eapply shaped_keep; eauto.
    + intros i E0. destruct (Nat.eq_dec x i) as [Hi|N].
      * subst i. erewrite setnth_same in E0 by (rewrite setnth_other by auto; exact Ex). discriminate.
      * rewrite setnth_other in E0 by assumption. rewrite setnth_other by assumption. destruct (Nat.eq_dec y i) as [Hi|N2].
        { subst i. rewrite (setnth_same _ _ _ _ Ek) in E0. discriminate. }
        rewrite setnth_other in E0 by assumption. rewrite setnth_other by assumption. auto.
  - destruct (Nat.eqb_spec x y) as [|N]; [discriminate|]. destruct (aget e x) as [a|] eqn:Gx; [|discriminate]. destruct (aget e y) as [a2|] eqn:Gy; [|discriminate]. injection M as <-.
    destruct (rel_get s e x a R Gx) as (k & Ek & -> & V & Cv & W & P). destruct (rel_get s e y a2 R Gy) as (k2 & Ek2 & -> & V2 & Cv2 & W2 & P2).
    cbn [bind]. eapply rel_update; eauto.
    destruct (kunlink_ok (khp s) k (cntv (setnth (kenv s) x None))) as (h1 & -> & I1 & C1 & L1).
    { eapply Inv_ext; [|exact I]. intros b. eapply cnt_take. exact Ek. }
    cbn [bind]. destruct (link_done h1 (cntv (setnth (kenv s) x None)) k2 (val a2) (cut a2)) as (h2 & k3 & E2 & I2 & K2 & R2).
    { exact I1. } { right. eapply cnt_other; eassumption. } { eapply hasv_keep; [apply C1|exact V2]. } { eapply shaped_keep; [apply C1|auto]. }
    exists h2, k3. split; [exact E2|]. split; [exact I2|]. split; [|exact R2]. intros b Hb. rewrite K2 by assumption. apply C1.
  - destruct (Nat.eqb_spec x y) as [|N]; [discriminate|]. destruct (aget e x) as [a|] eqn:Gx; [|discriminate]. destruct (aget e y) as [a2|] eqn:Gy; [|discriminate].
    destruct (is_rest (cut a)) eqn:Hcut; [discriminate|]. cbn [orb] in M. destruct (ends_in_slash (val a)) eqn:Hs; [discriminate|]. injection M as <-.
    destruct (rel_get s e x a R Gx) as (k & Ek & -> & V & Cv & W & P). destruct (rel_get s e y a2 R Gy) as (k2 & Ek2 & -> & V2 & Cv2 & W2 & P2).
    cbn [bind]. eapply rel_update; eauto; [apply canonical_joined; assumption|].
    apply kappend_ok; auto.
    + eapply Inv_ext; [|exact I]. intros b. eapply cnt_take. exact Ek.
    + eapply cnt_other; eassumption.
    + intros E. rewrite E in Hcut. discriminate.
    + apply no_slash_plain; assumption.
  - destruct (Nat.eqb_spec x y) as [|N]; [discriminate|]. destruct (aget e x) as [a|] eqn:Gx; [|discriminate]. destruct (aget e y) as [a2|] eqn:Gy; [|discriminate].
    destruct (is_whole (cut a)) eqn:Hcut; [|discriminate]. injection M as <-. destruct (cut a) eqn:Hw; try discriminate.
    destruct (rel_get s e x a R Gx) as (k & Ek & -> & V & Cv & W & P). destruct (rel_get s e y a2 R Gy) as (k2 & Ek2 & -> & V2 & Cv2 & W2 & P2).
    rewrite Hw in W. cbn [bind]. eapply rel_update; eauto; [apply canonical_prepend; assumption|].
    apply kprepend_ok; auto.
    + eapply Inv_ext; [|exact I]. intros b. eapply cnt_take. exact Ek.
    + eapply cnt_other; eassumption.
  - destruct (aget e x) as [a|] eqn:Gx; [|discriminate]. injection M as <-.
    destruct (rel_get s e x a R Gx) as (k & Ek & -> & V & Cv & W & P). cbn [bind].
    destruct (kunlink_ok (khp s) k (cntv (setnth (kenv s) x None))) as (h1 & -> & I1 & C1 & L1).
    { eapply Inv_ext; [|exact I]. intros b. eapply cnt_take. exact Ek. }
    cbn [bind]. eexists. split; [reflexivity|]. destruct R as [_ B C D]. split; cbn [khp kenv].
    + exact I1.
    + rewrite !setnth_length. exact B.
    + intros i k0 E0. destruct (Nat.eq_dec x i) as [<-|N].
      * rewrite (setnth_same _ _ _ _ Ek) in E0. discriminate.
      * rewrite setnth_other in E0 by assumption. rewrite setnth_other by assumption. destruct (C i k0 E0) as (a0 & Ea & R1 & R2 & R3).
        exists a0. split; [exact Ea|]. split; [eapply hasv_keep; [apply C1|eassumption]|]. split; [exact R2|]. eapply shaped_keep; [apply C1|auto].
    + intros i E0. destruct (Nat.eq_dec x i) as [<-|N].
      * destruct (C x k Ek) as (a' & Ea & _). eapply setnth_same. exact Ea.
      * rewrite setnth_other in E0 by assumption. rewrite setnth_other by assumption. auto.
Qed.
Lemma krun_rel : forall ops s e e', Rel s e -> Forall kc_string ops -> arun e ops = Some e' -> exists s', krun s ops = Ok s' /\ Rel s' e'.
Proof.
  induction ops as [|o ops IH]; intros s e e' R F M; cbn [arun krun] in *.
  - injection M as <-. eauto.
  - inversion F; subst. destruct (ameaning e o) as [e1|] eqn:E; [|discriminate].
    destruct (kstep_ok s e o e1) as (s1 & -> & R1); auto. cbn [bind]. eauto.
Qed.
Lemma krun_values n ops e : Forall kc_string ops -> arun (repeat None n) ops = Some e ->
  exists s, krun (kinit n) ops = Ok s /\ forall x a, aget e x = Some a -> kview s x = Ok (val a).
Proof.
  intros F M. destruct (krun_rel ops _ _ _ (rel_init n) F M) as (s & E & R). exists s. split; [exact E|].
  intros x a Ga. destruct (rel_get s e x a R Ga) as (k & Ek & Ev & V & Cv & W & P). unfold kview. rewrite Ev. cbn [bind].
  eapply klist_ok; [apply R|exact P|exact V].
Qed.
Lemma krun_freed n ops e : Forall kc_string ops -> arun (repeat None n) ops = Some e -> (forall x, aget e x = None) ->
  exists s, krun (kinit n) ops = Ok s /\ forall b st, nth_error (khp s) b = Some st -> b <> EMPTY_store -> live st = false.
Proof.
  intros F M N. destruct (krun_rel ops _ _ _ (rel_init n) F M) as (s & E & R). exists s. split; [exact E|].
  intros b st Hb Nb. destruct (inv_refs _ _ (rel_inv s e R) b st Hb) as [X Y].
  assert (Z : cntv (kenv s) b = 0).
  { assert (A : forall x k, nth_error (kenv s) x = Some (Some k) -> False).
    { intros x k Ex. destruct (rel_some s e R x k Ex) as (a & Ea & _). specialize (N x). unfold aget in N. rewrite Ea in N. discriminate. }
    revert A. generalize (kenv s). intros l. induction l as [|[k|] l IH]; intros A; [reflexivity|destruct (A 0 k eq_refl)|].
    cbn [cntv]. apply IH. intros x k Ex. apply (A (S x) k Ex). }
  destruct (Nat.eqb_spec b 0); [contradiction|]. rewrite Y, X, Z. reflexivity.
Qed.
Lemma krun_canonical n ops e : Forall kc_string ops -> arun (repeat None n) ops = Some e -> forall x a, aget e x = Some a -> canonical (val a).
Proof.
  intros F M x a Ga. destruct (krun_rel ops _ _ _ (rel_init n) F M) as (s & E & R). destruct (rel_get s e x a R Ga) as (k & _ & _ & _ & C & _). exact C.
Qed.
