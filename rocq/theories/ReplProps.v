(** C58: generators that are kept the same. *)
From Verif Require Import Base BaseFacts Ctype KeyModel KeySpec KeyProofs TempModel TempSpec TreeProofs TempProofs TempProps LayerSpec WatchModel RecModel RecProofs FeedProofs CacheModel CacheProofs ReplModel ReplProofs.
Local Open Scope nat_scope.

(** A memory generator with any history *)
Definition made (g : gen) : Prop := exists hs ns, history tinit hs ns g /\ canonical_history hs.
Lemma made_wf g : made g -> WFo (root g).
Proof. intros (hs & ns & H & C). apply (reach _ _ _ H C). Qed.
Definition revent_ok (e : revent) : Prop :=
  match e with RSet k _ | RInner k _ => canonical k | RAppend g | RPrepend g => made g | _ => True end.
(** When a generator comes back, a call that notices it comes before isok() and before
    a change that is made in one of the generators. *)
Fixpoint orderly (back : bool) (es : list revent) : Prop :=
  match es with
  | [] => True
  | ROk _ ok :: es => orderly (back || ok) es
  | (RIsok | RInner _ _) :: es => back = false /\ orderly false es
  | _ :: es => orderly false es
  end.
(** A generator came back, and no call has noticed it. *)
Fixpoint waiting (back : bool) (es : list revent) : bool :=
  match es with
  | [] => back
  | ROk _ ok :: es => waiting (back || ok) es
  | _ :: es => waiting false es
  end.
(** The generator at place [i] is in order all the time. *)
Fixpoint steady (i : nat) (es : list revent) : Prop :=
  match es with
  | [] => True
  | ROk p ok :: es => (p = i -> ok = true) /\ steady i es
  | RPrepend _ :: es => steady (S i) es
  | _ :: es => steady i es
  end.
(** What the generators that are in order hold, the first one that has a key deciding *)
Definition held (l : list rep) : contents := stacked (map (fun r => if rok r then tget (rgen r) else nothing) l).

Lemma held_offers l q : Forall plain q -> held l q = stacked (map offers l) q.
Proof.
  intros P. unfold held. induction l as [|x l IH]; [reflexivity|]. cbn [map stacked]. rewrite IH. unfold offers at 2. destruct (rok x); [|reflexivity]. rewrite tget_has by (left; exact P). rewrite (proj1 (plain_slashed _ P)). reflexivity.
Qed.
Lemma held_agree l : agree (held l) (stacked (map offers l)).
Proof. intros q P _. apply held_offers, P. Qed.
Definition known (M : contents) (i : nat) (l : list rep) : Prop := exists r, nth_error l i = Some r /\ rok r = true /\ was_ok r = true /\ agree M (con r).
Lemma settled_known M i l l' n m : settled m l' -> keeps l l' -> follows l n m -> known M i l -> known (replay n M) i l'.
Proof.
  intros St K F (r & Hr & Kr & Wr & A). destruct (f2_nth _ _ _ _ _ K Hr) as (r' & Hr' & Kr' & _). assert (Hin : In r' l') by (eapply nth_error_In, Hr'). exists r'. split; [exact Hr'|]. split; [congruence|].
  split; [apply (calm_was l'); [apply St|exact Hin|congruence]|]. eapply agree_trans; [eapply F; [eapply nth_error_In, Hr|exact Kr|exact Wr|exact A]|]. apply agree_sym. apply St; [exact Hin|congruence].
Qed.
Lemma rep_new_wf g ok : made g -> rwf (rep_new g ok).
Proof. exact (made_wf g). Qed.
Lemma rstep_ok l e n l' : rstep l e n l' -> forall back es, sound l -> (back = false -> calm l) -> orderly back (e :: es) -> revent_ok e ->
  sound l' /\ exists back', orderly back' es /\ waiting back (e :: es) = waiting back' es /\ (back' = false -> calm l') /\ forall M i, steady i (e :: es) -> known M i l -> exists i', steady i' es /\ known (replay n M) i' l'.
Proof.
  intros H back es So Ca O Eo. assert (St1 : forall m, settled m l' -> orderly false es -> waiting back (e :: es) = waiting false es -> (forall M i, steady i (e :: es) -> known M i l -> exists i', steady i' es /\ known (replay n M) i' l') ->
    sound l' /\ exists back', orderly back' es /\ waiting back (e :: es) = waiting back' es /\ (back' = false -> calm l') /\ forall M i, steady i (e :: es) -> known M i l -> exists i', steady i' es /\ known (replay n M) i' l').
  { intros m St Of Wt Kn. destruct (settled_sound _ _ St) as (S' & C'). split; [exact S'|]. exists false. split; [exact Of|]. split; [exact Wt|]. auto. }
  destruct H as [l k v l' n E|l k v l' n E|l l' b E|a r b k v l' n K E|a r b ok|l g l' n E|l g l' n E]; cbn [orderly steady revent_ok] in *.
  - destruct (rep_set_ok l k v So Eo) as (l2 & n2 & E2 & St & K & F). rewrite E in E2. injection E2 as <- <-. apply (St1 _ St O eq_refl). intros M i S Kn. exists i. split; [exact S|]. eapply settled_known; eassumption.
  - destruct (rep_get_ok l k So) as (l2 & n2 & v2 & E2 & St & K & F & _). rewrite E in E2. injection E2 as <- <- <-. apply (St1 _ St O eq_refl). intros M i S Kn. exists i. split; [exact S|]. eapply settled_known; eassumption.
  - destruct O as (-> & O). specialize (Ca eq_refl). assert (Fs : Forall2 (fun x x' => x' = x \/ x' = seen x) l l').
    { unfold rep_isok in E. destruct (first_ok l) as [a [[r c]|]] eqn:Ef; injection E as <- <-; [apply first_ok_seen, Ef|]. destruct (first_ok_none _ _ Ef) as (-> & _). apply map_seen2. }
    assert (St : settled (stacked (map offers l)) l).
    { destruct So as (W & Sy). repeat (split; [assumption|]). intros x Hx Kx. apply agree_sym. apply stacked_agree; [|eauto]. intros y Hy Ky. apply Sy; try assumption; apply (calm_was l); assumption. }
    pose proof (settled_seen _ _ _ St Fs) as St'. apply (St1 _ St' O eq_refl). intros M i S Kn. exists i. split; [exact S|]. eapply settled_known; [exact St'|apply seen_keeps, Fs| |exact Kn].
    intros M0 x Hx Kx _ A. eapply agree_trans; [exact A|]. apply St; assumption.
  - destruct O as (-> & O). destruct So as (W & Sy). destruct (set_in_settled a r b k v l' n W (Ca eq_refl) Sy K Eo E) as (St & Kp & F). apply (St1 _ St O eq_refl). intros M i S Kn. exists i. split; [exact S|]. eapply settled_known; eassumption.
  - set (r1 := {| rgen := rgen r; rok := ok; was_ok := was_ok r |}) in *.
    assert (G : forall x, In x (a ++ r1 :: b) -> exists y, In y (a ++ r :: b) /\ rgen x = rgen y /\ was_ok x = was_ok y /\ (x = y \/ x = r1 /\ y = r)).
    { intros x Hx. apply in_app_iff in Hx. destruct Hx as [Hx|[<-|Hx]]; [exists x|exists r|exists x]; (split; [apply in_app_iff; cbn; auto|cbn; auto]). }
    destruct So as (W & Sy). split; [split|].
    + apply Forall_forall. intros x Hx. destruct (G x Hx) as (y & Hy & E & _). unfold rwf. rewrite E. rewrite Forall_forall in W. apply W, Hy.
    + intros x x' Hx Hx' Wx Wx'. destruct (G x Hx) as (y & Hy & -> & E & _). destruct (G x' Hx') as (y' & Hy' & -> & E' & _). apply Sy; congruence.
    + exists (back || ok). split; [exact O|]. split; [reflexivity|]. split.
      * intros Eb. apply orb_false_iff in Eb. destruct Eb as (-> & ->). apply Forall_forall. intros x Hx. destruct (G x Hx) as (y & Hy & _ & _ & [->|(-> & ->)]); [specialize (Ca eq_refl); unfold calm in Ca; rewrite Forall_forall in Ca; auto|]. unfold r1, came_back. cbn. apply andb_false_r.
      * intros M i (Si & S) (x & Hx & Kx & Wx & A). exists i. split; [exact S|]. destruct (Nat.eq_dec (length a) i) as [<-|Ne].
        -- rewrite nth_error_app2, Nat.sub_diag in Hx by lia. injection Hx as <-. exists r1. rewrite nth_error_app2, Nat.sub_diag by lia. split; [reflexivity|]. split; [apply Si; reflexivity|]. split; [exact Wx|exact A].
        -- exists x. split; [|auto]. destruct (Nat.lt_ge_cases i (length a)); [rewrite nth_error_app1 in * by lia; exact Hx|]. rewrite nth_error_app2 in * by lia. destruct (i - length a) eqn:D; [lia|]. exact Hx.
  - assert (W : Forall rwf (l ++ [rep_new g true])) by (apply Forall_app; split; [apply So|constructor; [apply rep_new_wf, Eo|constructor]]). destruct (replicate_settled _ W) as (l2 & n2 & E2 & St & K & Cv). unfold rep_append in E. rewrite E in E2. injection E2 as <- <-.
    apply (St1 _ St O eq_refl). intros M i S (x & Hx & R). exists i. split; [exact S|]. eapply settled_known; [exact St|exact K|apply covers_follows; [exact W|exact Cv]|]. exists x. split; [|exact R]. rewrite nth_error_app1; [exact Hx|]. apply nth_error_Some. congruence.
  - assert (W : Forall rwf (rep_new g true :: l)) by (constructor; [apply rep_new_wf, Eo|apply So]). destruct (replicate_settled _ W) as (l2 & n2 & E2 & St & K & Cv). unfold rep_prepend in E. rewrite E in E2. injection E2 as <- <-.
    apply (St1 _ St O eq_refl). intros M i Sd (x & Hx & R). exists (S i). split; [exact Sd|]. eapply settled_known; [exact St|exact K|apply covers_follows; [exact W|exact Cv]|]. exists x. split; [exact Hx|exact R].
Qed.
Lemma shuffle_rep a t t' d ok w b : shuffle t t' -> Forall rwf (a ++ {| rgen := {| root := Some t; dirty := d |}; rok := ok; was_ok := w |} :: b) ->
  WFo (root {| root := Some t'; dirty := d |}) /\ same_contents (has {| root := Some t'; dirty := d |}) (has {| root := Some t; dirty := d |}).
Proof.
  intros Sh W. apply Forall_app in W. destruct W as (_ & W). apply Forall_inv in W. unfold rwf in W. cbn [rgen] in W. destruct (shuffle_has _ _ d Sh W) as (W' & E). split; [exact W'|]. intros k P. apply E, P.
Qed.
Lemma rhistory_ok l es ns l' : rhistory l es ns l' -> forall back, sound l -> (back = false -> calm l) -> orderly back es -> Forall revent_ok es ->
  sound l' /\ (waiting back es = false -> calm l') /\ forall M i, steady i es -> known M i l -> exists i', known (replay ns M) i' l'.
Proof.
  induction 1 as [l|l e n l1 es ns l2 Hs H IH|a t t' d ok w b es ns l2 Sh H IH]; intros back So Ca O Eo.
  - split; [exact So|]. split; [exact Ca|]. intros M i _ K. exists i. exact K.
  - destruct (rstep_ok _ _ _ _ Hs back es So Ca O (Forall_inv Eo)) as (So1 & back1 & O1 & Ew & Ca1 & K1). destruct (IH back1 So1 Ca1 O1 (Forall_inv_tail Eo)) as (So2 & Ca2 & K2). split; [exact So2|]. split; [rewrite Ew; exact Ca2|].
    intros M i Sd K. destruct (K1 M i Sd K) as (i1 & Sd1 & Kn1). rewrite replay_app. apply (K2 _ i1 Sd1 Kn1).
  - destruct So as (W & Sy). destruct (shuffle_rep _ _ _ _ _ _ _ Sh W) as (W' & E). set (r := {| rgen := {| root := Some t; dirty := d |}; rok := ok; was_ok := w |}) in *. set (r1 := {| rgen := {| root := Some t'; dirty := d |}; rok := ok; was_ok := w |}) in *.
    assert (G : forall x, In x (a ++ r1 :: b) -> exists y, In y (a ++ r :: b) /\ rok x = rok y /\ was_ok x = was_ok y /\ agree (con x) (con y) /\ (rwf y -> rwf x)).
    { intros x Hx. apply in_app_iff in Hx. destruct Hx as [Hx|[<-|Hx]]; [exists x|exists r|exists x]; (split; [apply in_app_iff; cbn; auto|]; split; [reflexivity|]; split; [reflexivity|]); [split; [intros q _ _; reflexivity|auto]| |split; [intros q _ _; reflexivity|auto]].
      split; [intros q P _; apply E, P|intros _; exact W']. }
    destruct (IH back) as (So2 & Ca2 & K2); [split| |exact O|exact Eo|].
    + apply Forall_forall. intros x Hx. destruct (G x Hx) as (y & Hy & _ & _ & _ & R). apply R. rewrite Forall_forall in W. apply W, Hy.
    + intros x x' Hx Hx' Wx Wx'. destruct (G x Hx) as (y & Hy & _ & E1 & A & _). destruct (G x' Hx') as (y' & Hy' & _ & E1' & A' & _). eapply agree_trans; [exact A|]. eapply agree_trans; [|apply agree_sym, A']. apply Sy; congruence.
    + intros Eb. specialize (Ca Eb). unfold calm in *. rewrite Forall_forall in *. intros x Hx. destruct (G x Hx) as (y & Hy & Ek & Ew & _). specialize (Ca y Hy). unfold came_back in *. congruence.
    + split; [exact So2|]. split; [exact Ca2|]. intros M i Sd (x & Hx & Kx & Wx & A). apply (K2 M i Sd). destruct (Nat.eq_dec (length a) i) as [<-|Ne].
      * rewrite nth_error_app2, Nat.sub_diag in Hx by lia. injection Hx as <-. exists r1. rewrite nth_error_app2, Nat.sub_diag by lia. split; [reflexivity|]. split; [exact Kx|]. split; [exact Wx|]. eapply agree_trans; [exact A|]. intros q P _. symmetry. apply E, P.
      * exists x. split; [|auto]. destruct (Nat.lt_ge_cases i (length a)); [rewrite nth_error_app1 in * by lia; exact Hx|]. rewrite nth_error_app2 in * by lia. destruct (i - length a) eqn:D; [lia|]. exact Hx.
Qed.
Lemma rhistory_snoc l es ns l' : rhistory l es ns l' -> forall e n l2, rstep l' e n l2 -> rhistory l (es ++ [e]) (ns ++ n) l2.
Proof.
  induction 1 as [l|l e0 n0 l1 es ns l2 Hs H IH|a t t' d ok w b es ns l2 Sh H IH]; intros e n l3 S3.
  - rewrite <- (app_nil_r ([] ++ n)). eapply RH_step; [exact S3|apply RH_end].
  - cbn [app]. rewrite <- app_assoc. eapply RH_step; [exact Hs|]. apply IH, S3.
  - eapply RH_shuffle; [exact Sh|]. apply IH, S3.
Qed.
(** Made from generators with any history, some of them out of order, and used in any
    orderly way *)
Definition replicated (gs : list (gen * bool)) (l0 : list rep) (es : list revent) (ns : list notif) (l : list rep) : Prop :=
  Forall (fun x : gen * bool => made (fst x)) gs /\ (exists n, rep_make gs = Ok (l0, n)) /\ rhistory l0 es ns l /\ Forall revent_ok es /\ orderly false es.
Definition nonroot (q : list bytes) : Prop := Forall plain q /\ q <> [].
Lemma news_wf gs : Forall (fun x : gen * bool => made (fst x)) gs -> Forall rwf (map (fun x : gen * bool => rep_new (fst x) (snd x)) gs).
Proof. intros H. rewrite Forall_map. eapply Forall_impl; [|exact H]. intros x M. apply made_wf, M. Qed.
Lemma news_offers gs : map offers (map (fun x : gen * bool => rep_new (fst x) (snd x)) gs) = map (fun x : gen * bool => if snd x then has (fst x) else nothing) gs.
Proof. rewrite map_map. reflexivity. Qed.
Lemma tget_plain g q : Forall plain q -> tget g q = has g q.
Proof. intros P. rewrite tget_has by (left; exact P). rewrite (proj1 (plain_slashed _ P)). reflexivity. Qed.
Lemma replicated_ok gs l0 es ns l : replicated gs l0 es ns l -> sound l /\ (waiting false es = false -> calm l) /\ settled (stacked (map (fun x : gen * bool => if snd x then has (fst x) else nothing) gs)) l0 /\
  keeps (map (fun x : gen * bool => rep_new (fst x) (snd x)) gs) l0 /\ forall M i, steady i es -> known M i l0 -> exists i', known (replay ns M) i' l.
Proof.
  intros (Mg & (n & E) & H & Eo & O). destruct (replicate_settled _ (news_wf gs Mg)) as (l2 & n2 & E2 & St & K & Cv). unfold rep_make in E. rewrite E in E2. injection E2 as <- <-. rewrite news_offers in St.
  destruct (settled_sound _ _ St) as (So & Ca). destruct (rhistory_ok _ _ _ _ H false So (fun _ => Ca) O Eo) as (So' & Ca' & Kn). auto.
Qed.
(** Construction never fails.  After it, those in order answer every key but the root
    the same, the first one that had it deciding; those out of order are as they
    were. *)
Theorem C58_make gs : Forall (fun x : gen * bool => made (fst x)) gs -> exists l n, rep_make gs = Ok (l, n) /\ replicated gs l [] [] l /\
  Forall2 (fun x r => rok r = snd x /\ (snd x = false -> rgen r = fst x) /\
                      (snd x = true -> forall q, nonroot q -> tget (rgen r) q = stacked (map (fun x : gen * bool => if snd x then tget (fst x) else nothing) gs) q)) gs l.
Proof.
  intros Mg. destruct (replicate_settled _ (news_wf gs Mg)) as (l & n & E & (_ & _ & _ & A) & K & _). exists l, n. split; [exact E|]. split; [split; [exact Mg|]; split; [exists n; exact E|]; split; [apply RH_end|]; split; [constructor|exact I]|].
  rewrite news_offers in A. assert (Eq : forall q, Forall plain q -> stacked (map (fun x : gen * bool => if snd x then tget (fst x) else nothing) gs) q = stacked (map (fun x : gen * bool => if snd x then has (fst x) else nothing) gs) q).
  { intros q P. clear -P. induction gs as [|x gs IH]; [reflexivity|]. cbn [map stacked]. rewrite IH. destruct (snd x); [|reflexivity]. rewrite tget_plain by exact P. reflexivity. }
  revert A Eq. generalize (stacked (map (fun x : gen * bool => if snd x then tget (fst x) else nothing) gs)) as m1. generalize (stacked (map (fun x : gen * bool => if snd x then has (fst x) else nothing) gs)) as m2. intros m2 m1 A Eq. clear E Mg.
  revert l K A. induction gs as [|x gs IH]; intros l K A; inversion K as [|y r gs' l' (Kr & Gr) K']; subst; constructor; [|apply IH; [exact K'|intros z Hz; apply A; right; exact Hz]].
  split; [exact Kr|]. split; [exact Gr|]. intros T q (P & N). rewrite tget_plain, Eq by exact P. apply (A r); auto; [left; reflexivity|]. cbn in Kr. congruence.
Qed.
(** When no return is pending, any two generators in order agree. *)
Theorem C58_agree gs l0 es ns l x y q : replicated gs l0 es ns l -> waiting false es = false -> In x l -> In y l -> rok x = true -> rok y = true -> nonroot q -> tget (rgen x) q = tget (rgen y) q.
Proof.
  intros H Wt Hx Hy Kx Ky (P & N). destruct (replicated_ok _ _ _ _ _ H) as ((_ & Sy) & Ca & _). specialize (Ca Wt). rewrite !tget_plain by exact P. apply Sy; try assumption; apply (calm_was l); assumption.
Qed.
(** get() returns what is held, and after it all that are in order hold that. *)
Theorem C58_get gs l0 es ns l k : replicated gs l0 es ns l -> canonical k -> named k <> [] -> exists l' n,
  rep_get l k = Ok (l', n, if slashed k then None else held l k) /\ replicated gs l0 (es ++ [RGet k]) (ns ++ n) l' /\
  Forall2 (fun r r' => rok r' = rok r /\ (rok r = false -> rgen r' = rgen r) /\ (rok r = true -> forall q, nonroot q -> tget (rgen r') q = held l q)) l l'.
Proof.
  intros H C N. destruct (replicated_ok _ _ _ _ _ H) as (So & _). destruct (rep_get_ok l k So) as (l' & n & v & E & St & K & F & Ev). specialize (Ev C N). assert (Ev' : v = if slashed k then None else held l k).
  { rewrite Ev. destruct (slashed k) eqn:Es; [reflexivity|]. symmetry. apply held_offers. destruct C as [P|(k' & _ & P & ->)]; [exact P|]. destruct (trailing_slashed k' P). congruence. }
  rewrite <- Ev'. exists l', n. split; [exact E|]. split.
  - destruct H as (Mg & En & H & Eo & O). split; [exact Mg|]. split; [exact En|]. split; [eapply rhistory_snoc; [exact H|]; econstructor; exact E|]. split; [apply Forall_app; split; [exact Eo|repeat constructor]|].
    clear -O. revert O. generalize false as b. induction es as [|e es IH]; intros b O; [exact I|]. destruct e; cbn [app orderly] in *; try (apply IH, O); split; try apply O; apply IH, O.
  - assert (A : forall r', In r' l' -> rok r' = true -> forall q, nonroot q -> tget (rgen r') q = held l q) by (intros r' Hr Kr q (P & Nq); rewrite tget_plain by exact P; rewrite held_offers by exact P; apply St; assumption).
    revert A. generalize (held l) as m. intros m A. clear -K A. induction K as [|r r' l l' (Kr & G) K IH]; constructor; [|apply IH; intros z Hz; apply A; right; exact Hz]. split; [exact Kr|]. split; [exact G|]. intros T. apply A; [left; reflexivity|congruence].
Qed.
(** set() changes that in all of them that are in order, and nothing if none is. *)
Theorem C58_set gs l0 es ns l k v : replicated gs l0 es ns l -> canonical k -> exists l' n,
  rep_set l k v = Ok (l', n) /\ replicated gs l0 (es ++ [RSet k v]) (ns ++ n) l' /\
  Forall2 (fun r r' => rok r' = rok r /\ (rok r = false -> rgen r' = rgen r) /\ (rok r = true -> forall q, nonroot q -> tget (rgen r') q = set_key (held l) (k, v) q)) l l'.
Proof.
  intros H C. destruct (replicated_ok _ _ _ _ _ H) as (So & _). destruct (rep_set_ok l k v So C) as (l' & n & E & St & K & F). exists l', n. split; [exact E|]. split.
  - destruct H as (Mg & En & H & Eo & O). split; [exact Mg|]. split; [exact En|]. split; [eapply rhistory_snoc; [exact H|]; econstructor; exact E|]. split; [apply Forall_app; split; [exact Eo|constructor; [exact C|constructor]]|].
    clear -O. revert O. generalize false as b. induction es as [|e es IH]; intros b O; [exact I|]. destruct e; cbn [app orderly] in *; try (apply IH, O); split; try apply O; apply IH, O.
  - assert (A : forall r', In r' l' -> rok r' = true -> forall q, nonroot q -> tget (rgen r') q = set_key (held l) (k, v) q).
    { intros r' Hr Kr q (P & Nq). rewrite tget_plain by exact P. rewrite (set_key_agree _ _ (k, v) (held_agree l) q P Nq). apply St; assumption. }
    revert A. generalize (set_key (held l) (k, v)) as m. intros m A. clear -K A. induction K as [|r r' l l' (Kr & G) K IH]; constructor; [|apply IH; intros z Hz; apply A; right; exact Hz]. split; [exact Kr|]. split; [exact G|]. intros T. apply A; [left; reflexivity|congruence].
Qed.
(** A change made in one of them is made in all of them that are in order. *)
Theorem C58_inner gs l0 es ns a r b k v l' n : replicated gs l0 es ns (a ++ r :: b) -> waiting false es = false -> rok r = true -> canonical k -> set_in a r b k v = (l', n) ->
  Forall2 (fun x x' => rok x' = rok x /\ (rok x = false -> rgen x' = rgen x) /\ (rok x = true -> forall q, nonroot q -> tget (rgen x') q = set_key (tget (rgen r)) (k, v) q)) (a ++ r :: b) l'.
Proof.
  intros H Wt Kr C E. destruct (replicated_ok _ _ _ _ _ H) as ((W & Sy) & Ca & _). specialize (Ca Wt). destruct (set_in_settled a r b k v l' n W Ca Sy Kr C E) as (St & K & F).
  assert (A : forall r', In r' l' -> rok r' = true -> forall q, nonroot q -> tget (rgen r') q = set_key (tget (rgen r)) (k, v) q).
  { intros r' Hr Kr' q (P & Nq). rewrite tget_plain by exact P. rewrite (set_key_agree (tget (rgen r)) (con r) (k, v)); [apply St; assumption| |exact P|exact Nq]. intros q0 P0 _. apply tget_plain, P0. }
  revert K A. generalize (set_key (tget (rgen r)) (k, v)) as m. generalize (a ++ r :: b) as l. intros l m K A. clear -K A. induction K as [|x x' l l' (Kx & G) K IH]; constructor; [|apply IH; intros z Hz; apply A; right; exact Hz]. split; [exact Kx|]. split; [exact G|]. intros T. apply A; [left; reflexivity|congruence].
Qed.
(** As long as one generator stays in order, someone who applies all notifications
    knows what get() returns. *)
Theorem C58_mirror gs l0 es ns l i g k l' n v : replicated gs l0 es ns l -> nth_error gs i = Some (g, true) -> steady i es -> nonroot k ->
  rep_get l k = Ok (l', n, v) -> replay (ns ++ n) (held l0) k = v.
Proof.
  intros H Hi Sd (P & N) E. destruct (replicated_ok _ _ _ _ _ H) as (So & _ & St0 & K0 & Kn). destruct (rep_get_ok l k So) as (l2 & n2 & v2 & E2 & St & K & F & Ev). rewrite E in E2. injection E2 as <- <- <-.
  rewrite (Ev (or_introl P)) by (rewrite (proj2 (plain_slashed _ P)); exact N). rewrite (proj1 (plain_slashed _ P)).
  assert (Kn0 : known (held l0) i l0).
  { assert (Hm : nth_error (map (fun x : gen * bool => rep_new (fst x) (snd x)) gs) i = Some (rep_new g true)) by (rewrite nth_error_map, Hi; reflexivity). destruct (f2_nth _ _ _ _ _ K0 Hm) as (r & Hr & Kr & _). cbn in Kr. assert (Hin : In r l0) by (eapply nth_error_In, Hr).
    destruct St0 as (W0 & C0 & S0 & A0). exists r. split; [exact Hr|]. split; [exact Kr|]. split; [apply (calm_was l0); assumption|]. eapply agree_trans; [apply held_agree|]. apply stacked_agree; [|exists r; auto].
    intros y Hy Ky. eapply agree_trans; [apply A0; assumption|apply agree_sym, A0; assumption]. }
  destruct (Kn _ i Sd Kn0) as (i' & x & Hx & Kx & Wx & A). rewrite replay_app. apply (F _ x); try assumption. eapply nth_error_In, Hx.
Qed.
Lemma made_none : made tinit.
Proof. exists [], []. split; [apply H_end|constructor]. Qed.
Lemma made_one k v : canonical k -> made (fst (tset tinit k v)).
Proof. intros C. destruct (tset tinit k v) as [g n] eqn:E. exists [(k, v)], (n ++ []). split; [eapply H_set; [exact E|apply H_end]|]. constructor; [exact C|constructor]. Qed.
Lemma letter s : In s [B "a"; B "b"] -> plain s.
Proof. intros H. cbn [In] in H. repeat (destruct H as [<-|H]; [split; [discriminate|]; split; intros [X|[]]; discriminate|]). contradiction. Qed.
Lemma one s : In s [B "a"; B "b"] -> canonical [s].
Proof. intros H. left. constructor; [apply letter, H|constructor]. Qed.
Ltac ab := apply one; cbn [In]; auto.
Notation genA := (fst (tset tinit [B "a"] (Some (B "1")))).
Notation genB := (fst (tset tinit [B "b"] (Some (B "2")))).
Notation genR := (fst (tset tinit [] (Some (B "v")))).
Ltac turn p ok := match goal with
  | |- rhistory (?x :: ?y :: nil) _ _ _ => match p with O => eapply RH_step; [exact (R_ok [] x [y] ok)|] | _ => eapply RH_step; [exact (R_ok [x] y [] ok)|] end; cbn [app rgen was_ok]
  end.
(** The value of the root is not replicated. *)
Theorem C58_root_refuted : exists l, replicated [(genR, true); (tinit, true)] l [] [] l /\ map (fun r => tget (rgen r) []) l = [Some (B "v"); None].
Proof.
  eexists. split; [split; [|split; [eexists; vm_compute; reflexivity|split; [apply RH_end|split; [constructor|exact I]]]]|vm_compute; reflexivity].
  constructor; [apply made_one; left; constructor|]. constructor; [apply made_none|constructor].
Qed.
(** isok() notices that a generator came back, but nothing is replicated, then or
    later: get() finds no value although another generator in order has one. *)
Theorem C58_isok_refuted : exists gs l0 ns l, Forall (fun x : gen * bool => made (fst x)) gs /\ (exists n, rep_make gs = Ok (l0, n)) /\ rhistory l0 [ROk 0 true; RIsok] ns l /\
  map (fun r => (rok r, tget (rgen r) [B "b"])) l = [(true, None); (true, Some (B "2"))] /\ rep_get l [B "b"] = Ok (l, [], None).
Proof.
  exists [(genA, false); (genB, true)]. eexists. eexists. eexists. split; [constructor; [apply made_one; ab|]; constructor; [apply made_one; ab|constructor]|]. split; [eexists; vm_compute; reflexivity|]. split.
  - turn 0 true. eapply RH_step; [eapply R_isok; vm_compute; reflexivity|apply RH_end].
  - split; vm_compute; reflexivity.
Qed.
(** The same with a change in another generator: the one that came back gets that
    change, and nothing that it missed. *)
Theorem C58_inner_refuted : exists gs l0 ns l, Forall (fun x : gen * bool => made (fst x)) gs /\ (exists n, rep_make gs = Ok (l0, n)) /\ rhistory l0 [ROk 1 true; RInner [B "b"] (Some (B "3")); RGet [B "a"]] ns l /\
  map (fun r => (rok r, tget (rgen r) [B "a"], tget (rgen r) [B "b"])) l = [(true, Some (B "1"), Some (B "3")); (true, None, Some (B "3"))].
Proof.
  exists [(genA, true); (genB, false)]. eexists. eexists. eexists. split; [constructor; [apply made_one; ab|]; constructor; [apply made_one; ab|constructor]|]. split; [eexists; vm_compute; reflexivity|]. split.
  - turn 1 true. match goal with |- rhistory (?x :: ?y :: nil) _ _ _ => eapply RH_step; [apply (R_inner [] x [y]); [reflexivity|vm_compute; reflexivity]|] end. eapply RH_step; [eapply R_get; vm_compute; reflexivity|apply RH_end].
  - vm_compute. reflexivity.
Qed.
(** A key that is removed while a generator is out of order is there again when that
    one comes back. *)
Theorem C58_removed_refuted : exists gs l0 es ns l, replicated gs l0 es ns l /\ In (RSet [B "a"] None) es /\ (forall v, ~ In (RSet [B "a"] (Some v)) es) /\ exists l' n, rep_get l [B "a"] = Ok (l', n, Some (B "1")).
Proof.
  exists [(genA, true); (tinit, true)]. eexists. exists [ROk 1 false; RSet [B "a"] None; ROk 1 true]. eexists. eexists. split; [split; [|split; [eexists; vm_compute; reflexivity|split]]|].
  - constructor; [apply made_one; ab|]. constructor; [apply made_none|constructor].
  - turn 1 false. eapply RH_step; [eapply R_set; vm_compute; reflexivity|]. turn 1 true. apply RH_end.
  - split; [|vm_compute; tauto]. constructor; [exact I|]. constructor; [ab|]. constructor; [exact I|constructor].
  - split; [right; left; reflexivity|]. split; [intros v [X|[X|[X|[]]]]; discriminate|]. eexists. eexists. vm_compute. reflexivity.
Qed.
(** Two generators; one goes away, misses a change and comes back. *)
Example ex_replicated : exists gs l0 es ns l, replicated gs l0 es ns l /\ nth_error gs 0 = Some (genA, true) /\ steady 0 es /\ waiting false es = true /\
  map (fun r => (rok r, tget (rgen r) [B "a"], tget (rgen r) [B "b"])) l = [(true, Some (B "1"), Some (B "9")); (true, Some (B "1"), Some (B "2"))] /\
  exists l' n, rep_get l [B "b"] = Ok (l', n, Some (B "9")) /\
  map (fun r => (rok r, tget (rgen r) [B "a"], tget (rgen r) [B "b"])) l' = [(true, Some (B "1"), Some (B "9")); (true, Some (B "1"), Some (B "9"))].
Proof.
  exists [(genA, true); (genB, true)]. eexists. exists [ROk 1 false; RSet [B "b"] (Some (B "9")); ROk 1 true]. eexists. eexists. split; [split; [|split; [eexists; vm_compute; reflexivity|split]]|].
  - constructor; [apply made_one; ab|]. constructor; [apply made_one; ab|constructor].
  - turn 1 false. eapply RH_step; [eapply R_set; vm_compute; reflexivity|]. turn 1 true. apply RH_end.
  - split; [|vm_compute; tauto]. constructor; [exact I|]. constructor; [ab|]. constructor; [exact I|constructor].
  - split; [reflexivity|]. split; [cbn; split; [lia|split; [lia|exact I]]|]. split; [reflexivity|]. split; [vm_compute; reflexivity|]. eexists. eexists. split; vm_compute; reflexivity.
Qed.
Print Assumptions C58_make.
Print Assumptions C58_agree.
Print Assumptions C58_get.
Print Assumptions C58_set.
Print Assumptions C58_inner.
Print Assumptions C58_mirror.
