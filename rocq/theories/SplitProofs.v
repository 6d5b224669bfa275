(** Proofs about the splitters and the joiner. *)
From Coq Require Import ZifyBool ZifyNat.
From Verif Require Import Base BaseFacts SplitModel SplitSpec.
Local Open Scope nat_scope.

Lemma existsb_In c set : existsb (Ascii.eqb c) set = true <-> In c set.
Proof.
  rewrite existsb_exists. split.
  - intros (x & H & E). apply Ascii.eqb_eq in E. subst; exact H.
  - intros H. exists c. split; [exact H|apply Ascii.eqb_refl].
Qed.

Lemma existsb_nIn c set : existsb (Ascii.eqb c) set = false <-> ~ In c set.
Proof. rewrite <- existsb_In. destruct (existsb _ _); intuition congruence. Qed.

(** A text is a delimiter-free piece followed by nothing or by a delimiter. *)
Definition starts_in (set r : bytes) : Prop := match r with [] => True | c :: _ => In c set end.

Lemma strcspn_split set : forall p, exists a r,
  p = a ++ r /\ strcspn p set = length a /\ free_of set a /\ starts_in set r.
Proof.
  induction p as [|c p IH]; cbn [strcspn].
  - exists [], []. repeat split; auto. intros c [].
  - destruct (existsb (Ascii.eqb c) set) eqn:E.
    + exists [], (c :: p). repeat split; [intros x []|]. cbn. apply existsb_In, E.
    + destruct IH as (a & r & -> & L & F & S0). exists (c :: a), r.
      repeat split; [cbn; rewrite L; reflexivity| |exact S0].
      intros x [<-|Hx]; [apply existsb_nIn, E|apply F, Hx].
Qed.

Lemma strspn_split set : forall p, exists d r,
  p = d ++ r /\ strspn p set = length d /\ (forall c, In c d -> In c set) /\ starts_free set r.
Proof.
  induction p as [|c p IH]; cbn [strspn].
  - exists [], []. repeat split. intros c [].
  - destruct (existsb (Ascii.eqb c) set) eqn:E.
    + destruct IH as (d & r & -> & L & F & S0). exists (c :: d), r.
      repeat split; [cbn; rewrite L; reflexivity| |exact S0].
      intros x [<-|Hx]; [apply existsb_In, E|apply F, Hx].
    + exists [], (c :: p). repeat split; [intros x []|]. cbn. apply existsb_nIn, E.
Qed.

Lemma at_off_text a s r : nul_free s -> at_off (a ++ s ++ nul :: r) (length a) = s.
Proof.
  intros H. unfold at_off. rewrite (skipn_app_len a _ _ 0) by lia. cbn [skipn].
  apply cstr_app_nul, H.
Qed.

Lemma cut_ok a p x b : nul_free p ->
  cut (a ++ p ++ x :: b) (length a) (length a + length p) = Ok (p, a ++ p ++ x :: b).
Proof.
  intros H. unfold cut.
  assert (E : nth_error (a ++ p ++ x :: b) (length a + length p) = Some x).
  { rewrite app_assoc, nth_error_app2 by (rewrite app_length; lia).
    rewrite app_length, Nat.sub_diag. reflexivity. }
  assert (S0 : forall u v, store (a ++ p ++ u :: b) (length a + length p) v = Some (a ++ p ++ v :: b)).
  { intros u v. rewrite store_some by (rewrite !app_length; cbn [length]; lia). f_equal.
    rewrite !app_assoc. rewrite firstn_app_len by (rewrite app_length; lia).
    rewrite (skipn_app_len (a ++ p) (u :: b) _ 1) by (rewrite app_length; lia). reflexivity. }
  rewrite E. cbn [of_opt bind]. rewrite S0. cbn [of_opt bind]. rewrite S0. cbn [of_opt bind].
  rewrite at_off_text by exact H. reflexivity.
Qed.

Lemma nth_mid_app {A} (a : list A) x b : nth_error (a ++ x :: b) (length a) = Some x.
Proof. rewrite nth_error_app2 by lia. rewrite Nat.sub_diag. reflexivity. Qed.

Lemma removelast_cons {A} (x : A) l : l <> [] -> removelast (x :: l) = x :: removelast l.
Proof. destruct l; [congruence|reflexivity]. Qed.
Lemma last_cons {A} (x d : A) l : l <> [] -> last (x :: l) d = last l d.
Proof. destruct l; [congruence|reflexivity]. Qed.
Lemma interleaved_cons p d l g : l <> [] -> interleaved (p :: l) (d :: g) = p ++ d ++ interleaved l g.
Proof. reflexivity. Qed.

Lemma strict_fields_one set limit s : free_of set s \/ limit = 1%Z -> strict_fields set limit s [s].
Proof.
  intros H. repeat split.
  - discriminate.
  - intros ?; cbn [length]; lia.
  - exists []. repeat split. constructor.
  - constructor.
  - destruct H as [H| ->]; [left; exact H|right]. split; [lia|reflexivity].
Qed.

Lemma strict_fields_cons set limit p c r l :
  limit <> 1%Z -> free_of set p -> In c set -> strict_fields set (limit - 1) r l ->
  strict_fields set limit (p ++ c :: r) (p :: l).
Proof.
  intros Hl Hp Hc (Ne & W & (g & Lg & -> & Fg) & Fr & La). repeat split.
  - discriminate.
  - intros H. cbn [length]. unfold within in W. lia.
  - exists ([c] :: g). split; [cbn [length]; lia|]. split; [reflexivity|].
    constructor; [exists c; auto|exact Fg].
  - rewrite removelast_cons by exact Ne. constructor; assumption.
  - rewrite last_cons by exact Ne. destruct La as [La|[L1 L2]]; [left; exact La|right].
    split; [lia|cbn [length]; lia].
Qed.

Lemma strict_loop_ok set : forall fuel a s limit coll,
  nul_free s -> length s < fuel ->
  exists l, strict_loop fuel (a ++ s ++ [nul]) set (length a) limit coll = Ok (coll ++ l) /\
            strict_fields set limit s l.
Proof.
  induction fuel as [|fuel IH]; intros a s limit coll Hn Hf; [lia|].
  cbn [strict_loop]. rewrite (at_off_text a s []) by exact Hn.
  destruct (limit - 1 =? 0)%Z eqn:El.
  - exists [s]. split; [reflexivity|]. apply strict_fields_one. right; lia.
  - destruct (strcspn_split set s) as (p & r & -> & -> & Fp & Sr).
    apply nul_free_app in Hn. destruct Hn as [Np Nr].
    destruct r as [|c r].
    + rewrite app_nil_r. rewrite (cut_ok a p nul []) by exact Np. cbn [bind].
      rewrite app_assoc. rewrite <- app_length, nth_mid_app. cbn [of_opt bind].
      rewrite Ascii.eqb_refl. exists [p]. split; [reflexivity|]. apply strict_fields_one. left; exact Fp.
    + rewrite <- app_assoc. cbn [app]. rewrite (cut_ok a p c (r ++ [nul])) by exact Np. cbn [bind].
      rewrite app_assoc, <- app_length, nth_mid_app. cbn [of_opt bind].
      destruct (Ascii.eqb_spec c nul) as [->|Ec]; [exfalso; apply Nr; left; reflexivity|].
      replace ((a ++ p) ++ c :: r ++ [nul]) with (((a ++ p) ++ [c]) ++ r ++ [nul])
        by (rewrite <- !app_assoc; reflexivity).
      replace (length (a ++ p) + 1) with (length ((a ++ p) ++ [c])) by (rewrite (app_length (a ++ p)); reflexivity).
      destruct (IH ((a ++ p) ++ [c]) r (limit - 1)%Z (coll ++ [p])) as (l & E & F).
      { intros H; apply Nr; right; exact H. }
      { rewrite app_length in Hf; cbn [length] in Hf; lia. }
      exists (p :: l). split.
      * rewrite E, <- app_assoc. reflexivity.
      * apply strict_fields_cons; auto; lia.
Qed.

Lemma splitstrict_ok coll s set limit : nul_free s ->
  exists l, splitstrict coll (Some s) set limit = Ok (coll ++ l) /\ strict_fields set limit s l.
Proof.
  intros Hn. unfold splitstrict. apply (strict_loop_ok set _ [] s limit coll Hn).
  rewrite app_length; cbn [length]; lia.
Qed.

(** The part of a split after a run of delimiters. *)
Definition tail_fields (set : bytes) (limit : Z) (s : bytes) (l : list bytes) : Prop :=
  l <> [] /\ within limit l /\
  (exists g, S (length g) = length l /\ s = interleaved l g /\
             Forall (fun d => d <> [] /\ forall c, In c d -> In c set) g) /\
  Forall (free_of set) (removelast l) /\
  Forall (fun p => p <> []) (removelast l) /\
  starts_free set (last l []) /\
  (free_of set (last l []) \/ at_limit limit l).

Lemma tail_one set limit s : starts_free set s -> free_of set s \/ limit = 1%Z -> tail_fields set limit s [s].
Proof.
  intros Hs H. repeat split; try discriminate; try apply Forall_nil; try exact Hs.
  - intros ?; cbn [length]; lia.
  - exists []. repeat split; constructor.
  - destruct H as [H| ->]; [left; exact H|right]. split; [lia|reflexivity].
Qed.

Lemma tail_cons set limit p d r l :
  limit <> 1%Z -> free_of set p -> p <> [] -> d <> [] -> (forall c, In c d -> In c set) ->
  tail_fields set (limit - 1) r l -> tail_fields set limit (p ++ d ++ r) (p :: l).
Proof.
  intros Hl Hp Pn Dn Hd (Ne & W & (g & Lg & -> & Fg) & Fr & Fn & Sl & La). repeat split.
  - discriminate.
  - intros H. cbn [length]. unfold within in W. lia.
  - exists (d :: g). split; [cbn [length]; lia|]. split; [reflexivity|]. constructor; auto.
  - rewrite removelast_cons by exact Ne. constructor; assumption.
  - rewrite removelast_cons by exact Ne. constructor; assumption.
  - rewrite last_cons by exact Ne. exact Sl.
  - rewrite last_cons by exact Ne. destruct La as [La|[L1 L2]]; [left; exact La|right].
    split; [lia|cbn [length]; lia].
Qed.

Lemma run_one set limit s : free_of set s \/ limit = 1%Z -> run_fields set limit s [s].
Proof.
  intros H. repeat split; try discriminate; try apply Forall_nil.
  - intros ?; cbn [length]; lia.
  - exists []. repeat split; constructor.
  - cbn. congruence.
  - destruct H as [H| ->]; [left; exact H|right]. split; [lia|reflexivity].
Qed.

Lemma run_cons set limit p d r l :
  limit <> 1%Z -> free_of set p -> d <> [] -> (forall c, In c d -> In c set) ->
  tail_fields set (limit - 1) r l -> run_fields set limit (p ++ d ++ r) (p :: l).
Proof.
  intros Hl Hp Dn Hd (Ne & W & (g & Lg & -> & Fg) & Fr & Fn & Sl & La). repeat split.
  - discriminate.
  - intros H. cbn [length]. unfold within in W. lia.
  - exists (d :: g). split; [cbn [length]; lia|]. split; [reflexivity|]. constructor; auto.
  - rewrite removelast_cons by exact Ne. constructor; assumption.
  - exact Fn.
  - intros _. rewrite last_cons by exact Ne. exact Sl.
  - rewrite last_cons by exact Ne. destruct La as [La|[L1 L2]]; [left; exact La|right].
    split; [lia|cbn [length]; lia].
Qed.

Lemma split_loop_end fuel a set limit coll b :
  split_loop (S fuel) (a ++ [nul]) set (length a) b limit coll = Ok coll.
Proof.
  cbn [split_loop]. rewrite nth_mid_app. cbn [of_opt bind]. rewrite Ascii.eqb_refl. reflexivity.
Qed.

(** The loop after the first pass, at the start of a run of delimiters. *)
Lemma split_tail_ok set : forall fuel a s limit coll,
  nul_free s -> length s < fuel -> s <> [] -> starts_in set s ->
  exists d r l, s = d ++ r /\ d <> [] /\ (forall c, In c d -> In c set) /\
    split_loop fuel (a ++ s ++ [nul]) set (length a) false limit coll = Ok (coll ++ l) /\
    tail_fields set limit r l.
Proof.
  induction fuel as [|fuel IH]; intros a s limit coll Hn Hf Ne Hs; [lia|].
  destruct s as [|c s]; [congruence|]. clear Ne. cbn [starts_in] in Hs.
  assert (Ec : Ascii.eqb c nul = false).
  { apply Ascii.eqb_neq. intros ->. apply Hn. left; reflexivity. }
  destruct (strspn_split set (c :: s)) as (d & r & Es & Ed & Fd & Sr).
  assert (Dn : d <> []).
  { intros ->. cbn in Es. subst r. cbn in Sr. contradiction. }
  remember (c :: s) as cs eqn:Ecs.
  assert (H0 : nth_error (a ++ cs ++ [nul]) (length a) = Some c) by (rewrite Ecs; apply nth_mid_app).
  cbn [split_loop]. rewrite H0. cbn [of_opt bind]. rewrite Ec.
  rewrite (at_off_text a cs []) by exact Hn. rewrite Ed. clear H0 Ecs Ec Hs Ed c s.
  subst cs. apply nul_free_app in Hn. destruct Hn as [Nd Nr].
  exists d, r.
  replace (a ++ (d ++ r) ++ [nul]) with ((a ++ d) ++ r ++ [nul]) by (rewrite <- !app_assoc; reflexivity).
  rewrite <- app_length. rewrite (at_off_text (a ++ d) r []) by exact Nr.
  assert (Ld : 1 <= length d) by (destruct d; [congruence|cbn; lia]).
  rewrite app_length in Hf.
  destruct (limit - 1 =? 0)%Z eqn:El; cbn [negb].
  - exists [r]. split; [reflexivity|]. split; [exact Dn|]. split; [exact Fd|].
    rewrite (cut_ok (a ++ d) r nul []) by exact Nr. cbn [bind].
    rewrite (app_assoc (a ++ d) r), <- app_length. destruct fuel as [|fuel]; [lia|].
    rewrite split_loop_end. split; [reflexivity|]. apply tail_one; [exact Sr|right; lia].
  - destruct (strcspn_split set r) as (p & r2 & -> & -> & Fp & Sr2).
    apply nul_free_app in Nr. destruct Nr as [Np Nr2]. rewrite app_length in Hf.
    destruct r2 as [|c2 r2].
    + exists [p]. rewrite app_nil_r. split; [reflexivity|]. split; [exact Dn|]. split; [exact Fd|].
      rewrite (cut_ok (a ++ d) p nul []) by exact Np. cbn [bind].
      rewrite (app_assoc (a ++ d) p), <- app_length. destruct fuel as [|fuel]; [lia|].
      rewrite split_loop_end. split; [reflexivity|]. apply tail_one; [|left; exact Fp].
      rewrite app_nil_r in Sr. exact Sr.
    + rewrite <- (app_assoc p). cbn [app]. rewrite (cut_ok (a ++ d) p c2 (r2 ++ [nul])) by exact Np. cbn [bind].
      rewrite (app_assoc (a ++ d) p), <- app_length.
      destruct (IH ((a ++ d) ++ p) (c2 :: r2) (limit - 1)%Z (coll ++ [p]) Nr2) as (d2 & r3 & l & E2 & D2 & F2 & EE & T).
      { lia. } { discriminate. } { exact Sr2. }
      exists (p :: l). split; [reflexivity|]. split; [exact Dn|]. split; [exact Fd|]. split.
      * change (c2 :: r2 ++ [nul]) with ((c2 :: r2) ++ [nul]). rewrite EE, <- app_assoc. reflexivity.
      * rewrite E2. apply tail_cons; auto; [lia|]. intros ->. cbn [app] in Sr. cbn in Sr. cbn in Sr2. contradiction.
Qed.

Lemma split_ok coll s set limit : nul_free s ->
  exists l, split coll (Some s) set limit = Ok (coll ++ l) /\ run_fields set limit s l.
Proof.
  intros Hn. unfold split.
  destruct s as [|c s].
  - cbn [app nth]. rewrite Ascii.eqb_refl. exists [[]]. split; [|apply run_one; left; intros c []].
    apply (split_loop_end _ [] set limit (coll ++ [[]]) true).
  - assert (Ec : Ascii.eqb c nul = false).
    { apply Ascii.eqb_neq. intros ->. apply Hn. left; reflexivity. }
    cbn [app nth]. rewrite Ec. change (c :: s ++ [nul]) with ((c :: s) ++ [nul]).
    remember (c :: s) as cs eqn:Ecs.
    replace (length (cs ++ [nul]) + 2) with (S (S (S (length cs)))) by (rewrite app_length; cbn [length]; lia).
    remember (S (S (length cs))) as fuel eqn:Ef.
    cbn [split_loop]. replace (nth_error (cs ++ [nul]) 0) with (Some c) by (rewrite Ecs; reflexivity).
    cbn [of_opt bind]. rewrite Ec.
    replace (at_off (cs ++ [nul]) 0) with cs by (symmetry; apply (at_off_text [] cs []); exact Hn).
    rewrite ?Nat.add_0_l.
    clear Ecs Ec c s.
    destruct (limit - 1 =? 0)%Z eqn:El; cbn [negb].
    + exists [cs]. pose proof (cut_ok [] cs nul [] Hn) as Ecut. cbn [app length Nat.add] in Ecut. rewrite Ecut. cbn [bind app]. rewrite Ef, split_loop_end.
      split; [reflexivity|]. apply run_one. right; lia.
    + destruct (strcspn_split set cs) as (p & r2 & -> & -> & Fp & Sr2).
      apply nul_free_app in Hn. destruct Hn as [Np Nr2]. rewrite app_length in Ef.
      destruct r2 as [|c2 r2].
      * exists [p]. rewrite app_nil_r. pose proof (cut_ok [] p nul [] Np) as Ecut. cbn [app length Nat.add] in Ecut. rewrite Ecut. cbn [bind app].
        rewrite Ef. rewrite split_loop_end. split; [reflexivity|]. apply run_one. left; exact Fp.
      * rewrite <- (app_assoc p). cbn [app]. pose proof (cut_ok [] p c2 (r2 ++ [nul]) Np) as Ecut. cbn [app length Nat.add] in Ecut. rewrite Ecut. cbn [bind].
        destruct (split_tail_ok set fuel p (c2 :: r2) (limit - 1)%Z (coll ++ [p]) Nr2) as (d2 & r3 & l & E2 & D2 & F2 & EE & T).
        { cbn [length] in *. lia. } { discriminate. } { exact Sr2. }
        exists (p :: l). split.
        -- change (c2 :: r2 ++ [nul]) with ((c2 :: r2) ++ [nul]). rewrite EE, <- app_assoc. reflexivity.
        -- rewrite E2. apply run_cons; auto; lia.
Qed.

(* ---- the fields are determined by the text *)

Lemma free_split set : forall p1 r1 p2 r2, p1 ++ r1 = p2 ++ r2 ->
  free_of set p1 -> free_of set p2 -> starts_in set r1 -> starts_in set r2 -> p1 = p2 /\ r1 = r2.
Proof.
  induction p1 as [|c p1 IH]; intros r1 [|c2 p2] r2 E F1 F2 S1 S2.
  - split; [reflexivity|exact E].
  - cbn [app] in E. subst r1. cbn in S1. exfalso. apply (F2 c2); [left; reflexivity|exact S1].
  - cbn [app] in E. subst r2. cbn in S2. exfalso. apply (F1 c); [left; reflexivity|exact S2].
  - cbn [app] in E. injection E as <- E. destruct (IH r1 p2 r2 E) as [-> ->]; auto.
    + intros x Hx. apply F1. right; exact Hx.
    + intros x Hx. apply F2. right; exact Hx.
Qed.

Lemma run_split (set : bytes) : forall d1 r1 d2 r2, d1 ++ r1 = d2 ++ r2 ->
  (forall c, In c d1 -> In c set) -> (forall c, In c d2 -> In c set) ->
  starts_free set r1 -> starts_free set r2 -> d1 = d2 /\ r1 = r2.
Proof.
  induction d1 as [|c d1 IH]; intros r1 [|c2 d2] r2 E F1 F2 S1 S2.
  - split; [reflexivity|exact E].
  - cbn [app] in E. subst r1. cbn in S1. exfalso. apply S1, F2. left; reflexivity.
  - cbn [app] in E. subst r2. cbn in S2. exfalso. apply S2, F1. left; reflexivity.
  - cbn [app] in E. injection E as <- E. destruct (IH r1 d2 r2 E) as [-> ->]; auto.
    + intros x Hx. apply F1. right; exact Hx.
    + intros x Hx. apply F2. right; exact Hx.
Qed.

Lemma strict_one_inv set limit s p : strict_fields set limit s [p] -> s = p /\ (free_of set p \/ limit = 1%Z).
Proof.
  intros (_ & _ & (g & Lg & -> & _) & _ & La). destruct g; [|discriminate]. split; [reflexivity|].
  destruct La as [La|[_ La]]; [left; exact La|right]. cbn [length] in La. lia.
Qed.

Lemma strict_cons_inv set limit s p l : l <> [] -> strict_fields set limit s (p :: l) ->
  limit <> 1%Z /\ free_of set p /\
  exists c r, s = p ++ c :: r /\ In c set /\ strict_fields set (limit - 1) r l.
Proof.
  intros Ne (_ & W & (g & Lg & -> & Fg) & Fr & La).
  assert (1 <= length l) by (destruct l; [congruence|cbn; lia]).
  unfold within in W. cbn [length] in W, Lg.
  rewrite removelast_cons in Fr by exact Ne. rewrite last_cons in La by exact Ne.
  inversion Fr as [|? ? Fp Fr']; subst. split; [lia|]. split; [exact Fp|].
  destruct g as [|d g]; [cbn in Lg; lia|]. inversion Fg as [|? ? (c & -> & Hc) Fg']; subst.
  exists c, (interleaved l g). split; [reflexivity|]. split; [exact Hc|].
  split; [exact Ne|]. split; [unfold within; lia|]. split.
  - exists g. split; [cbn in Lg; lia|]. split; [reflexivity|exact Fg'].
  - split; [exact Fr'|]. destruct La as [La|[L1 L2]]; [left; exact La|right].
    cbn [length] in L2. split; lia.
Qed.

Lemma strict_unique set : forall l1 l2 limit s,
  strict_fields set limit s l1 -> strict_fields set limit s l2 -> l1 = l2.
Proof.
  induction l1 as [|p l1 IH]; intros [|q l2] limit s H1 H2;
    try (exfalso; apply (proj1 H1); reflexivity); try (exfalso; apply (proj1 H2); reflexivity).
  destruct l1 as [|p' l1], l2 as [|q' l2].
  - apply strict_one_inv in H1, H2. destruct H1 as [-> _], H2 as [-> _]. reflexivity.
  - exfalso. apply strict_one_inv in H1. destruct H1 as [-> [F|E]];
      apply strict_cons_inv in H2; try discriminate; destruct H2 as (L & Fq & c & r & E2 & Hc & _); [|contradiction].
    apply (F c); [|exact Hc]. rewrite E2, in_app_iff. right; left; reflexivity.
  - exfalso. apply strict_one_inv in H2. destruct H2 as [-> [F|E]];
      apply strict_cons_inv in H1; try discriminate; destruct H1 as (L & Fq & c & r & E2 & Hc & _); [|contradiction].
    apply (F c); [|exact Hc]. rewrite E2, in_app_iff. right; left; reflexivity.
  - apply strict_cons_inv in H1; [|discriminate]. apply strict_cons_inv in H2; [|discriminate].
    destruct H1 as (_ & F1 & c1 & r1 & -> & C1 & T1), H2 as (_ & F2 & c2 & r2 & E & C2 & T2).
    apply (free_split set) in E; auto. destruct E as [-> [= -> ->]]. f_equal. eapply IH; eassumption.
Qed.

Lemma tail_one_inv set limit s p : tail_fields set limit s [p] ->
  s = p /\ starts_free set p /\ (free_of set p \/ limit = 1%Z).
Proof.
  intros (_ & _ & (g & Lg & -> & _) & _ & _ & Sl & La). destruct g; [|discriminate]. split; [reflexivity|].
  split; [exact Sl|].
  destruct La as [La|[_ La]]; [left; exact La|right]. cbn [length] in La. lia.
Qed.

Lemma tail_cons_inv set limit s p l : l <> [] -> tail_fields set limit s (p :: l) ->
  limit <> 1%Z /\ free_of set p /\ p <> [] /\
  exists d r, s = p ++ d ++ r /\ d <> [] /\ (forall c, In c d -> In c set) /\ tail_fields set (limit - 1) r l.
Proof.
  intros Ne (_ & W & (g & Lg & -> & Fg) & Fr & Fn & Sl & La).
  assert (1 <= length l) by (destruct l; [congruence|cbn; lia]).
  unfold within in W. cbn [length] in W, Lg.
  rewrite removelast_cons in Fr, Fn by exact Ne. rewrite last_cons in Sl, La by exact Ne.
  inversion Fr as [|? ? Fp Fr']; subst. inversion Fn as [|? ? Pn Fn']; subst.
  split; [lia|]. split; [exact Fp|]. split; [exact Pn|].
  destruct g as [|d g]; [cbn in Lg; lia|]. inversion Fg as [|? ? (Dn & Hd) Fg']; subst.
  exists d, (interleaved l g). split; [reflexivity|]. split; [exact Dn|]. split; [exact Hd|].
  split; [exact Ne|]. split; [unfold within; lia|]. split.
  - exists g. split; [cbn in Lg; lia|]. split; [reflexivity|exact Fg'].
  - split; [exact Fr'|]. split; [exact Fn'|]. split; [exact Sl|].
    destruct La as [La|[L1 L2]]; [left; exact La|right]. cbn [length] in L2. split; lia.
Qed.

Lemma run_one_inv set limit s p : run_fields set limit s [p] -> s = p /\ (free_of set p \/ limit = 1%Z).
Proof.
  intros (_ & _ & (g & Lg & -> & _) & _ & _ & _ & La). destruct g; [|discriminate]. split; [reflexivity|].
  destruct La as [La|[_ La]]; [left; exact La|right]. cbn [length] in La. lia.
Qed.

Lemma run_cons_inv set limit s p l : l <> [] -> run_fields set limit s (p :: l) ->
  limit <> 1%Z /\ free_of set p /\
  exists d r, s = p ++ d ++ r /\ d <> [] /\ (forall c, In c d -> In c set) /\ tail_fields set (limit - 1) r l.
Proof.
  intros Ne (_ & W & (g & Lg & -> & Fg) & Fr & Fn & Sl & La).
  assert (1 <= length l) by (destruct l; [congruence|cbn; lia]).
  unfold within in W. cbn [length tl] in W, Lg, Fn, Sl.
  rewrite removelast_cons in Fr by exact Ne. rewrite last_cons in Sl, La by exact Ne.
  inversion Fr as [|? ? Fp Fr']; subst.
  split; [lia|]. split; [exact Fp|].
  destruct g as [|d g]; [cbn in Lg; lia|]. inversion Fg as [|? ? (Dn & Hd) Fg']; subst.
  exists d, (interleaved l g). split; [reflexivity|]. split; [exact Dn|]. split; [exact Hd|].
  split; [exact Ne|]. split; [unfold within; lia|]. split.
  - exists g. split; [cbn in Lg; lia|]. split; [reflexivity|exact Fg'].
  - split; [exact Fr'|]. split; [exact Fn|]. split; [exact (Sl Ne)|].
    destruct La as [La|[L1 L2]]; [left; exact La|right]. cbn [length] in L2. split; lia.
Qed.

Lemma tail_starts set limit s l : tail_fields set limit s l -> starts_free set s.
Proof.
  destruct l as [|p l]; intros H; [exfalso; apply (proj1 H); reflexivity|].
  destruct l as [|q l].
  - apply tail_one_inv in H. destruct H as (-> & H & _). exact H.
  - apply tail_cons_inv in H; [|discriminate]. destruct H as (_ & F & N & d & r & -> & _).
    destruct p as [|c p]; [congruence|]. cbn. apply F. left; reflexivity.
Qed.

Lemma starts_in_app (set d r : bytes) : d <> [] -> (forall c, In c d -> In c set) -> starts_in set (d ++ r).
Proof. destruct d as [|c d]; [congruence|]. intros _ H. cbn. apply H. left; reflexivity. Qed.

Lemma tail_unique set : forall l1 l2 limit s,
  tail_fields set limit s l1 -> tail_fields set limit s l2 -> l1 = l2.
Proof.
  induction l1 as [|p l1 IH]; intros [|q l2] limit s H1 H2;
    try (exfalso; apply (proj1 H1); reflexivity); try (exfalso; apply (proj1 H2); reflexivity).
  destruct l1 as [|p' l1], l2 as [|q' l2].
  - apply tail_one_inv in H1, H2. destruct H1 as [-> _], H2 as [-> _]. reflexivity.
  - exfalso. apply tail_one_inv in H1. destruct H1 as [-> [_ [F|E]]];
      apply tail_cons_inv in H2; try discriminate; destruct H2 as (L & _ & _ & d & r & E2 & Dn & Hd & _); [|contradiction].
    destruct d as [|c d]; [congruence|]. apply (F c); [|apply Hd; left; reflexivity].
    rewrite E2, in_app_iff. right; left; reflexivity.
  - exfalso. apply tail_one_inv in H2. destruct H2 as [-> [_ [F|E]]];
      apply tail_cons_inv in H1; try discriminate; destruct H1 as (L & _ & _ & d & r & E2 & Dn & Hd & _); [|contradiction].
    destruct d as [|c d]; [congruence|]. apply (F c); [|apply Hd; left; reflexivity].
    rewrite E2, in_app_iff. right; left; reflexivity.
  - apply tail_cons_inv in H1; [|discriminate]. apply tail_cons_inv in H2; [|discriminate].
    destruct H1 as (_ & F1 & _ & d1 & r1 & -> & D1 & C1 & T1), H2 as (_ & F2 & _ & d2 & r2 & E & D2 & C2 & T2).
    apply (free_split set) in E; auto using starts_in_app. destruct E as [-> E].
    apply (run_split set) in E; eauto using tail_starts. destruct E as [-> ->]. f_equal. eapply IH; eassumption.
Qed.

Lemma run_unique set l1 l2 limit s :
  run_fields set limit s l1 -> run_fields set limit s l2 -> l1 = l2.
Proof.
  destruct l1 as [|p l1], l2 as [|q l2]; intros H1 H2;
    try (exfalso; apply (proj1 H1); reflexivity); try (exfalso; apply (proj1 H2); reflexivity).
  destruct l1 as [|p' l1], l2 as [|q' l2].
  - apply run_one_inv in H1, H2. destruct H1 as [-> _], H2 as [-> _]. reflexivity.
  - exfalso. apply run_one_inv in H1. destruct H1 as [-> [F|E]];
      apply run_cons_inv in H2; try discriminate; destruct H2 as (L & _ & d & r & E2 & Dn & Hd & _); [|contradiction].
    destruct d as [|c d]; [congruence|]. apply (F c); [|apply Hd; left; reflexivity].
    rewrite E2, in_app_iff. right; left; reflexivity.
  - exfalso. apply run_one_inv in H2. destruct H2 as [-> [F|E]];
      apply run_cons_inv in H1; try discriminate; destruct H1 as (L & _ & d & r & E2 & Dn & Hd & _); [|contradiction].
    destruct d as [|c d]; [congruence|]. apply (F c); [|apply Hd; left; reflexivity].
    rewrite E2, in_app_iff. right; left; reflexivity.
  - apply run_cons_inv in H1; [|discriminate]. apply run_cons_inv in H2; [|discriminate].
    destruct H1 as (_ & F1 & d1 & r1 & -> & D1 & C1 & T1), H2 as (_ & F2 & d2 & r2 & E & D2 & C2 & T2).
    apply (free_split set) in E; auto using starts_in_app. destruct E as [-> E].
    apply (run_split set) in E; eauto using tail_starts. destruct E as [-> ->]. f_equal. eapply tail_unique; eassumption.
Qed.

(* ---- a split keeps the fields of a strict split that are not empty *)

Definition nonempty (q : bytes) : bool := match q with [] => false | _ => true end.
Definition kept_tail (f : list bytes) : list bytes := filter nonempty (removelast f) ++ [last f []].

Lemma kept_tail_ok set : forall f limit r, (limit <= 0)%Z -> strict_fields set limit r f ->
  exists d r', r = d ++ r' /\ (forall c, In c d -> In c set) /\ tail_fields set limit r' (kept_tail f).
Proof.
  induction f as [|p f IH]; intros limit r Hl H; [exfalso; apply (proj1 H); reflexivity|].
  destruct f as [|q f].
  - apply strict_one_inv in H. destruct H as [-> [F|E]]; [|lia]. exists [], p.
    split; [reflexivity|]. split; [intros c []|]. apply tail_one; [|left; exact F].
    destruct p as [|c p]; [exact I|]. cbn. apply F. left; reflexivity.
  - apply strict_cons_inv in H; [|discriminate]. destruct H as (_ & F & c & r1 & -> & C & T).
    destruct (IH (limit - 1)%Z r1) as (d1 & r2 & -> & Hd & T2); [lia|exact T|].
    unfold kept_tail. rewrite removelast_cons, last_cons by discriminate. cbn [filter].
    destruct p as [|x p]; cbn [nonempty].
    + exists (c :: d1), r2. split; [reflexivity|]. split; [intros y [<-|Hy]; auto|].
      fold (kept_tail (q :: f)).
      destruct T2 as (A1 & A2 & A3 & A4 & A5 & A6 & A7).
      repeat split; auto.
      * intros ?; lia.
      * destruct A7 as [A7|[? ?]]; [left; exact A7|lia].
    + exists [], ((x :: p) ++ (c :: d1) ++ r2). split; [reflexivity|]. split; [intros y []|].
      apply (tail_cons set limit (x :: p) (c :: d1) r2 (kept_tail (q :: f))); auto; try discriminate; [lia|].
      intros y [<-|Hy]; auto.
Qed.

Lemma kept_ok set f limit s : (limit <= 0)%Z -> strict_fields set limit s f -> run_fields set limit s (kept f).
Proof.
  intros Hl H. destruct f as [|p f]; [exfalso; apply (proj1 H); reflexivity|].
  destruct f as [|q f].
  - apply strict_one_inv in H. destruct H as [-> [F|E]]; [|lia]. apply run_one. left; exact F.
  - apply strict_cons_inv in H; [|discriminate]. destruct H as (_ & F & c & r1 & -> & C & T).
    destruct (kept_tail_ok set (q :: f) (limit - 1)%Z r1) as (d1 & r2 & -> & Hd & T2); [lia|exact T|].
    change (kept (p :: q :: f)) with (p :: kept_tail (q :: f)).
    apply (run_cons set limit p (c :: d1) r2); auto; try discriminate; [lia|].
    intros y [<-|Hy]; auto.
Qed.

(* ---- joining *)

Lemma strcat_ok t j s : nul_free t -> length s <= length j ->
  strcat (t ++ nul :: j) s = Ok (t ++ s ++ nul :: skipn (length s) j).
Proof.
  intros Ht Hl. unfold strcat. rewrite cstr_app_nul by exact Ht.
  rewrite store_seq_some by (rewrite !app_length; cbn [length]; lia). cbn [of_opt]. f_equal.
  rewrite firstn_app_len by reflexivity. f_equal. rewrite <- app_assoc. f_equal. cbn [app]. f_equal.
  rewrite app_length. cbn [length].
  rewrite (skipn_app_len t _ _ (length s + 1)) by lia. rewrite Nat.add_1_r. reflexivity.
Qed.

Definition text_of (s : option bytes) : bytes := match s with Some s => s | None => [] end.

Lemma join_loop_ok sep : nul_free sep -> forall l t j,
  Forall (fun s => nul_free (text_of s)) l -> nul_free t ->
  size_of sep (map text_of l) <= length j ->
  exists j', join_loop (t ++ nul :: j) false l sep =
             Ok (t ++ fold_right (fun p r => sep ++ p ++ r) [] (map text_of l) ++ nul :: j').
Proof.
  intros Hs. induction l as [|s l IH]; intros t j Hl Ht Hj; cbn [join_loop map fold_right].
  - exists j. reflexivity.
  - inversion Hl as [|? ? Hn Hl']; subst. cbn [map size_of fold_right] in Hj. fold (size_of sep (map text_of l)) in Hj.
    rewrite strcat_ok by (auto; lia). cbn [bind].
    replace (t ++ sep ++ nul :: skipn (length sep) j) with ((t ++ sep) ++ nul :: skipn (length sep) j)
      by (rewrite <- app_assoc; reflexivity).
    assert (Hts : nul_free (t ++ sep)) by (apply nul_free_app; auto).
    assert (E : exists j2, (match s return res mem with Some s => strcat ((t ++ sep) ++ nul :: skipn (length sep) j) s
               | None => @Ok mem ((t ++ sep) ++ nul :: skipn (length sep) j) end)
               = Ok ((t ++ sep ++ text_of s) ++ nul :: j2) /\ length j <= length j2 + length sep + length (text_of s)).
    { destruct s as [s|]; cbn [text_of] in *.
      - rewrite strcat_ok by (auto; rewrite skipn_length; lia).
        exists (skipn (length s) (skipn (length sep) j)). split; [rewrite <- !app_assoc; reflexivity|].
        rewrite !skipn_length; lia.
      - exists (skipn (length sep) j). rewrite app_nil_r. split; [reflexivity|]. rewrite skipn_length; lia. }
    destruct E as (j2 & -> & Lj2). cbn [bind].
    destruct (IH (t ++ sep ++ text_of s) j2 Hl') as (j' & EE).
    { rewrite !nul_free_app. auto. } { lia. }
    exists j'. rewrite EE, <- !app_assoc. reflexivity.
Qed.

Lemma joined_fold sep p l : joined sep (p :: l) = p ++ fold_right (fun p r => sep ++ p ++ r) [] l.
Proof.
  revert p; induction l as [|q l IH]; intros p; [cbn; rewrite app_nil_r; reflexivity|].
  cbn [fold_right]. rewrite <- IH. reflexivity.
Qed.

Lemma join_len_eq l k :
  join_len l k = (1 + fold_right (fun s t => Z.of_nat (length (text_of s)) + k + t) 0 l - k)%Z.
Proof.
  unfold join_len. f_equal.
  assert (H : forall l z, (fold_left (fun t s => t + match s with Some s => Z.of_nat (length s) | None => 0 end + k) l z
            = z + fold_right (fun s t => Z.of_nat (length (text_of s)) + k + t) 0 l)%Z).
  { induction l0 as [|s l0 IH]; intros z; cbn [fold_left fold_right]; [lia|].
    rewrite IH. destruct s; cbn [text_of length]; lia. }
  apply H.
Qed.

Lemma size_of_Z sep l : Z.of_nat (size_of sep (map text_of l)) =
  fold_right (fun s t => Z.of_nat (length (text_of s)) + Z.of_nat (length sep) + t)%Z 0%Z l.
Proof. induction l as [|s l IH]; cbn [map size_of fold_right] in *; [reflexivity|]. unfold size_of in IH. lia. Qed.

Lemma lor3_ge z : (0 <= z)%Z -> (z <= Z.lor z 3 <= z + 3)%Z.
Proof.
  intros H.
  assert (L : Z.land (Z.ldiff z 3) 3 = 0%Z).
  { apply Z.bits_inj'. intros n Hn. rewrite Z.land_spec, Z.ldiff_spec, Z.bits_0.
    destruct (Z.testbit z n), (Z.testbit 3 n); reflexivity. }
  assert (E : Z.lor z 3 = Z.lor (Z.ldiff z 3) 3).
  { apply Z.bits_inj'. intros n Hn. rewrite !Z.lor_spec, Z.ldiff_spec.
    destruct (Z.testbit z n), (Z.testbit 3 n); reflexivity. }
  rewrite E, <- Z.lxor_lor by exact L. rewrite <- Z.add_nocarry_lxor by exact L.
  change (Z.ldiff z 3) with (Z.ldiff z (Z.ones 2)). rewrite Z.ldiff_ones_r by lia.
  rewrite Z.shiftr_div_pow2, Z.shiftl_mul_pow2 by lia. change (2 ^ 2)%Z with 4%Z.
  change (Z.ones 2) with 3%Z. pose proof (Z.div_mod z 4 ltac:(lia)). pose proof (Z.mod_pos_bound z 4 ltac:(lia)). lia.
Qed.

Lemma text_block_ok n : (0 <= n < 2 ^ 62)%Z -> exists k, text_block n = Ok (calloc k) /\ (n + 1 <= Z.of_nat k)%Z.
Proof.
  intros H. unfold text_block. rewrite Z.mod_small by lia.
  pose proof (lor3_ge (12 + n + 1)%Z ltac:(lia)) as L.
  destruct (Z.leb_spec (2^63) (Z.lor (12 + n + 1) 3)); [lia|].
  eexists. split; [reflexivity|]. lia.
Qed.

Lemma join_ok l sep : l <> [] -> nul_free sep -> Forall (fun s => nul_free (text_of s)) l ->
  (Z.of_nat (size_of sep (map text_of l)) < 2 ^ 61)%Z ->
  join l sep = Ok (joined sep (map text_of l)).
Proof.
  intros Ne Hs Hl Hz. unfold join. destruct l as [|s l]; [congruence|].
  inversion Hl as [|? ? Hn Hl']; subst.
  rewrite join_len_eq, <- size_of_Z. cbn [map size_of fold_right] in *. fold (size_of sep (map text_of l)) in *.
  set (n := (1 + Z.of_nat (length (text_of s) + length sep + size_of sep (map text_of l)) - Z.of_nat (length sep))%Z).
  destruct (text_block_ok n) as (k & -> & Hk); [unfold n; lia|]. cbn [bind].
  destruct k as [|k]; [lia|]. cbn [calloc repeat store of_opt bind join_loop].
  assert (E : exists j, (match s return res mem with Some s => strcat (nul :: repeat nul k) s | None => @Ok mem (nul :: repeat nul k) end)
              = Ok (text_of s ++ nul :: j) /\ size_of sep (map text_of l) <= length j).
  { destruct s as [s|]; cbn [text_of] in *.
    - pose proof (strcat_ok [] (repeat nul k) s) as E. cbn [app] in E. rewrite E.
      + eexists. split; [reflexivity|]. rewrite skipn_length, repeat_length. unfold n in Hk. lia.
      + intros [].
      + rewrite repeat_length. unfold n in Hk. lia.
    - exists (repeat nul k). split; [reflexivity|]. rewrite repeat_length. unfold n in Hk. cbn [length] in Hk. lia. }
  destruct E as (j & -> & Hj). cbn [bind].
  destruct (join_loop_ok sep Hs l (text_of s) j Hl' Hn Hj) as (j' & ->). cbn [bind]. f_equal.
  rewrite joined_fold. rewrite app_assoc. apply cstr_app_nul.
  rewrite nul_free_app. split; [exact Hn|]. clear - Hs Hl'.
  induction l as [|q l IH]; cbn; [intros []|]. inversion Hl'; subst. rewrite !nul_free_app. auto.
Qed.

Lemma join_empty sep : (Z.of_nat (length sep) < 2 ^ 62)%Z ->
  join [] sep = if length sep <=? 2 then Ok [] else Fault.
Proof.
  intros Hz. unfold join, join_len. cbn [fold_left].
  destruct (Nat.leb_spec (length sep) 2) as [H|H].
  - destruct (length sep) as [|[|[|k]]]; [reflexivity..|lia].
  - unfold text_block. destruct (Z_lt_ge_dec 14 (Z.of_nat (length sep))).
    + replace ((12 + (1 - Z.of_nat (length sep)) + 1) mod 2 ^ 64)%Z with (14 - Z.of_nat (length sep) + 2 ^ 64)%Z.
      2:{ apply Z.mod_unique_pos with (q := (-1)%Z); lia. }
      pose proof (lor3_ge (14 - Z.of_nat (length sep) + 2 ^ 64)%Z ltac:(lia)).
      destruct (Z.leb_spec (2 ^ 63) (Z.lor (14 - Z.of_nat (length sep) + 2 ^ 64) 3)); [reflexivity|lia].
    + assert (H3 : length sep <= 14) by lia. clear - H H3. revert H H3.
      generalize (length sep). intros n H H3.
      do 15 (destruct n as [|n]; [try lia; reflexivity|]). lia.
Qed.

Lemma joined_strict c : forall l g, S (length g) = length l ->
  Forall (fun d => exists x, d = [x] /\ In x [c]) g -> interleaved l g = joined [c] l.
Proof.
  induction l as [|p l IH]; intros g Hl Hg; [reflexivity|].
  destruct g as [|d g]; cbn [length] in Hl.
  - destruct l; [reflexivity|discriminate].
  - inversion Hg as [|? ? (x & -> & [<-|[]]) Hg']; subst.
    destruct l as [|q l]; [cbn in Hl; lia|].
    change (interleaved (p :: q :: l) ([c] :: g)) with (p ++ [c] ++ interleaved (q :: l) g).
    rewrite IH; [reflexivity|lia|exact Hg'].
Qed.

Lemma size_of_interleaved (sep : bytes) : forall l g, S (length g) = length l ->
  Forall (fun d => length d = length sep) g -> size_of sep l = length (interleaved l g) + length sep.
Proof.
  induction l as [|p l IH]; intros g Hl Hg; [discriminate|].
  destruct g as [|d g]; cbn [length] in Hl.
  - destruct l; [cbn; lia|discriminate].
  - inversion Hg; subst. cbn [size_of fold_right]. fold (size_of sep l). rewrite (IH g); auto.
    cbn [interleaved]. rewrite !app_length. lia.
Qed.

Lemma pieces_nul_free : forall l g s, S (length g) = length l -> s = interleaved l g -> nul_free s -> Forall nul_free l.
Proof.
  induction l as [|p l IH]; intros g s Hl -> Hn; [constructor|].
  destruct g as [|d g]; cbn [length] in Hl.
  - destruct l; [|discriminate]. constructor; [exact Hn|constructor].
  - cbn [interleaved] in Hn. rewrite !nul_free_app in Hn. destruct Hn as (Hp & _ & Hr).
    constructor; [exact Hp|]. apply (IH g (interleaved l g)); auto.
Qed.

Lemma join_of_strict c limit s l : c <> nul -> nul_free s -> (Z.of_nat (length s) < 2 ^ 60)%Z ->
  strict_fields [c] limit s l -> join (map Some l) [c] = Ok s.
Proof.
  intros Hc Hn Hz (Ne & _ & (g & Lg & Es & Fg) & _).
  assert (Em : map text_of (map Some l) = l) by (rewrite map_map; cbn; apply map_id).
  rewrite join_ok; rewrite ?Em.
  - f_equal. rewrite Es. symmetry. apply joined_strict; [exact Lg|exact Fg].
  - destruct l; [congruence|discriminate].
  - intros [E|[]]. congruence.
  - pose proof (pieces_nul_free l g s Lg Es Hn) as F. rewrite Forall_forall in F |- *.
    intros x Hx. apply in_map_iff in Hx. destruct Hx as (y & <- & Hy). exact (F y Hy).
  - rewrite (size_of_interleaved [c] l g Lg).
    + rewrite <- Es. cbn [length]. lia.
    + eapply Forall_impl; [|exact Fg]. intros d (x & -> & _). reflexivity.
Qed.
