(** Proofs about string helpers. *)
From Verif Require Import Base BaseFacts Ctype StrModel StrSpec.
From Coq Require Import Lia ZArith.
Local Open Scope nat_scope.

Lemma begins_iff a : forall s, begins a s = true <-> exists r, s = a ++ r.
Proof.
  induction a as [|x a IH]; intros s; cbn; [split; eauto|]. destruct s as [|y s]; [split; [discriminate|intros (r & E); discriminate]|].
  rewrite Bool.andb_true_iff, IH, Ascii.eqb_eq. split; [intros (-> & r & ->); eauto|intros (r & E); injection E as -> ->; eauto].
Qed.
Lemma strstr_spec a : forall s, match strstr s a with Some (p, m) => exists r, m = a ++ r /\ first_at a s p r | None => absent a s end.
Proof.
  induction s as [|c s IH]; cbn [strstr].
  - destruct (begins a []) eqn:E.
    + apply begins_iff in E as (r & E). exists r. split; [exact E|]. split; [exact E|]. cbn. lia.
    + intros p r H. destruct p; [|discriminate]. assert (begins a [] = true) by (apply begins_iff; exists r; exact H). congruence.
  - destruct (begins a (c :: s)) eqn:E.
    + apply begins_iff in E as (r & E). exists r. split; [exact E|]. split; [exact E|]. cbn. lia.
    + assert (N : forall r, c :: s <> a ++ r) by (intros r H; assert (begins a (c :: s) = true) by (apply begins_iff; eauto); congruence).
      destruct (strstr s a) as [[p m]|].
      * destruct IH as (r & -> & E1 & E2). exists r. split; [reflexivity|]. split; [cbn; rewrite E1; reflexivity|].
        intros [|y p'] r' H; [exfalso; eapply N, H|]. cbn in *. injection H as -> H. apply E2 in H. lia.
      * intros [|y p] r H; [eapply N, H|]. injection H as -> H. eapply IH, H.
Qed.
Lemma app_len_inj {A} (p p' x y : list A) : p ++ x = p' ++ y -> length p = length p' -> p = p' /\ x = y.
Proof. revert p'. induction p as [|a p IH]; intros [|b p'] E L; try discriminate; [auto|]. injection E as -> E. injection L as L. destruct (IH _ E L) as [-> ->]. auto. Qed.
Lemma first_at_fun a s p r p' r' : first_at a s p r -> first_at a s p' r' -> p = p' /\ r = r'.
Proof.
  intros (E & H) (E' & H'). pose proof (H _ _ E'). pose proof (H' _ _ E). rewrite E in E'.
  destruct (app_len_inj p p' _ _ E') as [-> E2]; [lia|]. apply app_inv_head in E2. auto.
Qed.
Lemma first_not_absent a s p r : first_at a s p r -> ~ absent a s.
Proof. intros (E & _) H. exact (H _ _ E). Qed.
Lemma strstr_first a s p r : first_at a s p r -> strstr s a = Some (p, a ++ r).
Proof.
  intros F. pose proof (strstr_spec a s) as H. destruct (strstr s a) as [[p' m]|].
  - destruct H as (r' & -> & F'). destruct (first_at_fun _ _ _ _ _ _ F F') as [-> ->]. reflexivity.
  - exfalso. exact (first_not_absent _ _ _ _ F H).
Qed.
Lemma strstr_absent a s : absent a s -> strstr s a = None.
Proof.
  intros N. pose proof (strstr_spec a s) as H. destruct (strstr s a) as [[p' m]|]; [|reflexivity].
  destruct H as (r' & _ & F'). exfalso. exact (first_not_absent _ _ _ _ F' N).
Qed.
Lemma replace_ok a b : a <> [] -> forall f s, length s < f -> exists r, replace_loop f a b s = Ok r /\ replaced a b s r.
Proof.
  intros Na. induction f as [|f IH]; intros s L; [lia|]. cbn [replace_loop]. pose proof (strstr_spec a s) as H.
  destruct (strstr s a) as [[p m]|].
  - destruct H as (r & -> & F). rewrite skipn_app, skipn_all, Nat.sub_diag. cbn [skipn app].
    destruct (IH r) as (r' & -> & R).
    { destruct F as [E _]. rewrite E, !app_length in L. destruct a; [contradiction|]. cbn in L. lia. }
    cbn [bind]. eexists. split; [reflexivity|]. eapply R_some; eauto.
  - eexists. split; [reflexivity|]. apply R_none, H.
Qed.
Lemma replaced_fun a b s r : replaced a b s r -> forall r', replaced a b s r' -> r = r'.
Proof.
  induction 1 as [s H|s p r r1 F R IH]; intros r' R'.
  - inversion R' as [|? ? ? ? F' _]; subst; [reflexivity|]. exfalso. exact (first_not_absent _ _ _ _ F' H).
  - inversion R' as [? H|? p' r2 r3 F' R2]; subst; [exfalso; exact (first_not_absent _ _ _ _ F H)|].
    destruct (first_at_fun _ _ _ _ _ _ F F') as [-> ->]. rewrite (IH _ R2). reflexivity.
Qed.
Lemma replace_forever b : forall f s, replace_loop f [] b s = NoFuel.
Proof. induction f as [|f IH]; intros s; [reflexivity|]. cbn [replace_loop]. destruct s; cbn [strstr begins skipn length]; rewrite IH; reflexivity. Qed.

Lemma lstrip_run c s : exists n, s = repeat c n ++ lstrip s c /\ ~ begins_with c (lstrip s c).
Proof.
  induction s as [|x s (n & E & N)]; cbn [lstrip].
  - exists 0. split; [reflexivity|]. intros (r & H). discriminate.
  - destruct (Ascii.eqb_spec x c).
    + subst. exists (S n). split; [cbn; f_equal; exact E|exact N].
    + exists 0. split; [reflexivity|]. intros (r & H). injection H as -> _. contradiction.
Qed.
Lemma undupe_true c s : undupe true s c = undupe false (lstrip s c) c.
Proof. induction s as [|x s IH]; [reflexivity|]. cbn. destruct (Ascii.eqb_spec x c); cbn; [exact IH|]. destruct (Ascii.eqb_spec x c); [contradiction|reflexivity]. Qed.
Lemma undupe_begins c s : ~ begins_with c s -> ~ begins_with c (undupe false s c).
Proof.
  destruct s as [|x s]; intros N (r & H); [discriminate|]. cbn in H. destruct (Ascii.eqb_spec x c); cbn in H; [subst; apply N; eexists; reflexivity|].
  injection H as -> _. contradiction.
Qed.
Lemma undupe_ok c : forall n s, length s < n -> stretched c (undupe false s c) s.
Proof.
  induction n as [|n IH]; intros s L; [lia|]. destruct s as [|x s]; [constructor|]. cbn [undupe]. cbn in L. destruct (Ascii.eqb_spec x c); cbn [negb].
  - subst. rewrite undupe_true. destruct (lstrip_run c s) as (k & E & N).
    replace (c :: s) with (repeat c (S k) ++ lstrip s c) by (cbn; f_equal; symmetry; exact E).
    apply S_run; [apply IH|apply undupe_begins, N]. rewrite E in L. rewrite app_length in L. lia.
  - apply S_other; [exact n0|]. apply IH. lia.
Qed.
Lemma stretched_begins c r s : stretched c r s -> begins_with c s -> begins_with c r.
Proof. intros H (t & E). inversion H as [|x r0 s0 N R|]; subst; [discriminate| |eexists; reflexivity]. assert (x = c) by congruence. contradiction. Qed.
Lemma run_inj c : forall n m s t, ~ begins_with c s -> ~ begins_with c t -> repeat c n ++ s = repeat c m ++ t -> s = t.
Proof.
  induction n as [|n IH]; intros [|m] s t Hs Ht E; cbn in E; auto.
  - exfalso. apply Hs. eexists. exact E.
  - exfalso. apply Ht. eexists. symmetry. exact E.
  - injection E as E. eapply IH; eauto.
Qed.
Lemma stretched_fun c r s : stretched c r s -> forall r', stretched c r' s -> r = r'.
Proof.
  induction 1 as [|x r s N R IH|r s n R IH Nb]; intros r' H.
  - inversion H; reflexivity.
  - inversion H; subst; [f_equal; auto|]. contradiction.
  - remember (repeat c (S n) ++ s) as z eqn:Z. destruct H as [|x r2 s2 N R2|r2 s2 m R2 N2]; [discriminate|cbn in Z; congruence|]. cbn in Z. assert (H2 : repeat c m ++ s2 = repeat c n ++ s) by congruence.
    assert (s2 = s). { eapply (run_inj c m n); auto; intros K; [apply N2|apply Nb]; eapply stretched_begins; eauto. }
    subst. f_equal. auto.
Qed.
Lemma strcount_ok c s : c <> nul -> strcount s c = Ok (count_occ Ascii.ascii_dec s c).
Proof.
  intros N. induction s as [|x s IH]; cbn.
  - destruct (Ascii.eqb_spec c nul); [contradiction|reflexivity].
  - rewrite IH. cbn. destruct (Ascii.eqb_spec x c), (Ascii.ascii_dec x c); try contradiction; reflexivity.
Qed.
Lemma strcount_nul s : strcount s nul = Fault.
Proof. induction s as [|x s IH]; [reflexivity|]. cbn [strcount]. rewrite IH. reflexivity. Qed.
Lemma nothing_some s : s <> [] -> nothing (Some s) = false.
Proof. destruct s; [contradiction|reflexivity]. Qed.

Lemma rstrip_run c s : exists n, s = rev (lstrip (rev s) c) ++ repeat c n /\ ~ ends_with c (rev (lstrip (rev s) c)).
Proof.
  destruct (lstrip_run c (rev s)) as (n & E & N). exists n. split.
  - rewrite <- (rev_involutive s) at 1. rewrite E at 1. rewrite rev_app_distr. f_equal. clear. induction n as [|n IH]; [reflexivity|]. cbn. rewrite IH. clear. induction n; [reflexivity|]. cbn. f_equal. assumption.
  - intros (r & H). apply N. exists (rev r). rewrite <- (rev_involutive (lstrip _ _)), H, rev_app_distr. reflexivity.
Qed.
Lemma unbs_escape s : unbs (bs_escape s) = s.
Proof.
  induction s as [|c s IH]; [reflexivity|]. cbn. destruct (isalnum c) eqn:E; cbn; [|rewrite IH; reflexivity].
  destruct (Ascii.eqb_spec c "\"); [subst; discriminate|]. rewrite IH. reflexivity.
Qed.
Lemma strrchr_spec s : match strrchr s with Some (p, q) => s = p ++ "/"%char :: q /\ ~ In "/"%char q | None => ~ In "/"%char s end.
Proof.
  induction s as [|c s IH]; cbn [strrchr]; [intros []|]. destruct (strrchr s) as [[p q]|].
  - destruct IH as [-> N]. split; [reflexivity|exact N].
  - destruct (Ascii.eqb_spec c "/"); [subst; split; [reflexivity|exact IH]|]. intros [->|I]; [contradiction|auto].
Qed.
Lemma strrchr_at p q : ~ In "/"%char q -> strrchr (p ++ "/"%char :: q) = Some (p, q).
Proof.
  intros N. induction p as [|c p IH]; cbn [app strrchr].
  - pose proof (strrchr_spec q) as H. destruct (strrchr q) as [[p' q']|]; [|reflexivity]. destruct H as [-> _]. exfalso. apply N. apply in_app_iff. right. left. reflexivity.
  - rewrite IH. reflexivity.
Qed.
Lemma strrchr_none s : ~ In "/"%char s -> strrchr s = None.
Proof. intros N. pose proof (strrchr_spec s) as H. destruct (strrchr s) as [[p q]|]; [|reflexivity]. destruct H as [-> _]. exfalso. apply N, in_app_iff. right; left; reflexivity. Qed.
(** Trailing slashes are taken off. *)
Lemma slashes_snoc t n : t ++ repeat "/"%char (S n) = (t ++ repeat "/"%char n) ++ "/"%char :: [].
Proof. rewrite <- app_assoc. f_equal. induction n; [reflexivity|]. cbn in *. f_equal. exact IHn. Qed.
Lemma filename_strip n : forall t f, length (t ++ repeat "/"%char n) < f -> exists f', length t < f' /\ filename f (t ++ repeat "/"%char n) = filename f' t.
Proof.
  induction n as [|n IH]; intros t f L; [exists f; rewrite app_nil_r in *; auto|]. destruct f; [lia|]. rewrite slashes_snoc in *.
  cbn [filename]. rewrite strrchr_at; [|intros []]. rewrite app_length in L. cbn in L.
  destruct (IH t f) as (f' & L' & E); [lia|]. exists f'. split; [exact L'|]. destruct ((t ++ repeat "/"%char n) ++ ["/"%char]) eqn:X; [destruct (t ++ repeat "/"%char n); discriminate|exact E].
Qed.
Lemma dirname_strip n : forall t f, length (t ++ repeat "/"%char n) < f -> exists f', length t < f' /\ dirname f (t ++ repeat "/"%char n) = dirname f' t.
Proof.
  induction n as [|n IH]; intros t f L; [exists f; rewrite app_nil_r in *; auto|]. destruct f; [lia|]. rewrite slashes_snoc in *.
  cbn [dirname]. rewrite strrchr_at; [|intros []]. rewrite app_length in L. cbn in L.
  destruct (IH t f) as (f' & L' & E); [lia|]. exists f'. split; [exact L'|]. destruct ((t ++ repeat "/"%char n) ++ ["/"%char]) eqn:X; [destruct (t ++ repeat "/"%char n); discriminate|exact E].
Qed.
