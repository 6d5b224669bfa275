(** C57: the recursive iterator. *)
From Verif Require Import Base BaseFacts Ctype KeyModel KeySpec KeyProofs TempModel TempSpec TreeProofs TempProofs TempProps WatchModel RecModel RecProofs.
Local Open Scope nat_scope.

(** For a memory generator with any history, and any key, existing or not, next()
    goes through all keys below: each once, with the value that get() returns, a key
    after the key above it and directly followed by the keys below it.  Then it
    returns false.  Names are relative to where the iterator started. *)
Theorem C57_recursive hs ns g top : history tinit hs ns g -> canonical_history hs -> canonical top -> exists ks,
  (forall fuel, length ks < fuel -> trec fuel g top = Ok (map (fun k => (k, sets hs (named top ++ k))) ks)) /\
  NoDup (map (map (map tolower)) ks) /\
  Forall (fun k => k <> [] /\ Forall plain k) ks /\
  (forall k, Forall plain k -> k <> [] -> sets hs (named top ++ k) <> None <-> exists k0, In k0 ks /\ same k0 k = true) /\
  (forall a q s b, ks = a ++ (q ++ [s]) :: b -> q <> [] -> In q a) /\
  (forall a q b, ks = a ++ q :: b -> exists b1 b2, b = b1 ++ b2 /\ Forall (fun k => under q k = true) b1 /\ Forall (fun k => under q k = false) b2).
Proof.
  intros H C Ct. destruct (reach _ _ _ H C) as (W & E & _). pose proof (canonical_named _ Ct) as Pn.
  destruct (root g) as [t|] eqn:Er; [destruct (find t top) as [n|] eqn:F|].
  - cbn [WFo] in W. pose proof (find_lk t top (or_introl Ct)) as Fl. rewrite F in Fl. destruct Fl as (_ & Wn & _). specialize (Wn W). destruct (WF_inv _ Wn) as (Pc & Nd & Wc).
    assert (Pl : Forall (fun k => k <> [] /\ Forall plain k) (forest [] (tch n))).
    { apply Forall_forall. intros k Hk. apply forest_in in Hk. destruct Hk as (c & r & Hc & -> & Hi). split; [discriminate|]. rewrite Forall_forall in Pc, Wc. apply (below_plain c []); auto. }
    exists (forest [] (tch n)). split; [|split; [|split; [exact Pl|split; [|split]]]].
    + intros fuel L. unfold trec. rewrite (tnames_spec g n top) with (ks := forest [] (tch n)); auto; [|rewrite Er; exact W|exists t; auto]. cbn [bind]. f_equal. apply map_ext_in. intros k Hk. f_equal.
      rewrite Forall_forall in Pl. destruct (Pl k Hk) as [Nk Pk]. rewrite kcat_named by assumption. assert (P2 : Forall plain (named top ++ k)) by (apply Forall_app; auto).
      rewrite tget_has by (left; exact P2). destruct (plain_slashed _ P2) as [-> _]. apply E, P2.
    + apply forest_nodup; [intros c _ Wk; apply below_nodup, Wk|exact Wc|exact Nd].
    + intros k Pk Nk. rewrite <- E by (apply Forall_app; auto). unfold has. rewrite Er. cbn [lko]. rewrite (lk_app n t top Ct F k Nk). apply forest_iff; assumption.
    + intros a q s b El Nq. eapply forest_order; [exact El|]. destruct q; [congruence|cbn; lia].
    + apply forest_follows; [|exact Nd]. intros c Hc. apply below_follows. rewrite Forall_forall in Wc. auto.
  - exists []. assert (X : forall k, Forall plain k -> k <> [] -> sets hs (named top ++ k) = None).
    { intros k Pk Nk. rewrite <- E by (apply Forall_app; auto). unfold has. rewrite Er. cbn [lko]. pose proof (find_lk t top (or_introl Ct)) as Fl. rewrite F in Fl. destruct k as [|s k]; [congruence|]. apply Fl. }
    split; [intros [|fuel] L; [cbn in L; lia|]; assert (T : tnames g top = None) by (unfold tnames, titer; rewrite Er, F; reflexivity); unfold trec, rewind; rewrite T; reflexivity|].
    split; [constructor|]. split; [constructor|]. split; [|split; intros [|]; discriminate]. intros k Pk Nk. rewrite X by assumption. split; [congruence|]. intros (k0 & [] & _).
  - exists []. assert (X : forall k, Forall plain k -> k <> [] -> sets hs (named top ++ k) = None).
    { intros k Pk Nk. rewrite <- E by (apply Forall_app; auto). unfold has. rewrite Er. reflexivity. }
    split; [intros [|fuel] L; [cbn in L; lia|]; assert (T : tnames g top = None) by (unfold tnames, titer; rewrite Er; reflexivity); unfold trec, rewind; rewrite T; reflexivity|].
    split; [constructor|]. split; [constructor|]. split; [|split; intros [|]; discriminate]. intros k Pk Nk. rewrite X by assumption. split; [congruence|]. intros (k0 & [] & _).
Qed.
(** At the end next() keeps returning false, whatever the generator, and key() is the
    root. *)
Theorem C57_end iter top s s' : next iter top s = Ok (s', false) -> next iter top s' = Ok (s', false).
Proof.
  unfold next at 1. destruct (descend iter top s) as [s1| |]; cbn [bind]; try discriminate. intros H. assert (E : climb (itlist s1) (current s1) = (s', false)) by congruence. clear H.
  assert (X : forall l c, climb l c = (s', false) -> itlist s' = [] /\ sub_next s' = false).
  { induction l as [|[o [|x l0]] l IH]; intros c Hc; cbn [climb] in Hc; [injection Hc as <-; auto|exact (IH _ Hc)|discriminate]. }
  apply X in E. destruct s' as [i c b], E as [Ei Eb]. cbn in Ei, Eb. subst. reflexivity.
Qed.
(** Any generator whose iterator() lists names: no step of next() or key() ever fails. *)
Theorem C57_safe iter top : forall fuel s, (sub_next s = true -> exists x l r, itlist s = (Some x, l) :: r) -> run iter top fuel s <> Fault.
Proof.
  assert (X : forall l c s' b, climb l c = (s', b) -> (sub_next s' = true -> exists x l r, itlist s' = (Some x, l) :: r) /\ (b = true -> exists x l r, itlist s' = (Some x, l) :: r)).
  { induction l as [|[o [|x l0]] l IH]; intros c s' b Hc; cbn [climb] in Hc.
    - injection Hc as <- <-. split; discriminate.
    - exact (IH _ _ _ Hc).
    - injection Hc as <- <-. cbn. eauto 8. }
  induction fuel as [|fuel IH]; intros s H; [discriminate|]. cbn [run]. unfold next.
  assert (D : exists s1, descend iter top s = Ok s1).
  { unfold descend. destruct (sub_next s); [|eauto]. destruct (H eq_refl) as (x & l & r & ->). destruct (iter _); eauto. }
  destruct D as (s1 & ->). cbn [bind]. destruct (climb (itlist s1) (current s1)) as [s' b] eqn:E. destruct (X _ _ _ _ E) as [X1 X2]. destruct b; [|discriminate].
  destruct (X2 eq_refl) as (x & l & r & El). unfold rkey. rewrite El. cbn [bind]. specialize (IH s' X1). destruct (run iter top fuel s'); cbn [bind]; congruence.
Qed.

Definition ex_g : gen := fst (tset (fst (tset (fst (tset tinit [B "a"; B "b"; B "c"] (Some (B "1")))) [B "a"; B "d"] (Some (B "2")))) [B "e"] (Some (B "3"))).
Example ex_history : exists hs ns, history tinit hs ns ex_g /\ canonical_history hs.
Proof.
  exists [([B "a"; B "b"; B "c"], Some (B "1")); ([B "a"; B "d"], Some (B "2")); ([B "e"], Some (B "3"))]. eexists. split.
  - eapply H_set; [reflexivity|]. eapply H_set; [reflexivity|]. eapply H_set; [reflexivity|]. apply H_end.
  - assert (P : forall s, In s [B "a"; B "b"; B "c"; B "d"; B "e"] -> plain s).
    { intros s H. cbn [In] in H. repeat (destruct H as [<-|H]; [split; [discriminate|]; split; intros [X|[]]; discriminate|]). contradiction. }
    repeat (constructor; [left; repeat (constructor; [apply P; cbn [In]; auto 9|]); constructor|]). constructor.
Qed.
Example ex_recursive : trec 9 ex_g [] = Ok [([B "a"], Some []); ([B "a"; B "b"], Some []); ([B "a"; B "b"; B "c"], Some (B "1")); ([B "a"; B "d"], Some (B "2")); ([B "e"], Some (B "3"))] /\
  trec 9 ex_g [B "A"; []] = Ok [([B "b"], Some []); ([B "b"; B "c"], Some (B "1")); ([B "d"], Some (B "2"))] /\ trec 9 ex_g [B "x"] = Ok [].
Proof. vm_compute. repeat split; reflexivity. Qed.
Print Assumptions C57_recursive.
Print Assumptions C57_end.
Print Assumptions C57_safe.
