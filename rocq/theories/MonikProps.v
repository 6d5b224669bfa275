(** C87: a moniker runs the newest factory registered for its name, and the
    registries live as long as they are needed. *)
From Verif Require Import Base Ctype UrlModel ConfModel IniSpec IniProofs ConfSpec ConfProofs2 MonikSpec MonikModel MonikProofs.
Local Open Scope nat_scope.

(** Any history of registrations, destructions and calls, also from inside
    factories, in which a registration object outlives those that override it:
    the code answers as the specification does and touches nothing that is
    freed; and there is a registry for exactly the interfaces that are in use. *)
Theorem C87_create : forall ops ms cs rs, steps ([], []) ops (ms, cs) rs ->
  exists w, run ops empty_world = Ok (w, rs) /\
    (forall i, regs w i <> None <-> (exists m, In m ms /\ iface m = i) \/ (exists c, In c cs /\ call_iface c = i)) /\
    (forall a, heap w a <> None -> exists i, regs w i = Some a).
Proof.
  intros ops ms cs rs S. destruct (steps_ok _ _ _ _ S empty_world inv_empty) as (w & R & [IS IN IH IF IM IC _ _]). cbn [fst snd] in *.
  exists w. split; [exact R|]. split.
  - intros i. split.
    + destruct (regs w i) as [a|] eqn:E; [intros _|congruence]. destruct (IS _ _ E) as (_ & P). unfold uses in P.
      assert (G : forall A (p : A -> bool) l, (0 < countb p l)%Z -> exists x, In x l /\ p x = true).
      { intros A p l. induction l as [|x l G]; cbn [countb]; [lia|]. destruct (p x) eqn:Q; [exists x; cbn; auto|]. intros H. destruct G as (y & Y1 & Y2); [lia|]. exists y. cbn. auto. }
      assert (D : (0 < countb (of_m i) ms \/ 0 < countb (of_c i) cs)%Z) by lia. destruct D as [D|D]; apply G in D; destruct D as (x & X1 & X2); apply Nat.eqb_eq in X2; [left|right]; eauto.
    + intros [(m & M & E)|(c & C & E)]; [destruct (IM _ M) as (a & A & _)|destruct (IC _ C) as (a & A & _)]; congruence.
  - intros a H. destruct (heap w a) as [r|] eqn:E; [|congruence]. exists (reg_iid r). apply IH, E.
Qed.
Print Assumptions C87_create.

(** Without overriding, the objects may be destroyed in any order. *)
Theorem C87_plain : forall ops ms cs rs, steps ([], []) ops (ms, cs) rs ->
  Forall (fun o => match o with New _ _ _ _ ov => ov = false | _ => True end) ops ->
  forall m, In m ms -> newest (iface m) (name m) ms m.
Proof.
  intros ops ms cs rs S F.
  assert (G : forall x ops y rs, steps x ops y rs -> Forall (fun o => match o with New _ _ _ _ ov => ov = false | _ => True end) ops ->
    (forall l1 m l2, fst x = l1 ++ m :: l2 -> forall n, In n (l1 ++ l2) -> iface n <> iface m \/ name n <> name m) ->
    (forall l1 m l2, fst y = l1 ++ m :: l2 -> forall n, In n (l1 ++ l2) -> iface n <> iface m \/ name n <> name m)).
  { induction 1 as [x|x o y ops' z r rs' S1 S2 IH]; intros FF H; [exact H|]. inversion FF as [|? ? F1 F2]; subst. apply IH; [exact F2|]. clear IH S2.
    destruct S1 as [l cs' h i id f ov NH NO|ms1 m0 ms2 cs' NW|l cs' c i s id rest m0 NC NA NW|l cs' c i s id rest NC NA NU|l cs1 c cs2]; cbn [fst] in *; auto.
    - intros l1 m l2 E n I. destruct l1 as [|y l1]; cbn [app] in E; injection E as E1 E2.
      + subst m l2. cbn [iface name]. apply NO; [exact F1|exact I].
      + subst y. cbn [app] in I. destruct I as [<-|I]; [|apply (H _ _ _ E2 _ I)]. cbn [iface name].
        destruct (NO F1 m) as [N|N]; [rewrite E2; apply in_elt|left; congruence|right; congruence].
    - intros l1 m l2 E n I.
      assert (D : exists k1 k2, ms1 ++ m0 :: ms2 = k1 ++ m :: k2 /\ incl (l1 ++ l2) (k1 ++ k2)).
      { apply app_eq_app in E. destruct E as (l & [[E1 E2]|[E1 E2]]).
        - destruct l as [|z0 l]; cbn [app] in E2.
          + subst ms2. rewrite app_nil_r in E1. subst ms1. exists (l1 ++ [m0]), l2. split; [rewrite <- app_assoc; reflexivity|].
            intros q Q. rewrite <- app_assoc. apply in_app_iff in Q. apply in_or_app. cbn. tauto.
          + injection E2 as <- E2. subst. exists l1, (l ++ m0 :: ms2). split; [rewrite <- app_assoc; reflexivity|].
            intros q Q. apply in_app_iff in Q. apply in_or_app. destruct Q as [Q|Q]; [auto|]. right. apply in_app_iff in Q. apply in_or_app. cbn. tauto.
        - subst. exists (ms1 ++ m0 :: l), l2. split; [rewrite <- app_assoc; reflexivity|].
          intros q Q. apply in_app_iff in Q. apply in_or_app. destruct Q as [Q|Q]; [|auto]. left. apply in_app_iff in Q. apply in_or_app. cbn. tauto. }
      destruct D as (k1 & k2 & D & IN). apply (H _ _ _ D). apply IN, I. }
  intros m I. apply in_split in I. destruct I as (l1 & l2 & ->).
  assert (K := G _ _ _ _ S F ltac:(intros [|? ?] ? ? E; discriminate) l1 m l2 eq_refl). clear G S. cbn [fst] in K.
  induction l1 as [|x l1 IH]; cbn [app] in *; [constructor; reflexivity|]. apply there; [apply K; left; reflexivity|]. apply IH. intros n I. apply K. right. exact I.
Qed.
Print Assumptions C87_plain.

(** Every string has exactly one reading as a moniker. *)
Theorem C87_names : forall s, exists id rest, names s id rest /\ forall id' rest', names s id' rest' -> id' = id /\ rest' = rest.
Proof.
  intros s. destruct (trim_parts s) as (a & b & E & A & C & T).
  assert (W : forall l, Forall (fun c => isspace c = true) l -> Forall white l) by (intros l H; eapply Forall_impl; [|exact H]; intros c; apply white_isspace).
  destruct (cut (trim_string s) ":") as [[id rest]|] eqn:K.
  - exists id, rest. pose proof K as K'. apply cut_iff in K'. destruct K' as [K1 K2]. assert (N : names s id rest) by (exists a, (trim_string s), b; auto 10).
    split; [exact N|]. intros id' rest' N'. apply split_names in N, N'. split; congruence.
  - exists (trim_string s), []. apply cut_none in K. assert (N : names s (trim_string s) []) by (exists a, (trim_string s), b; auto 10).
    split; [exact N|]. intros id' rest' N'. apply split_names in N, N'. split; congruence.
Qed.
Print Assumptions C87_names.

(** If the overridden registration object goes first, it takes the wrong
    registration with it: the factory 1 is run although its object 1 is gone, and
    the live object 2 has lost its own. *)
Theorem C87_order_refuted :
  exists w, run [New 1 0 (B "ini") 1 false; New 2 0 (B "ini") 2 true; Begin 1 0 (B "ini:/etc/x"); End 1; Destroy 1; Begin 2 0 (B "ini:/etc/x")] empty_world =
    Ok (w, [None; None; Some (Some (2, B "/etc/x")); None; None; Some (Some (1, B "/etc/x"))]).
Proof. eexists. vm_compute. reflexivity. Qed.
Print Assumptions C87_order_refuted.

(** A factory that creates another object and whose call is the last user of
    the registry. *)
Example C87_ex :
  let ops := [New 1 0 (B "ini") 1 false; New 2 0 (B "ro") 2 false; New 3 1 (B "ini") 3 false;
    Begin 1 0 (B " ro:ini:x "); Begin 2 0 (B "ini:x"); End 2; Destroy 1; Destroy 2; Begin 3 0 (B "ro:"); End 3; End 1; Begin 4 1 (B "ini")] in
  exists w, run ops empty_world = Ok (w, [None; None; None; Some (Some (2, B "ini:x")); Some (Some (1, B "x")); None; None; None; Some None; None; None; Some (Some (3, []))]) /\
    regs w 0 = None /\ regs w 1 <> None.
Proof. cbn zeta. eexists. split; [vm_compute; reflexivity|]. split; vm_compute; congruence. Qed.

Example C87_ex_steps :
  steps ([], []) [New 1 0 (B "ro") 1 false; New 2 0 (B "ro") 2 true; Begin 1 0 (B "ro:x"); Destroy 2; End 1]
    ([Moniker 1 0 (B "ro") 1], []) [None; None; Some (Some (2, B "x")); None; None].
Proof.
  eapply steps_cons; [apply step_new; [intros []|intros _ m []]|].
  eapply steps_cons; [apply step_new; [intros [H|[]]; discriminate|discriminate]|].
  eapply steps_cons.
  { eapply (step_found _ _ 1 0 _ (B "ro") (B "x") (Moniker 2 0 (B "ro") 2)); [intros []| |constructor; reflexivity].
    exists [], (B "ro:x"), []. split; [reflexivity|]. split; [constructor|]. split; [constructor|]. split.
    - eapply trimmed_iff with (d := "x"%char) (t := B "ro:"); reflexivity.
    - split; [cbn; intuition discriminate|]. left. reflexivity. }
  eapply steps_cons; [apply (step_destroy [] (Moniker 2 0 (B "ro") 2) [Moniker 1 0 (B "ro") 1]); constructor; reflexivity|].
  eapply steps_cons; [apply (step_end _ [] (Call 1 0) [])|]. apply steps_nil.
Qed.
