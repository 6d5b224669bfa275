(** C103: firewall objects. *)
From Verif Require Import Base BaseFacts FwSpec FwModel FwProofs.
From Coq Require Import NArith Lia.
Local Open Scope nat_scope.

(** No rule is left behind: after any history of calls on [n] objects, no rule is there
    more often than before plus what the objects were asked for since they were zapped. *)
Theorem C103_noleak n k0 l r : Forall (fun o => who o < n) l -> count r (kern (run (boot k0) l)) <= count r k0 + total n (asked l) r.
Proof. intros F. apply le_run. exact F. Qed.
(** When all objects are zapped, as by their destructors: nothing of theirs is there. *)
Theorem C103_closed n k0 l r : Forall (fun o => who o < n) l -> count r (kern (run (boot k0) (l ++ map Zap (seq 0 n)))) <= count r k0.
Proof.
  intros F. pose proof (C103_noleak n k0 (l ++ map Zap (seq 0 n)) r) as H.
  assert (Z : forall f, f < n -> asked (l ++ map Zap (seq 0 n)) f = []).
  { assert (G : forall m w f, f < m -> fold_left asked1 (map Zap (seq 0 m)) w f = []).
    { induction m as [|m IH]; intros w f L; [lia|]. rewrite seq_S, map_app, fold_left_app. cbn [map fold_left asked1 Nat.add]. unfold upd. destruct (Nat.eqb_spec f m); [reflexivity|apply IH; lia]. }
    intros f L. unfold asked. rewrite fold_left_app. apply G, L. }
  assert (T : total n (asked (l ++ map Zap (seq 0 n))) r = 0).
  { unfold total. rewrite (map_ext_in _ (fun _ => 0)); [clear; induction (seq 0 n) as [|x t IH]; [reflexivity|exact IH]|]. intros f I. apply in_seq in I. rewrite Z by lia. reflexivity. }
  rewrite T in H. rewrite Nat.add_0_r in H. apply H. apply Forall_app. split; [exact F|]. apply Forall_forall. intros o I. apply in_map_iff in I as (f & <- & I). apply in_seq in I. cbn [who]. lia.
Qed.
(** Rules of nobody's items stay, in their order. *)
Theorem C103_others (p : rule -> bool) k0 l : (forall o i r, In o l -> In i (item_of o) -> In r (rules i) -> p r = false) -> filter p (kern (run (boot k0) l)) = filter p k0.
Proof. intros H. apply (foreign_run p l (boot k0)); [constructor|]. intros o i Io Ii r Ir. exact (H o i r Io Ii Ir). Qed.
(** Each rule is there exactly as often as it should, if del_* is not used and no object
    has the same forward twice. *)
Theorem C103_exact_partial n k0 l r : Forall (fun o => who o < n /\ forall f i, o <> Del f i) l ->
  (forall p q f s d b, l = p ++ q -> count_occ item_dec (asked p f) (Forward s d b) <= 1) -> count r (kern (run (boot k0) l)) = count r k0 + total n (asked l) r.
Proof. intros F DF. apply eq_run; [exact F|]. intros p q f E s d b. eapply DF. exact E. Qed.

Definition web := Port (Addr 0 80).
Definition fwd := Forward (Addr 16909060 80) (Addr 167772161 8080) false.
(** del_port, and then the destructor, delete twice: the second rule was another object's. *)
Theorem C103_del_refuted : let l := [Add 0 web; Add 1 web; Del 0 web; Zap 0] in kern (run (boot []) l) = [] /\ asked l 1 = [web].
Proof. split; vm_compute; reflexivity. Qed.
(** So does the destructor of an object that has the same forward twice. *)
Theorem C103_forward_refuted : let l := [Add 0 fwd; Add 0 fwd; Add 1 fwd; Zap 0] in kern (run (boot []) l) = [] /\ asked l 1 = [fwd].
Proof. split; vm_compute; reflexivity. Qed.

Definition ex := [Add 0 web; Add 1 web; Add 1 fwd; Add 0 (Redir (Addr 0 80) 3128); Zap 0].
Example C103_ex : kern (run (boot [AllTo 7]) ex) = AllTo 7 :: rules web ++ rules fwd /\ kern (run (boot [AllTo 7]) (ex ++ [Zap 1])) = [AllTo 7] /\ length (rules fwd) = 6.
Proof. repeat split; vm_compute; reflexivity. Qed.
Example C103_meets : Forall (fun o => who o < 2 /\ forall f i, o <> Del f i) ex /\ (forall p q f s d b, ex = p ++ q -> count_occ item_dec (asked p f) (Forward s d b) <= 1) /\
  (forall o i r, In o ex -> In i (item_of o) -> In r (rules i) -> (match r with AllTo _ => true | _ => false end) = false).
Proof.
  split; [repeat (constructor; [split; [cbn; lia|discriminate]|]); constructor|]. split.
  - intros p q f s d b E. assert (C : forall l x, In x l -> count_occ item_dec l (Forward s d b) <= length (filter (fun i => match i with Forward _ _ _ => true | _ => false end) l)).
    { intros l _ _. induction l as [|y l IH]; [reflexivity|]. cbn [count_occ filter]. destruct (item_dec y (Forward s d b)) as [->|]; [cbn [length]; lia|]. destruct y; cbn [length]; lia. }
    destruct (asked p f) as [|x t] eqn:A1; [cbn; lia|]. specialize (C (x :: t) x (or_introl eq_refl)). rewrite <- A1 in *. enough (length (filter (fun i => match i with Forward _ _ _ => true | _ => false end) (asked p f)) <= 1) by lia. clear C A1 x t s d b.
    unfold ex in E. do 6 (destruct p as [|? p]; [unfold asked; cbn [fold_left asked1]; unfold upd; destruct f as [|[|f]]; cbn; lia|injection E as <- E || discriminate]).
  - intros o i r Io. repeat destruct Io as [<-|Io]; cbn [item_of]; intros Ii; try destruct Io; try destruct Ii as [<-|[]]; try destruct Ii; intros Ir; cbn in Ir; repeat (destruct Ir as [<-|Ir]; [reflexivity|]); destruct Ir.
Qed.

Print Assumptions C103_noleak.
Print Assumptions C103_closed.
Print Assumptions C103_others.
Print Assumptions C103_exact_partial.
Print Assumptions C103_del_refuted.
Print Assumptions C103_forward_refuted.
