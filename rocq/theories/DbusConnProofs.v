(** Proofs about D-Bus connections *)
From Coq Require Import Sorting.Permutation.
From Verif Require Import Base DbusConnModel DbusConnSpec.
Local Open Scope Z_scope.

Definition key (p : pend) : nat * Z := (req p, pserial p).
Definition cancels (l : list frame) : list pend := flat_map (fun f => match f with InCancel p => [p] | _ => [] end) l.
Definition replies (l : list frame) : list pend := flat_map (fun f => match f with InReply p => [p] | _ => [] end) l.
Definition rests (l : list frame) : list filt := flat_map (fun f => match f with InFilter _ r => r | _ => [] end) l.
Definition is_cancel (f : frame) : Prop := match f with InCancel _ => True | _ => False end.
Fixpoint ordered (l : list filt) : Prop := match l with [] => True | f :: r => (forall g, In g r -> pri f <= pri g) /\ ordered r end.
Definition shape (s : st) : Prop := match sel s with None => Forall is_cancel (frames s) | Some _ => exists above base, frames s = above ++ [base] /\ Forall is_cancel above /\ ~ is_cancel base end.
Definition all (s : st) : list pend := pending s ++ cancels (frames s).
Record good (s : st) (v : view) : Prop := {
  g_proper : proper (past s) v;
  g_due : due v = Free;
  g_open : Permutation (map key (all s)) (open v ++ map key (replies (frames s)));
  g_ids : NoDup (map req (all s));
  g_ser : NoDup (map pserial (all s));
  g_tot : forall p, In p (all s) -> (req p < total s)%nat;
  g_rep : forall p, In (InReply p) (frames s) -> In p (pending s);
  g_regs : regs v = filters s;
  g_off : Permutation (offered v) (rests (frames s));
  g_sorted : forall m l, In (InFilter m l) (frames s) -> ordered l /\ incl l (filters s);
  g_shape : shape s }.

(** ** Lists *)
Lemma in_cancels p l : In p (cancels l) <-> In (InCancel p) l.
Proof. unfold cancels. rewrite in_flat_map. split; [intros (f & H & I); destruct f; cbn in I; try tauto; destruct I as [->|[]]; exact H|intros H; exists (InCancel p); cbn; auto]. Qed.
Lemma in_replies p l : In p (replies l) <-> In (InReply p) l.
Proof. unfold replies. rewrite in_flat_map. split; [intros (f & H & I); destruct f; cbn in I; try tauto; destruct I as [->|[]]; exact H|intros H; exists (InReply p); cbn; auto]. Qed.
Lemma lookup_some z l p : lookup z l = Some p -> In p l /\ pserial p = z.
Proof. intros H. apply find_some in H. destruct H as [H E]. apply Z.eqb_eq in E. auto. Qed.
Lemma lookup_none z l : lookup z l = None -> forall p, In p l -> pserial p <> z.
Proof. intros H p I E. pose proof (find_none _ _ H p I) as N. cbn in N. apply Z.eqb_neq in N. auto. Qed.
Lemma lookup_perm z l p : lookup z l = Some p -> Permutation l (p :: remove_key z l).
Proof.
  unfold lookup. induction l as [|q l IH]; cbn; [discriminate|]. destruct (pserial q =? z); intros H; [injection H as ->; reflexivity|]. rewrite perm_swap. constructor. auto.
Qed.
Lemma lookup_in z l p : In p l -> pserial p = z -> NoDup (map pserial l) -> lookup z l = Some p.
Proof.
  unfold lookup. induction l as [|q l IH]; intros H E N; [contradiction|]. cbn in *. inversion N as [|? ? N1 N2]; subst. destruct H as [->|H]; [rewrite Z.eqb_refl; reflexivity|].
  destruct (Z.eqb_spec (pserial q) (pserial p)) as [Eq|]; [elim N1; rewrite Eq; apply in_map; exact H|auto].
Qed.
Lemma drop_app i a b : drop i (a ++ b) = drop i a ++ drop i b.
Proof. apply filter_app. Qed.
Lemma drop_none i l : ~ In i (map fst l) -> drop i l = l.
Proof.
  induction l as [|x l IH]; intros H; [reflexivity|]. cbn in *. destruct (Nat.eqb_spec (fst x) i) as [E|E]; [elim H; auto|]. cbn. f_equal. apply IH. tauto.
Qed.
Lemma filter_perm {A} (f : A -> bool) l l' : Permutation l l' -> Permutation (filter f l) (filter f l').
Proof.
  intros P. induction P; cbn; auto; repeat match goal with |- context [f ?x] => destruct (f x) end; auto using perm_swap; try constructor; auto; try (etransitivity; eauto). 
Qed.
Lemma drop_perm i l l' : Permutation l l' -> Permutation (drop i l) (drop i l').
Proof. apply filter_perm. Qed.
Lemma drop_front i z l : ~ In i (map fst l) -> drop i ((i, z) :: l) = l.
Proof. intros H. cbn. rewrite Nat.eqb_refl. cbn. apply drop_none. exact H. Qed.
Lemma fst_key l : map fst (map key l) = map req l.
Proof. rewrite map_map. reflexivity. Qed.
Lemma nodup_req l p q : NoDup (map req l) -> In p l -> In q l -> req p = req q -> p = q.
Proof.
  induction l as [|x l IH]; intros N Hp Hq E; [contradiction|]. cbn in N. inversion N as [|? ? N1 N2]; subst. destruct Hp as [->|Hp], Hq as [->|Hq]; auto.
  - elim N1. rewrite E. apply in_map. exact Hq.
  - elim N1. rewrite <- E. apply in_map. exact Hp.
Qed.
Lemma insert_perm f l : Permutation (insert f l) (f :: l).
Proof. induction l as [|g l IH]; cbn; [reflexivity|]. destruct (pri f <? pri g); [reflexivity|]. rewrite IH. apply perm_swap. Qed.
Lemma insert_ordered f l : ordered l -> ordered (insert f l).
Proof.
  induction l as [|g l IH]; intros H; [cbn; tauto|]. destruct H as [H1 H2]. cbn [insert]. destruct (Z.ltb_spec (pri f) (pri g)).
  - cbn. split; [intros x [<-|Hx]; [lia|specialize (H1 x Hx); lia]|auto].
  - cbn. split; [|auto]. intros x Hx. apply (Permutation_in _ (insert_perm f l)) in Hx. destruct Hx as [<-|Hx]; [lia|auto].
Qed.
Lemma sorted_ok l : Permutation (sorted l) l /\ ordered (sorted l).
Proof.
  unfold sorted. assert (G : forall l a, ordered a -> Permutation (fold_left (fun l f => insert f l) l a) (a ++ l) /\ ordered (fold_left (fun l f => insert f l) l a)).
  { clear. induction l as [|f l IH]; intros a H; cbn; [rewrite app_nil_r; auto|]. destruct (IH (insert f a) (insert_ordered f a H)) as [P O]. split; [|exact O]. rewrite P, insert_perm. apply (Permutation_middle a l f). }
  apply G. exact I.
Qed.

(** ** Adding requests *)
Lemma waits_all s v z : good s v -> waits v z -> exists p, In p (all s) /\ pserial p = z.
Proof.
  intros G (i & H). assert (I : In (i, z) (map key (all s))) by (eapply Permutation_in; [symmetry; apply (g_open s v G)|apply in_app_iff; auto]). apply in_map_iff in I. destruct I as (p & E & I). exists p. split; [exact I|]. unfold key in E. congruence.
Qed.
Lemma all_waits s v p : good s v -> In p (all s) -> (forall q, In (InReply q) (frames s) -> q <> p) -> In (key p) (open v).
Proof.
  intros G H N. assert (I : In (key p) (open v ++ map key (replies (frames s)))) by (eapply Permutation_in; [apply (g_open s v G)|apply in_map; exact H]).
  apply in_app_iff in I. destruct I as [I|I]; [exact I|]. apply in_map_iff in I. destruct I as (q & E & I). apply in_replies in I. elim (N q I). apply (nodup_req (all s)); [apply (g_ids s v G)|apply in_app_iff; left; apply (g_rep s v G); exact I|exact H|unfold key in E; congruence].
Qed.
Lemma fresh_open s v y : good s v -> ~ In (total s, y) (open v).
Proof.
  intros G H. assert (I : In (total s, y) (map key (all s))) by (eapply Permutation_in; [symmetry; apply (g_open s v G)|apply in_app_iff; auto]). apply in_map_iff in I. destruct I as (p & E & I). apply (g_tot s v G) in I. unfold key in E. injection E as E _. lia.
Qed.
Lemma send_good s v z : good s v -> good (send s z) v.
Proof. intros G. unfold send. destruct (authorized s); destruct G; constructor; auto. Qed.
Lemma next_good s v n : good s v -> good (set_next s n) v.
Proof. intros G. destruct G; constructor; auto. Qed.
Lemma add_good s v z t : good s v -> ~ answering s z -> exists v', good (add_pending s z t) v'.
Proof.
  intros G A. unfold add_pending. cbn [pending note set_total].
  assert (NR : forall q, In (InReply q) (frames s) -> pserial q <> z) by (intros q H E; apply A; exists q; auto).
  assert (NC : forall q, In q (cancels (frames s)) -> pserial q <> z) by (intros q H E; apply A; exists q; split; [right; apply in_cancels; exact H|exact E]).
  set (p := Pend (total s) z t). destruct (lookup z (pending s)) as [q|] eqn:L.
  - destruct (lookup_some _ _ _ L) as [Hq Ez]. pose proof (lookup_perm _ _ _ L) as Pq.
    assert (Hk : In (req q, z) (open v)) by (rewrite <- Ez; apply (all_waits s v q G); [apply in_app_iff; auto|intros x Hx ->; exact (NR q Hx Ez)]).
    assert (Tq : (req q < total s)%nat) by (apply (g_tot s v G); apply in_app_iff; auto).
    set (v1 := View (open v ++ [(total s, z)]) (regs v) (Evict (total s) z) (offered v)).
    exists (View (drop (req q) (open v1)) (regs v) Free (offered v)).
    assert (PA : Permutation (all s) (q :: remove_key z (pending s) ++ cancels (frames s))) by (unfold all; rewrite Pq at 1; reflexivity).
    assert (ND : NoDup (map req (q :: remove_key z (pending s) ++ cancels (frames s)))) by (eapply Permutation_NoDup; [apply Permutation_map; exact PA|apply (g_ids s v G)]).
    assert (NS : NoDup (map pserial (q :: remove_key z (pending s) ++ cancels (frames s)))) by (eapply Permutation_NoDup; [apply Permutation_map; exact PA|apply (g_ser s v G)]).
    cbn [map] in ND, NS. inversion ND as [|? ? ND1 ND2]; subst. inversion NS as [|? ? NS1 NS2]; subst.
    assert (PN : forall {B} (f : pend -> B), Permutation (map f (remove_key (pserial q) (pending s) ++ cancels (InCancel p :: frames s))) (f p :: map f (remove_key (pserial q) (pending s) ++ cancels (frames s)))) by (intros B f; cbn [cancels flat_map app]; fold (cancels (frames s)); rewrite <- Permutation_middle; reflexivity).
    constructor; cbn [past note set_pending set_frames frames pending total set_total filters sel due open regs offered v1].
    + eapply pr_snoc; [eapply pr_snoc; [apply (g_proper s v G)|apply al_evicting; [apply (g_due s v G)|intros y; apply (fresh_open s v y G)|exists (req q); exact Hk]]|].
      apply (al_cancelled v1 (req q) (total s) (pserial q)); [reflexivity|cbn; apply in_app_iff; auto|lia].
    + reflexivity.
    + unfold all. cbn [pending frames]. rewrite PN. rewrite drop_app. change (replies (InCancel p :: frames s)) with (replies (frames s)).
      replace (drop (req q) [(total s, pserial q)]) with [(total s, pserial q)] by (cbn; destruct (Nat.eqb_spec (total s) (req q)); [lia|reflexivity]). change (key p) with (total s, pserial q). rewrite <- app_assoc. cbn [app]. rewrite <- Permutation_middle. constructor.
      pose proof (drop_perm (req q) _ _ (g_open s v G)) as PD. rewrite drop_app in PD. rewrite (drop_none (req q) (map key (replies (frames s)))) in PD.
      * rewrite <- PD. rewrite (drop_perm (req q) _ _ (Permutation_map key PA)). cbn [map]. change (key q) with (req q, pserial q). rewrite drop_front; [reflexivity|]. rewrite fst_key. exact ND1.
      * rewrite fst_key. intros H. apply in_map_iff in H. destruct H as (x & Ex & Hx). apply in_replies in Hx. assert (x = q) by (apply (nodup_req (all s)); [apply (g_ids s v G)|apply in_app_iff; left; apply (g_rep s v G); exact Hx|apply in_app_iff; auto|exact Ex]). subst x. exact (NR q Hx eq_refl).
    + unfold all. cbn [pending frames]. eapply Permutation_NoDup; [symmetry; apply PN|]. constructor; [|exact ND2]. change (req p) with (total s). intros H. apply in_map_iff in H. destruct H as (x & Ex & Hx). assert (In x (all s)) by (eapply Permutation_in; [symmetry; exact PA|right; exact Hx]). apply (g_tot s v G) in H. lia.
    + unfold all. cbn [pending frames]. eapply Permutation_NoDup; [symmetry; apply PN|]. constructor; assumption.
    + unfold all. cbn [pending frames]. intros x Hx. cbn [cancels flat_map app] in Hx. apply in_app_iff in Hx. destruct Hx as [Hx|[<-|Hx]]; [|cbn; lia|].
      * assert (In x (all s)) by (eapply Permutation_in; [symmetry; exact PA|right; apply in_app_iff; auto]). apply (g_tot s v G) in H. lia.
      * assert (In x (all s)) by (apply in_app_iff; auto). apply (g_tot s v G) in H. lia.
    + intros x [H|H]; [discriminate|]. pose proof (g_rep s v G x H) as I. apply (Permutation_in _ Pq) in I. destruct I as [<-|I]; [elim (NR q H eq_refl)|exact I].
    + apply (g_regs s v G).
    + apply (g_off s v G).
    + intros m l [H|H]; [discriminate|]. apply (g_sorted s v G m l H).
    + unfold shape. pose proof (g_shape s v G) as S. unfold shape in S. cbn [sel frames set_frames set_pending note set_total]. destruct (sel s); [|constructor; [exact I|exact S]]. destruct S as (a & b & E & F1 & F2). exists (InCancel p :: a), b. rewrite E. split; [reflexivity|]. split; [constructor; [exact I|exact F1]|exact F2].
  - pose proof (lookup_none _ _ L) as N. assert (NW : ~ waits v z).
    { intros W. destruct (waits_all s v z G W) as (x & Hx & Ex). apply in_app_iff in Hx. destruct Hx as [Hx|Hx]; [exact (N x Hx Ex)|exact (NC x Hx Ex)]. }
    assert (PN : forall {B} (f : pend -> B), Permutation (map f ((pending s ++ [p]) ++ cancels (frames s))) (f p :: map f (all s))) by (intros B f; unfold all; rewrite <- app_assoc; cbn [app]; rewrite <- Permutation_middle; reflexivity).
    exists (View (open v ++ [(total s, z)]) (regs v) Free (offered v)). constructor; cbn [past note set_pending set_frames frames pending total set_total filters sel due open regs offered].
    + eapply pr_snoc; [apply (g_proper s v G)|]. apply al_asked; [apply (g_due s v G)|intros y; apply (fresh_open s v y G)|exact NW].
    + reflexivity.
    + unfold all. cbn [pending frames]. rewrite PN. rewrite <- app_assoc. cbn [app]. rewrite <- Permutation_middle. constructor. apply (g_open s v G).
    + unfold all. cbn [pending frames]. eapply Permutation_NoDup; [symmetry; apply PN|]. constructor; [|apply (g_ids s v G)]. intros H. apply in_map_iff in H. destruct H as (x & Ex & Hx). apply (g_tot s v G) in Hx. cbn in Ex. lia.
    + unfold all. cbn [pending frames]. eapply Permutation_NoDup; [symmetry; apply PN|]. constructor; [|apply (g_ser s v G)]. intros H. apply in_map_iff in H. destruct H as (x & Ex & Hx). cbn in Ex. apply in_app_iff in Hx. destruct Hx as [Hx|Hx]; [exact (N x Hx Ex)|exact (NC x Hx Ex)].
    + unfold all. cbn [pending total frames set_frames set_pending note set_total]. intros x Hx. rewrite <- app_assoc in Hx. apply in_app_iff in Hx. destruct Hx as [Hx|Hx]; [|cbn [app] in Hx; destruct Hx as [<-|Hx]; [cbn; lia|]]; (assert (H : In x (all s)) by (apply in_app_iff; auto); apply (g_tot s v G) in H; lia).
    + intros x H. apply in_app_iff. left. apply (g_rep s v G x H).
    + apply (g_regs s v G).
    + apply (g_off s v G).
    + apply (g_sorted s v G).
    + apply (g_shape s v G).
Qed.

(** ** While no callback runs *)
Record calm (s : st) (v : view) : Prop := {
  c_frames : frames s = [];
  c_proper : proper (past s) v;
  c_due : due v = Free;
  c_open : Permutation (map key (pending s)) (open v);
  c_ids : NoDup (map req (pending s));
  c_ser : NoDup (map pserial (pending s));
  c_tot : forall p, In p (pending s) -> (req p < total s)%nat;
  c_regs : regs v = filters s }.
Lemma all_nil s : frames s = [] -> all s = pending s.
Proof. unfold all. intros ->. apply app_nil_r. Qed.
Lemma good_calm s v : good s v -> frames s = [] -> calm s v /\ offered v = [].
Proof.
  intros G E. pose proof (all_nil s E) as A. pose proof (g_open s v G) as O. pose proof (g_ids s v G) as I. pose proof (g_ser s v G) as S. pose proof (g_tot s v G) as T. pose proof (g_off s v G) as F. rewrite A in *. rewrite E in O, F. cbn in O, F. rewrite app_nil_r in O.
  split; [constructor; auto; apply G|]. apply Permutation_nil. symmetry. exact F.
Qed.
Lemma calm_good s v : calm s v -> offered v = [] -> sel s = None -> good s v.
Proof.
  intros C O S. pose proof (c_frames s v C) as F. pose proof (all_nil s F) as A. constructor; rewrite ?A; try apply C.
  - rewrite F. cbn. rewrite app_nil_r. apply C.
  - rewrite F. intros p [].
  - rewrite F, O. reflexivity.
  - rewrite F. intros m l [].
  - unfold shape. rewrite S, F. constructor.
Qed.
Lemma calm_queue s v q r : calm s v -> calm (set_queue s q r) v.
Proof. intros C. destruct C; constructor; auto. Qed.
Lemma calm_sel s v x : calm s v -> calm (set_sel s x) v.
Proof. intros C. destruct C; constructor; auto. Qed.
Lemma calm_note s v o v' : calm s v -> allowed v o v' -> due v' = Free -> open v' = open v -> regs v' = regs v -> calm (note s o) v'.
Proof. intros C A D O R. destruct C. constructor; auto; cbn [note past pending filters]; [eapply pr_snoc; eauto|rewrite O; auto|rewrite R; auto]. Qed.
Lemma in_filters f l : In f l -> existsb (fun g => Nat.eqb (fid g) (fid f)) l = true.
Proof. intros H. apply existsb_exists. exists f. split; [exact H|apply Nat.eqb_refl]. Qed.
Lemma offer_good s v m l : calm s v -> Permutation (offered v) l -> ordered l -> incl l (filters s) ->
  match l with
  | [] => offer s m l = Ok (s, false)
  | _ :: _ => exists s', offer s m l = Ok (s', true) /\ forall x, exists v', good (set_sel s' (Some x)) v'
  end.
Proof.
  intros C P O I. destruct l as [|f r]; [reflexivity|]. cbn [offer]. rewrite in_filters by (apply I; left; reflexivity). eexists. split; [reflexivity|]. intros x.
  assert (Hf : In f (offered v)) by (eapply Permutation_in; [symmetry; exact P|left; reflexivity]). apply in_split in Hf. destruct Hf as (a & b & E). rewrite E in P.
  assert (P' : Permutation (a ++ b) r) by (apply (Permutation_cons_inv (a := f)); rewrite <- P; apply Permutation_middle).
  destruct O as [O1 O2]. pose proof (c_frames s v C) as F. exists (View (open v) (regs v) Free (a ++ b)).
  constructor; cbn [past note set_frames set_sel due open regs offered filters frames pending total]; unfold all; cbn [note set_frames set_sel frames pending]; rewrite ?F; cbn [cancels replies flat_map map app]; rewrite ?app_nil_r.
  - eapply pr_snoc; [apply C|]. apply al_offered; [apply C|exact E|]. intros g Hg. apply O1. eapply Permutation_in; [exact P'|exact Hg].
  - reflexivity.
  - apply C.
  - apply C.
  - apply C.
  - apply C.
  - intros p [H|[]]. discriminate.
  - apply C.
  - cbn [rests flat_map]. rewrite app_nil_r. exact P'.
  - intros m' l [H|[]]. injection H as <- <-. split; [exact O2|]. intros y Hy. apply I. right. exact Hy.
  - unfold shape. cbn [sel frames set_sel set_frames]. rewrite ?F. exists [], (InFilter m r). cbn [note frames]. rewrite ?F. split; [reflexivity|]. split; [constructor|]. cbn. tauto.
Qed.
Lemma filter_good s v m : calm s v -> offered v = [] ->
  (exists s' v', filter_func (note s (Got m)) m = Ok (s', false) /\ calm s' v' /\ offered v' = [] /\ queue s' = queue s) \/
  (exists s', filter_func (note s (Got m)) m = Ok (s', true) /\ forall x, exists v', good (set_sel s' (Some x)) v').
Proof.
  intros C O. unfold filter_func. change (pending (note s (Got m))) with (pending s). change (filters (note s (Got m))) with (filters s).
  destruct (if answers m =? 0 then None else lookup (answers m) (pending s)) as [p|] eqn:L.
  - right. eexists. split; [reflexivity|]. intros x. destruct (Z.eqb_spec (answers m) 0) as [|NZ]; [discriminate|]. destruct (lookup_some _ _ _ L) as [Hp Ep].
    assert (Hk : In (req p, answers m) (open v)) by (rewrite <- Ep; eapply Permutation_in; [apply (c_open s v C)|apply (in_map key); exact Hp]).
    pose proof (c_frames s v C) as F. set (v1 := View (open v) (regs v) (Answer m) []). exists (View (drop (req p) (open v)) (regs v) Free []).
    constructor; cbn [past note set_frames set_sel due open regs offered filters frames pending total]; unfold all; cbn [note set_frames set_sel frames pending]; rewrite ?F; cbn [cancels replies flat_map map app]; rewrite ?app_nil_r.
    + eapply pr_snoc; [eapply pr_snoc; [apply C|apply al_answer; [apply C|exact O|exact NZ|exists (req p); exact Hk]]|]. apply (al_called v1); [reflexivity|exact Hk].
    + reflexivity.
    + pose proof (lookup_perm _ _ _ L) as Pq. rewrite (Permutation_map key Pq). cbn [map]. rewrite <- Permutation_cons_append. constructor.
      rewrite <- (drop_perm (req p) _ _ (c_open s v C)). rewrite (drop_perm (req p) _ _ (Permutation_map key Pq)). cbn [map]. change (key p) with (req p, pserial p). rewrite drop_front; [reflexivity|]. rewrite fst_key.
      pose proof (c_ids s v C) as N. apply (Permutation_NoDup (Permutation_map req Pq)) in N. cbn in N. inversion N. assumption.
    + apply C.
    + apply C.
    + apply C.
    + intros q [H|[]]. injection H as <-. exact Hp.
    + apply C.
    + reflexivity.
    + intros m' l [H|[]]. discriminate.
    + unfold shape. cbn [sel frames set_sel set_frames]. exists [], (InReply p). cbn [note frames]. rewrite ?F. split; [reflexivity|]. split; [constructor|]. cbn. tauto.
  - destruct (sorted_ok (filters s)) as [P1 P2]. set (v1 := View (open v) (regs v) Free (regs v)).
    assert (A : allowed v (Got m) v1).
    { apply al_message; [apply C|exact O|]. destruct (Z.eqb_spec (answers m) 0) as [E|E]; [auto|]. right. intros (i & H). assert (I : In (i, answers m) (map key (pending s))) by (eapply Permutation_in; [symmetry; apply (c_open s v C)|exact H]). apply in_map_iff in I. destruct I as (q & Eq & Hq). apply (lookup_none _ _ L q Hq). unfold key in Eq. congruence. }
    assert (C1 : calm (note s (Got m)) v1) by (apply (calm_note s v); auto).
    pose proof (offer_good (note s (Got m)) v1 m (sorted (filters s)) C1) as G. cbn [offered v1] in G. rewrite (c_regs s v C) in G.
    specialize (G (Permutation_sym P1) P2 (fun y Hy => Permutation_in y P1 Hy)). destruct (sorted (filters s)) as [|f r] eqn:E.
    + left. exists (note s (Got m)), v1. split; [exact G|]. split; [exact C1|]. split; [|reflexivity]. cbn. rewrite (c_regs s v C). apply Permutation_nil. exact P1.
    + right. exact G.
Qed.
Lemma demarshal_shorter w b m q : demarshal w b = (Some m, q) -> (length q < length b)%nat.
Proof.
  unfold demarshal. destruct (Z.eqb_spec (message_length w b) 0) as [|N]; [discriminate|]. destruct (message_length w b >? Z.of_nat (length b)) eqn:G; [discriminate|]. rewrite Z.gtb_ltb, Z.ltb_ge in G.
  assert (0 < message_length w b). { unfold message_length in *. destruct (needed w b >? 0) eqn:E; [rewrite Z.gtb_ltb, Z.ltb_lt in E; lia|]. destruct (needed w b =? 0); lia. }
  intros H1. injection H1 as _ <-. rewrite skipn_length. lia.
Qed.
Lemma demarshal_le w b : (length (snd (demarshal w b)) <= length b)%nat.
Proof. unfold demarshal. destruct (_ =? 0); [cbn; lia|]. destruct (_ >? _); [cbn; lia|]. cbn. rewrite skipn_length. lia. Qed.
Definition extra (inner ran : bool) : nat := if inner then if ran then 2 else 0 else 1.
Lemma pump_good w n : forall s inner ran reads v, calm s v -> offered v = [] ->
  (3 * (length (queue s) + length (concat reads)) + length reads + extra inner ran < n)%nat -> exists s' v', pump n w s inner ran reads = Ok s' /\ good s' v'.
Proof.
  induction n as [|n IH]; intros s inner ran reads v C O N; [lia|]. cbn [pump]. destruct inner.
  - destruct (demarshal w (queue s)) as [r q] eqn:D. pose proof (demarshal_le w (queue s)) as LE. rewrite D in LE. cbn in LE. destruct r as [m|].
    + apply demarshal_shorter in D. destruct (filter_good (set_queue s q (received s)) v m (calm_queue s v _ _ C) O) as [(s' & v' & E & C' & O' & Q)|(s' & E & G)]; rewrite E; cbn [bind].
      * apply (IH s' true true reads v' C' O'). rewrite Q. cbn [queue set_queue extra] in *. destruct ran; lia.
      * destruct (G (true, reads)) as [v' G']. eauto.
    + destruct ran.
      * apply (IH _ false false reads v (calm_queue s v _ _ C) O). cbn [queue set_queue extra] in *. lia.
      * eexists. exists v. split; [reflexivity|]. apply calm_good; [|exact O|reflexivity]. apply (calm_note _ v); [apply calm_sel, calm_queue, C|apply al_rested; [apply C|exact O]|apply C|reflexivity|reflexivity].
  - destruct reads as [|b reads].
    + apply (IH s true false [] v C O). cbn [extra] in *. lia.
    + cbn [concat length] in N. rewrite app_length in N. destruct (closed s).
      * apply (IH s true false reads v C O). cbn [extra] in *. lia.
      * apply (IH _ true false reads v (calm_queue s v _ _ C) O). cbn [queue set_queue extra] in *. rewrite app_length. lia.
Qed.
Lemma resume_good w s v : calm s v -> offered v = [] -> sel s <> None -> exists s' v', resume w s = Ok s' /\ good s' v'.
Proof. intros C O S. unfold resume. destruct (sel s) as [[ran reads]|]; [|congruence]. apply (pump_good w _ s true ran reads v C O). unfold fuel. destruct ran; cbn [extra]; lia. Qed.

(** ** Steps *)
Lemma base_frame s v f r : good s v -> frames s = f :: r -> ~ is_cancel f -> r = [] /\ exists x, sel s = Some x.
Proof.
  intros G E N. pose proof (g_shape s v G) as S. unfold shape in S. rewrite E in S. destruct (sel s) as [x|].
  - split; [|eauto]. destruct S as (a & b & Ea & Fa & _). destruct a as [|f' a]; cbn in Ea; [injection Ea as _ ->; reflexivity|]. injection Ea as -> _. inversion Fa. contradiction.
  - inversion S. contradiction.
Qed.
Lemma popped_calm s v f : good s v -> frames s = [f] -> ~ is_cancel f -> (forall p, f <> InReply p) -> calm (set_frames s []) v.
Proof.
  intros G E N R. assert (A : all s = pending s) by (unfold all; rewrite E; destruct f; cbn in *; try tauto; apply app_nil_r).
  pose proof (g_open s v G) as O. pose proof (g_ids s v G) as I. pose proof (g_ser s v G) as S. pose proof (g_tot s v G) as T. rewrite A in *. rewrite E in O.
  constructor; auto; try apply G. destruct f as [p| |]; cbn in *; [elim (R p eq_refl)|tauto|]. rewrite app_nil_r in O. exact O.
Qed.
Theorem step_good w s e v : good s v -> careful s e -> exists s' v', step w s e = Ok s' /\ good s' v'.
Proof.
  intros G H. destruct e as [z limit|p k|k| |handled| |now reads|]; cbn [step careful] in *.
  - destruct H as [H1 H2]. destruct z as [z|].
    + destruct limit as [t|]; [|eexists; eexists; split; [reflexivity|apply send_good; exact G]].
      destruct (add_good (send s z) v z t (send_good s v z G)) as [v' G']; [|eauto]. intros (p & A & E). apply (H2 ltac:(discriminate)). exists p. unfold send in A. destruct (authorized s); auto.
    + rewrite (proj2 (Z.ltb_lt _ _) H1). set (s1 := set_next s (next s + 1)). destruct limit as [t|]; [|eexists; eexists; split; [reflexivity|apply send_good, next_good; exact G]].
      destruct (add_good (send s1 (next s + 1)) v (next s + 1) t (send_good s1 v _ (next_good s v _ G))) as [v' G']; [|eauto]. intros (p & A & E). apply (H2 ltac:(discriminate)). exists p. unfold send in A. destruct (authorized s1); auto.
  - eexists. exists (View (open v) (regs v ++ [Filt (ftotal s) p k]) Free (offered v)). split; [reflexivity|]. destruct G. constructor; auto; cbn [past note set_filters filters regs].
    + eapply pr_snoc; [exact g_proper0|apply al_added; exact g_due0].
    + rewrite g_regs0. reflexivity.
    + intros m l Hl. destruct (g_sorted0 m l Hl) as [A B]. split; [exact A|]. intros y Hy. apply in_app_iff. left. exact (B y Hy).
  - eexists. exists (View (open v) (filter (fun f => negb (Nat.eqb (cookie f) k)) (regs v)) Free (offered v)). split; [reflexivity|]. destruct G. constructor; auto; cbn [past note set_filters filters regs].
    + eapply pr_snoc; [exact g_proper0|apply al_deleted; exact g_due0].
    + rewrite g_regs0. reflexivity.
    + intros m l Hl. destruct (g_sorted0 m l Hl) as [A B]. split; [exact A|]. intros y Hy. apply filter_In. split; [exact (B y Hy)|]. apply Bool.negb_true_iff, Nat.eqb_neq. exact (H m l y Hl Hy).
  - eexists. exists v. split; [reflexivity|]. destruct G. constructor; auto.
  - destruct (frames s) as [|f r] eqn:E; [eauto|]. destruct f as [p|p|m l].
    + destruct (base_frame s v _ _ G E ltac:(cbn; tauto)) as [-> [x Sx]]. assert (Hp : In p (pending s)) by (apply (g_rep s v G); rewrite E; left; reflexivity).
      replace (alive p (pending s)) with true by (symmetry; apply existsb_exists; exists p; split; [exact Hp|apply Nat.eqb_refl]).
      assert (A : all s = pending s) by (unfold all; rewrite E; apply app_nil_r). pose proof (g_open s v G) as O. pose proof (g_ids s v G) as I. pose proof (g_ser s v G) as S. pose proof (g_tot s v G) as T. pose proof (g_off s v G) as F. rewrite A in *. rewrite E in O, F. cbn in O, F.
      pose proof (lookup_perm _ _ _ (lookup_in (pserial p) (pending s) p Hp eq_refl S)) as P.
      apply (resume_good w _ v); [|apply Permutation_nil; symmetry; exact F|cbn; congruence].
      pose proof (Permutation_NoDup (Permutation_map req P) I) as I'. pose proof (Permutation_NoDup (Permutation_map pserial P) S) as S'. cbn in I', S'. inversion I'. inversion S'.
      constructor; cbn [set_frames set_pending pending frames past total filters]; auto; try apply G.
      * apply (Permutation_cons_inv (a := key p)). change (key p :: map key (remove_key (pserial p) (pending s))) with (map key (p :: remove_key (pserial p) (pending s))). rewrite <- (Permutation_map key P), O. symmetry. apply Permutation_cons_append.
      * intros q Hq. apply T. eapply Permutation_in; [symmetry; exact P|right; exact Hq].
    + eexists. exists v. split; [reflexivity|].
      assert (P : forall {B} (g : pend -> B), Permutation (map g (all s)) (map g ((pending s ++ [p]) ++ cancels r))) by (intros B g; unfold all; rewrite E, <- app_assoc; reflexivity).
      assert (P' : forall q, In q ((pending s ++ [p]) ++ cancels r) -> In q (all s)) by (intros q Hq; unfold all; rewrite E, <- app_assoc in *; exact Hq).
      constructor; cbn [set_frames set_pending pending frames past total filters]; unfold all; cbn [set_frames set_pending pending frames]; try apply G.
      * rewrite <- P. pose proof (g_open s v G) as O. rewrite E in O. exact O.
      * eapply Permutation_NoDup; [apply P|apply G].
      * eapply Permutation_NoDup; [apply P|apply G].
      * intros q Hq. apply (g_tot s v G). apply P'. exact Hq.
      * intros q Hq. apply in_app_iff. left. apply (g_rep s v G). rewrite E. right. exact Hq.
      * pose proof (g_off s v G) as F. rewrite E in F. exact F.
      * intros m l Hl. apply (g_sorted s v G m l). rewrite E. right. exact Hl.
      * pose proof (g_shape s v G) as S. unfold shape in *. cbn [set_pending set_frames sel frames]. rewrite E in S. destruct (sel s); [|inversion S; assumption]. destruct S as (a & b & Ea & Fa & Fb). destruct a as [|x a]; cbn in Ea; [injection Ea as <- _; elim Fb; exact I|]. injection Ea as _ Er. exists a, b. inversion Fa. auto.
    + destruct (base_frame s v _ _ G E ltac:(cbn; tauto)) as [-> [x Sx]]. pose proof (popped_calm s v _ G E ltac:(cbn; tauto) ltac:(intros; discriminate)) as C.
      destruct handled.
      * apply (resume_good w _ (View (open v) (regs v) Free [])); [|reflexivity|cbn; congruence]. apply (calm_note _ v); [exact C|apply al_handled; apply G|reflexivity|reflexivity|reflexivity].
      * pose proof (g_off s v G) as F. rewrite E in F. cbn [rests flat_map] in F. rewrite app_nil_r in F. destruct (g_sorted s v G m l ltac:(rewrite E; left; reflexivity)) as [O I].
        pose proof (offer_good (set_frames s []) v m l C F O I) as Of. destruct l as [|f r].
        -- rewrite Of. cbn [bind]. apply (resume_good w _ v C); [apply Permutation_nil; symmetry; exact F|cbn; congruence].
        -- destruct Of as (s' & Es & Gs). rewrite Es. cbn [bind]. eexists. destruct (Gs x) as [v' G']. exists v'. split; [reflexivity|]. replace s' with (set_sel s' (Some x)); [exact G'|].
           cbn [offer] in Es. destruct (existsb _ _); [|discriminate]. injection Es as <-. unfold set_sel, set_frames, note. cbn. rewrite Sx. reflexivity.
  - eexists. exists v. split; [reflexivity|]. destruct G. constructor; auto.
  - destruct (closed s); [eauto|]. destruct (sel s) eqn:S; [eauto|]. destruct H as [H1 H2].
    replace (existsb (fun p => until p <? now) (pending s)) with false.
    2: { symmetry. apply Bool.not_true_is_false. intros X. apply existsb_exists in X. destruct X as (p & Hp & Hu). apply Z.ltb_lt in Hu. specialize (H1 p Hp). lia. }
    destruct (authorized s); [|eauto]. assert (E : frames s = []).
    { pose proof (g_shape s v G) as Sh. unfold shape in Sh. rewrite S in Sh. destruct (frames s) as [|f r]; [reflexivity|]. inversion Sh as [|? ? X _]. destruct f as [|p|]; cbn in X; try tauto. elim (H2 p). left. reflexivity. }
    destruct (good_calm s v G E) as [C O]. apply (pump_good w _ s false false reads v C O). unfold fuel. cbn [extra]. lia.
  - eexists. exists v. split; [reflexivity|]. destruct G. constructor; auto.
Qed.
Theorem run_good w l : forall s v, good s v -> always careful w s l -> exists s' v', run w s l = Ok s' /\ good s' v'.
Proof.
  induction l as [|e l IH]; intros s v G H; [cbn; eauto|]. destruct H as [H1 H2]. cbn [run]. destruct (step_good w s e v G H1) as (s' & v' & E & G'). rewrite E in *. cbn [bind]. exact (IH s' v' G' H2).
Qed.
Lemma init_good : good init (View [] [] Free []).
Proof. constructor; cbn; try constructor; try reflexivity; try (intros; contradiction). Qed.

(** ** The messages *)
Lemma gots_app a b : gots (a ++ b) = gots a ++ gots b.
Proof. apply flat_map_app. Qed.
Definition same (s s' : st) : Prop := queue s' = queue s /\ received s' = received s /\ gots (past s') = gots (past s) /\ sel s' = sel s.
Lemma offer_same s m l s' b : offer s m l = Ok (s', b) -> same s s'.
Proof.
  destruct l as [|f r]; cbn [offer]; [intros H; injection H as <- <-; unfold same; auto|]. destruct (existsb _ _); [|discriminate]. intros H. injection H as <- <-. unfold same. cbn [note set_frames queue received past sel]. rewrite gots_app. cbn. rewrite app_nil_r. auto.
Qed.
Lemma filter_same s m s' b : filter_func s m = Ok (s', b) -> same s s'.
Proof.
  unfold filter_func. destruct (if answers m =? 0 then None else lookup (answers m) (pending s)); [|apply offer_same]. intros H. injection H as <- <-. unfold same. cbn [note set_frames queue received past sel]. rewrite gots_app. cbn. rewrite app_nil_r. auto.
Qed.
Lemma pump_mono w n : forall s inner ran reads s', pump n w s inner ran reads = Ok s' -> exists x, received s' = received s ++ x.
Proof.
  induction n as [|n IH]; intros s inner ran reads s'; cbn [pump]; [discriminate|]. destruct inner.
  - destruct (demarshal w (queue s)) as [r q]. destruct r as [m|].
    + destruct (filter_func _ m) as [[s1 b]| |] eqn:F; cbn [bind]; try discriminate. apply filter_same in F. destruct F as (_ & R & _). cbn in R. destruct b; intros H.
      * injection H as <-. exists []. cbn. rewrite app_nil_r. exact R.
      * apply IH in H. rewrite R in H. exact H.
    + destruct ran; intros H; [apply IH in H; exact H|]. injection H as <-. exists []. cbn. rewrite app_nil_r. reflexivity.
  - destruct reads as [|b reads]; [apply IH|]. intros H. apply IH in H. destruct (closed s); [exact H|]. destruct H as [x H]. cbn in H. exists (b ++ x). rewrite H, app_assoc. reflexivity.
Qed.
Section Framing.
Variable w : wire.
Variable encode : msg -> bytes.
Variable ms : list msg.
Hypothesis U : understands w encode ms.
Definition framed (s : st) (k : nat) : Prop :=
  (k <= length ms)%nat /\ gots (past s) = firstn k ms /\ received s = concat (map encode (firstn k ms)) ++ queue s.
Lemma demarshal_framed b more l : incl l ms -> b ++ more = concat (map encode l) ->
  (demarshal w b = (None, b) /\ incomplete encode b l) \/
  (exists m l' r, l = m :: l' /\ b = encode m ++ r /\ demarshal w b = (Some m, r)).
Proof.
  intros Inc E. destruct U as [needed_nil U']. destruct l as [|m l]; cbn [map concat incomplete] in *.
  - left. apply app_eq_nil in E. destruct E as [-> ->]. unfold demarshal, message_length. rewrite needed_nil. auto.
  - destruct (U' m (Inc m (or_introl eq_refl))) as (L & D & N). assert (Eb : b = firstn (length b) (encode m ++ concat (map encode l))) by (rewrite <- E, firstn_app, firstn_all, Nat.sub_diag; cbn; rewrite app_nil_r; reflexivity).
    specialize (N (length b) (concat (map encode l))). rewrite <- Eb in N. unfold demarshal, message_length. rewrite N. destruct (Nat.ltb_spec (length b) 16).
    + left. cbn. replace (16 >? Z.of_nat (length b)) with true by (symmetry; apply Z.gtb_lt; lia). split; [reflexivity|lia].
    + replace (Z.of_nat (length (encode m)) >? 0) with true by (symmetry; apply Z.gtb_lt; lia). replace (Z.of_nat (length (encode m)) =? 0) with false by (symmetry; apply Z.eqb_neq; lia).
      destruct (le_lt_dec (length (encode m)) (length b)) as [Le|Lt].
      * right. exists m, l, (skipn (length (encode m)) b). split; [reflexivity|]. rewrite Z.gtb_ltb, (proj2 (Z.ltb_ge _ _)) by lia. rewrite Nat2Z.id.
        assert (F : firstn (length (encode m)) b = encode m) by (rewrite Eb, firstn_firstn, Nat.min_l by lia; rewrite firstn_app, Nat.sub_diag, firstn_all; cbn; apply app_nil_r).
        split; [rewrite <- F at 1; symmetry; apply firstn_skipn|]. rewrite F, D. reflexivity.
      * left. rewrite Z.gtb_ltb, (proj2 (Z.ltb_lt _ _)) by lia. auto.
Qed.
Lemma split_stream s k more : framed s k -> received s ++ more = concat (map encode ms) -> queue s ++ more = concat (map encode (skipn k ms)).
Proof.
  intros (_ & _ & R) E. rewrite R in E. rewrite <- (firstn_skipn k ms) in E at 2. rewrite map_app, concat_app, <- app_assoc in E. apply app_inv_head in E. exact E.
Qed.
Lemma skip_next {A} k (l : list A) x r : skipn k l = x :: r -> firstn (S k) l = firstn k l ++ [x] /\ skipn (S k) l = r /\ (S k <= length l)%nat.
Proof.
  revert k. induction l as [|y l IH]; intros k H; [destruct k; discriminate|]. destruct k; cbn in *; [injection H as -> ->; split; [reflexivity|split; [reflexivity|lia]]|]. destruct (IH k H) as (A1 & A2 & A3). split; [f_equal; exact A1|split; [exact A2|lia]].
Qed.
Lemma skip_incl {A} k (l : list A) : incl (skipn k l) l.
Proof. intros x H. rewrite <- (firstn_skipn k l). apply in_app_iff. auto. Qed.
Definition rested (s : st) (k : nat) : Prop := sel s = None -> incomplete encode (queue s) (skipn k ms).
Lemma pump_framed n : forall s inner ran reads s' more k, pump n w s inner ran reads = Ok s' -> framed s k -> received s' ++ more = concat (map encode ms) ->
  exists k', framed s' k' /\ rested s' k'.
Proof.
  induction n as [|n IH]; intros s inner ran reads s' more k H F E; [discriminate|]. pose proof (pump_mono w _ _ _ _ _ _ H) as [x M]. cbn [pump] in H.
  rewrite M, <- app_assoc in E. pose proof (split_stream s k _ F E) as Q. rewrite app_assoc, <- M in E. destruct F as (F1 & F2 & F3). destruct inner.
  - destruct (demarshal_framed _ _ _ (skip_incl k ms) Q) as [[D I]|(m & l & r & El & Eb & D)]; rewrite D in H.
    + destruct ran.
      * refine (IH _ _ _ _ _ more k H _ E). split; [exact F1|split; [exact F2|exact F3]].
      * injection H as <-. exists k. split; [split; [exact F1|]|intros _; exact I]. cbn [note set_sel set_queue past queue received]. rewrite gots_app. cbn. rewrite app_nil_r. auto.
    + destruct (skip_next _ _ _ _ El) as (N1 & N2 & N3). destruct (filter_func _ m) as [[s1 b]| |] eqn:Ff; cbn [bind] in H; try discriminate. apply filter_same in Ff. destruct Ff as (Q1 & R1 & G1 & _). cbn [note set_queue queue received past] in Q1, R1, G1. rewrite gots_app in G1. cbn in G1.
      assert (Fr : framed s1 (S k)). { split; [exact N3|]. rewrite N1. split; [rewrite G1, F2; reflexivity|]. rewrite R1, Q1, F3, map_app, concat_app, Eb. cbn. rewrite app_nil_r, <- app_assoc. reflexivity. }
      destruct b; [|exact (IH _ _ _ _ _ more (S k) H Fr E)]. injection H as <-. exists (S k). split; [exact Fr|]. intros S. discriminate.
  - destruct reads as [|b reads]; [exact (IH _ _ _ _ _ more k H (conj F1 (conj F2 F3)) E)|]. refine (IH _ _ _ _ _ more k H _ E). destruct (closed s); [split; auto|]. split; [exact F1|]. split; [exact F2|]. cbn. rewrite F3, app_assoc. reflexivity.
Qed.
Lemma same_framed s s' k : same s s' -> framed s k -> framed s' k.
Proof. intros (Q & R & G & _) (F1 & F2 & F3). split; [exact F1|]. rewrite G, R, Q. auto. Qed.
Lemma same_rested s s' k : same s s' -> rested s k -> rested s' k.
Proof. intros (Q & R & G & S) H. unfold rested. rewrite S, Q. exact H. Qed.
Lemma resume_framed s s' k more : resume w s = Ok s' -> framed s k -> rested s k -> received s' ++ more = concat (map encode ms) -> exists k', framed s' k' /\ rested s' k'.
Proof.
  unfold resume. destruct (sel s) as [[ran reads]|] eqn:S; intros H F R E; [exact (pump_framed _ _ _ _ _ _ more k H F E)|]. injection H as <-. eauto.
Qed.
Lemma send_same s z : same s (send s z).
Proof. unfold send, same. destruct (authorized s); auto. Qed.
Lemma add_same s z t : same s (add_pending s z t).
Proof.
  unfold add_pending, same. cbn [note set_total pending]. destruct (lookup z (pending s)); cbn [note set_frames set_pending set_total past queue received sel]; rewrite ?gots_app; cbn; rewrite ?app_nil_r; auto.
Qed.
Lemma same_trans a b c : same a b -> same b c -> same a c.
Proof. intros (A1 & A2 & A3 & A4) (B1 & B2 & B3 & B4). repeat split; congruence. Qed.
Lemma same_next s n : same s (set_next s n).
Proof. unfold same. auto. Qed.
Lemma step_cases s e s' : step w s e = Ok s' -> same s s' \/ (exists s1, same s s1 /\ resume w s1 = Ok s') \/ (exists now reads, e = Select now reads /\ pump (fuel s reads) w s false false reads = Ok s').
Proof.
  destruct e as [z limit|p k|k| |handled| |now reads|]; cbn [step]; intros H.
  - left. destruct z as [z|].
    + destruct limit; injection H as <-; [eapply same_trans; [apply send_same|apply add_same]|apply send_same].
    + destruct (_ <? _); [|discriminate]. destruct limit; injection H as <-; (eapply same_trans; [apply same_next|]); [eapply same_trans; [apply send_same|apply add_same]|apply send_same].
  - left. injection H as <-. unfold same. cbn [note set_filters past queue received sel]. rewrite gots_app. cbn. rewrite app_nil_r. auto.
  - left. injection H as <-. unfold same. cbn [note set_filters past queue received sel]. rewrite gots_app. cbn. rewrite app_nil_r. auto.
  - left. injection H as <-. unfold same. auto.
  - destruct (frames s) as [|f r]; [left; injection H as <-; unfold same; auto|]. destruct f as [p|p|m l].
    + destruct (alive p (pending s)); [|discriminate]. right. left. eexists. split; [|exact H]. unfold same. auto.
    + left. injection H as <-. unfold same. auto.
    + destruct handled.
      * right. left. eexists. split; [|exact H]. unfold same. cbn [note set_frames past queue received sel]. rewrite gots_app. cbn. rewrite app_nil_r. auto.
      * destruct (offer _ m l) as [[s1 b]| |] eqn:O; cbn [bind] in H; try discriminate. apply offer_same in O. assert (S : same s s1) by (eapply same_trans; [|exact O]; unfold same; auto). destruct b; [left; injection H as <-; exact S|right; left; eauto].
  - left. injection H as <-. unfold same. auto.
  - destruct (closed s); [left; injection H as <-; unfold same; auto|]. destruct (sel s); [left; injection H as <-; unfold same; auto|]. destruct (existsb _ _); [discriminate|]. destruct (authorized s); [right; right; eauto|left; injection H as <-; unfold same; auto].
  - left. injection H as <-. apply same_next.
Qed.
Lemma step_mono s e s' : step w s e = Ok s' -> exists x, received s' = received s ++ x.
Proof.
  intros H. destruct (step_cases s e s' H) as [(_ & R & _)|[(s1 & (_ & R & _) & P)|(now & reads & _ & P)]].
  - exists []. rewrite app_nil_r. exact R.
  - unfold resume in P. destruct (sel s1) as [[ran reads]|]; [apply pump_mono in P; rewrite R in P; exact P|]. injection P as <-. exists []. rewrite app_nil_r. exact R.
  - exact (pump_mono _ _ _ _ _ _ _ P).
Qed.
Lemma run_mono l : forall s s', run w s l = Ok s' -> exists x, received s' = received s ++ x.
Proof.
  induction l as [|e l IH]; intros s s' H; cbn [run] in H; [injection H as <-; exists []; symmetry; apply app_nil_r|]. destruct (step w s e) as [s1| |] eqn:S; cbn [bind] in H; try discriminate. destruct (step_mono s e s1 S) as [x X]. destruct (IH s1 s' H) as [y Y]. exists (x ++ y). rewrite Y, X, app_assoc. reflexivity.
Qed.
Lemma run_framed l : forall s s' more k, run w s l = Ok s' -> framed s k -> rested s k -> received s' ++ more = concat (map encode ms) -> exists k', framed s' k' /\ rested s' k'.
Proof.
  induction l as [|e l IH]; intros s s' more k H F R E; cbn [run] in H; [injection H as <-; eauto|]. destruct (step w s e) as [s1| |] eqn:S; cbn [bind] in H; try discriminate.
  destruct (run_mono l s1 s' H) as [x X]. pose proof E as E1. rewrite X, <- app_assoc in E1.
  assert (P : exists k', framed s1 k' /\ rested s1 k').
  { destruct (step_cases s e s1 S) as [A|[(s2 & A & P)|(now & reads & _ & P)]].
    - exists k. split; [exact (same_framed s s1 k A F)|exact (same_rested s s1 k A R)].
    - exact (resume_framed s2 s1 k _ P (same_framed s s2 k A F) (same_rested s s2 k A R) E1).
    - exact (pump_framed _ _ _ _ _ _ _ k P F E1). }
  destruct P as (k' & F' & R'). exact (IH s1 s' more k' H F' R' E).
Qed.
End Framing.

(** ** What is written *)
Definition wrote (s s' : st) : Prop := written s' = written s /\ unsent s' = unsent s /\ authorized s' = authorized s /\ next s' = next s.
Lemma wrote_refl s : wrote s s.
Proof. unfold wrote. auto. Qed.
Lemma wrote_trans a b c : wrote a b -> wrote b c -> wrote a c.
Proof. intros (A1 & A2 & A3 & A4) (B1 & B2 & B3 & B4). repeat split; congruence. Qed.
Lemma offer_wrote s m l s' b : offer s m l = Ok (s', b) -> wrote s s'.
Proof. destruct l as [|f r]; cbn [offer]; [intros H; injection H as <- <-; apply wrote_refl|]. destruct (existsb _ _); [|discriminate]. intros H. injection H as <- <-. unfold wrote. auto. Qed.
Lemma filter_wrote s m s' b : filter_func s m = Ok (s', b) -> wrote s s'.
Proof. unfold filter_func. destruct (if answers m =? 0 then None else lookup (answers m) (pending s)); [|apply offer_wrote]. intros H. injection H as <- <-. unfold wrote. auto. Qed.
Lemma pump_wrote w n : forall s inner ran reads s', pump n w s inner ran reads = Ok s' -> wrote s s'.
Proof.
  induction n as [|n IH]; intros s inner ran reads s'; cbn [pump]; [discriminate|]. destruct inner.
  - destruct (demarshal w (queue s)) as [r q]. destruct r as [m|].
    + destruct (filter_func _ m) as [[s1 b]| |] eqn:F; cbn [bind]; try discriminate. apply filter_wrote in F. destruct b; intros H; [injection H as <-; exact F|]. apply IH in H. exact (wrote_trans _ _ _ F H).
    + destruct ran; intros H; [apply IH in H; exact H|injection H as <-; unfold wrote; auto].
  - destruct reads as [|b reads]; [apply IH|]. intros H. apply IH in H. destruct (closed s); exact H.
Qed.
Lemma resume_wrote w s s' : resume w s = Ok s' -> wrote s s'.
Proof. unfold resume. destruct (sel s) as [[ran reads]|]; [apply pump_wrote|]. intros H. injection H as <-. apply wrote_refl. Qed.
Lemma add_wrote s z t : wrote s (add_pending s z t).
Proof. unfold add_pending. cbn [note set_total pending]. destruct (lookup z (pending s)); unfold wrote; auto. Qed.
Definition out (s : st) : list Z := written s ++ unsent s.
Definition held (s : st) : Prop := if authorized s then unsent s = [] else written s = [].
Lemma send_out s z : held s -> out (send s z) = out s ++ [z] /\ held (send s z) /\ authorized (send s z) = authorized s /\ next (send s z) = next s.
Proof.
  unfold held, send, out. destruct (authorized s); cbn [set_out authorized written unsent next]; intros H; rewrite H; cbn; rewrite ?app_nil_r; auto.
Qed.
Lemma wrote_held s s' : wrote s s' -> held s -> held s' /\ out s' = out s /\ next s' = next s /\ authorized s' = authorized s.
Proof. intros (A & B & C & D) H. unfold held, out in *. rewrite A, B, C. auto. Qed.
Definition authorizes (e : event) : bool := match e with Authorize => true | _ => false end.
Lemma step_out w s e s' : step w s e = Ok s' -> held s ->
  held s' /\ authorized s' = authorized s || authorizes e /\ forall l, out s' ++ numbers (next s') l = out s ++ numbers (next s) (e :: l).
Proof.
  assert (W : forall s', wrote s s' -> held s -> authorizes e = false -> (forall l, numbers (next s) (e :: l) = numbers (next s) l) -> held s' /\ authorized s' = authorized s || authorizes e /\ forall l, out s' ++ numbers (next s') l = out s ++ numbers (next s) (e :: l)).
  { intros s1 W H A N. destruct (wrote_held s s1 W H) as (A1 & A2 & A3 & A4). rewrite A2, A3, A4, A, Bool.orb_false_r. split; [exact A1|]. split; [reflexivity|]. intros l. rewrite N. reflexivity. }
  destruct e as [z limit|p k|k| |handled| |now reads|]; cbn [step]; intros H Hh.
  - assert (Sd : forall s0 z, wrote (set_next s (next s0)) s0 -> exists s1, s1 = send s0 z /\ held s1 /\ authorized s1 = authorized s /\ next s1 = next s0 /\ out s1 = out s ++ [z]).
    { intros s0 y (W1 & W2 & W3 & W4). cbn in W1, W2, W3. assert (H0 : held s0) by (unfold held in *; rewrite W1, W2, W3; exact Hh). destruct (send_out s0 y H0) as (A1 & A2 & A3 & A4). exists (send s0 y). split; [reflexivity|]. rewrite A1, A3, A4, W3. unfold out. rewrite W1, W2. auto. }
    cbn [authorizes]. rewrite Bool.orb_false_r. destruct z as [z|].
    + destruct (Sd s z ltac:(unfold wrote; cbn; auto)) as (s1 & -> & A1 & A2 & A3 & A4). assert (W1 : wrote (send s z) s') by (destruct limit; injection H as <-; [apply add_wrote|apply wrote_refl]).
      destruct (wrote_held _ _ W1 A1) as (B1 & B2 & B3 & B4). split; [exact B1|]. split; [congruence|]. intros l. rewrite B2, B3, A3, A4, <- app_assoc. reflexivity.
    + destruct (_ <? _); [|discriminate]. destruct (Sd (set_next s (next s + 1)) (next s + 1) ltac:(unfold wrote; cbn; auto)) as (s1 & -> & A1 & A2 & A3 & A4). assert (W1 : wrote (send (set_next s (next s + 1)) (next s + 1)) s') by (destruct limit; injection H as <-; [apply add_wrote|apply wrote_refl]).
      destruct (wrote_held _ _ W1 A1) as (B1 & B2 & B3 & B4). split; [exact B1|]. split; [congruence|]. intros l. rewrite B2, B3, A3, A4, <- app_assoc. reflexivity.
  - apply W; auto. injection H as <-. unfold wrote. auto.
  - apply W; auto. injection H as <-. unfold wrote. auto.
  - apply W; auto. injection H as <-. unfold wrote. auto.
  - apply W; auto. destruct (frames s) as [|f r]; [injection H as <-; apply wrote_refl|]. destruct f as [p|p|m l].
    + destruct (alive p (pending s)); [|discriminate]. apply resume_wrote in H. exact H.
    + injection H as <-. unfold wrote. auto.
    + destruct handled; [apply resume_wrote in H; exact H|]. destruct (offer _ m l) as [[s1 b]| |] eqn:O; cbn [bind] in H; try discriminate. apply offer_wrote in O. destruct b; [injection H as <-; exact O|]. apply resume_wrote in H. exact (wrote_trans _ _ _ O H).
  - injection H as <-. cbn. rewrite Bool.orb_true_r. split; [reflexivity|]. split; [reflexivity|]. intros l. unfold out. cbn. rewrite app_nil_r. reflexivity.
  - apply W; auto. destruct (closed s); [injection H as <-; apply wrote_refl|]. destruct (sel s); [injection H as <-; apply wrote_refl|]. destruct (existsb _ _); [discriminate|]. destruct (authorized s); [exact (pump_wrote _ _ _ _ _ _ _ H)|injection H as <-; apply wrote_refl].
  - injection H as <-. cbn. rewrite Bool.orb_false_r. split; [exact Hh|]. split; reflexivity.
Qed.
Lemma run_out w l : forall s s', run w s l = Ok s' -> held s ->
  held s' /\ authorized s' = authorized s || existsb authorizes l /\ out s' = out s ++ numbers (next s) l.
Proof.
  induction l as [|e l IH]; intros s s' H Hh; cbn [run] in H.
  - injection H as <-. cbn. rewrite Bool.orb_false_r, app_nil_r. auto.
  - destruct (step w s e) as [s1| |] eqn:S; cbn [bind] in H; try discriminate. destruct (step_out w s e s1 S Hh) as (A1 & A2 & A3). destruct (IH s1 s' H A1) as (B1 & B2 & B3). split; [exact B1|]. split; [rewrite B2, A2; cbn; rewrite Bool.orb_assoc; reflexivity|]. rewrite B3. apply A3.
Qed.

(** ** Each request is answered at most once *)
Lemma asks_app a b : asks (a ++ b) = asks a ++ asks b.
Proof. apply flat_map_app. Qed.
Lemma calls_app a b : calls (a ++ b) = calls a ++ calls b.
Proof. apply flat_map_app. Qed.
Definition counted (s : st) : Prop := asks (past s) = seq 0 (total s).
Definition nothing (o : obs) : Prop := match o with Asked _ _ => False | _ => True end.
Lemma counted_note s o : nothing o -> counted s -> counted (note s o).
Proof. unfold counted. cbn [note past total]. rewrite asks_app. intros N ->. destruct o; cbn in *; try tauto; apply app_nil_r. Qed.
Lemma offer_counted s m l s' b : offer s m l = Ok (s', b) -> counted s -> counted s'.
Proof. destruct l as [|f r]; cbn [offer]; [intros H; injection H as <- <-; auto|]. destruct (existsb _ _); [|discriminate]. intros H C. injection H as <- <-. apply (counted_note s (Offered f m) I C). Qed.
Lemma filter_counted s m s' b : filter_func s m = Ok (s', b) -> counted s -> counted s'.
Proof. unfold filter_func. destruct (if answers m =? 0 then None else lookup (answers m) (pending s)) as [p|]; [|apply offer_counted]. intros H C. injection H as <- <-. apply (counted_note s (Called (req p) (Reply m)) I C). Qed.
Lemma pump_counted w n : forall s inner ran reads s', pump n w s inner ran reads = Ok s' -> counted s -> counted s'.
Proof.
  induction n as [|n IH]; intros s inner ran reads s'; cbn [pump]; [discriminate|]. destruct inner.
  - destruct (demarshal w (queue s)) as [r q]. destruct r as [m|].
    + destruct (filter_func _ m) as [[s1 b]| |] eqn:F; cbn [bind]; try discriminate. intros H C. apply filter_counted in F; [|apply counted_note; [exact I|exact C]]. destruct b; [injection H as <-; exact F|]. exact (IH _ _ _ _ _ H F).
    + destruct ran; intros H C; [exact (IH _ _ _ _ _ H C)|injection H as <-]. apply counted_note; [exact I|exact C].
  - destruct reads as [|b reads]; [apply IH|]. intros H C. apply (IH _ _ _ _ _ H). destruct (closed s); exact C.
Qed.
Lemma resume_counted w s s' : resume w s = Ok s' -> counted s -> counted s'.
Proof. unfold resume. destruct (sel s) as [[ran reads]|]; [apply pump_counted|]. intros H. injection H as <-. auto. Qed.
Lemma add_counted s z t : counted s -> counted (add_pending s z t).
Proof.
  intros C. assert (C1 : counted (note (set_total s (S (total s))) (Asked (total s) z))) by (unfold counted in *; cbn [note set_total past total]; rewrite asks_app, C, seq_S; reflexivity).
  unfold add_pending. cbn [note set_total pending]. destruct (lookup z (pending s)) as [q|]; [|exact C1]. apply (counted_note _ (Called (req q) Cancelled) I C1).
Qed.
Lemma step_counted w s e s' : step w s e = Ok s' -> counted s -> counted s'.
Proof.
  destruct e as [z limit|p k|k| |handled| |now reads|]; cbn [step]; intros H C.
  - assert (A : forall s0 y, counted s0 -> counted (send s0 y)) by (intros s0 y; unfold send; destruct (authorized s0); auto). destruct z as [z|].
    + destruct limit; injection H as <-; [apply add_counted|]; apply A; exact C.
    + destruct (_ <? _); [|discriminate]. destruct limit; injection H as <-; [apply add_counted|]; apply A; exact C.
  - injection H as <-. apply counted_note; [exact I|exact C].
  - injection H as <-. apply counted_note; [exact I|exact C].
  - injection H as <-. exact C.
  - destruct (frames s) as [|f r]; [injection H as <-; exact C|]. destruct f as [p|p|m l].
    + destruct (alive p (pending s)); [|discriminate]. apply resume_counted in H; [exact H|exact C].
    + injection H as <-. exact C.
    + destruct handled; [apply resume_counted in H; [exact H|apply counted_note; [exact I|exact C]]|]. destruct (offer _ m l) as [[s1 b]| |] eqn:O; cbn [bind] in H; try discriminate. apply offer_counted in O; [|exact C]. destruct b; [injection H as <-; exact O|]. apply resume_counted in H; auto.
  - injection H as <-. exact C.
  - destruct (closed s); [injection H as <-; exact C|]. destruct (sel s); [injection H as <-; exact C|]. destruct (existsb _ _); [discriminate|]. destruct (authorized s); [exact (pump_counted _ _ _ _ _ _ _ H C)|injection H as <-; exact C].
  - injection H as <-. exact C.
Qed.
Lemma run_counted w l : forall s s', run w s l = Ok s' -> counted s -> counted s'.
Proof.
  induction l as [|e l IH]; intros s s' H C; cbn [run] in H; [injection H as <-; exact C|]. destruct (step w s e) as [s1| |] eqn:S; cbn [bind] in H; try discriminate. exact (IH s1 s' H (step_counted w s e s1 S C)).
Qed.
Definition told (l : list obs) : Prop := forall i m, In (Called i (Reply m)) l -> exists a b c, l = a ++ Asked i (answers m) :: b ++ Got m :: Called i (Reply m) :: c.
Lemma in_asks i z l : In (Asked i z) l -> In i (asks l).
Proof. intros H. apply in_flat_map. exists (Asked i z). cbn. auto. Qed.
Lemma asks_nodup i z y l : NoDup (asks l) -> In (Asked i z) l -> In (Asked i y) l -> z = y.
Proof.
  induction l as [|o l IH]; intros N A B; [contradiction|]. change (o :: l) with ([o] ++ l) in N. rewrite asks_app in N. destruct A as [->|A], B as [Eb|B].
  - congruence.
  - cbn in N. inversion N as [|? ? N1 _]. elim N1. exact (in_asks _ _ _ B).
  - subst o. cbn in N. inversion N as [|? ? N1 _]. elim N1. exact (in_asks _ _ _ A).
  - apply IH; auto. destruct o; cbn in N; try exact N. inversion N. assumption.
Qed.
Lemma told_snoc l o : told l -> (forall i m, o <> Called i (Reply m)) -> told (l ++ [o]).
Proof.
  intros T N i m H. apply in_app_iff in H. destruct H as [H|[H|[]]]; [|elim (N i m H)]. destruct (T i m H) as (a & b & c & E). exists a, b, (c ++ [o]). rewrite E. rewrite <- app_assoc. cbn. rewrite <- app_assoc. reflexivity.
Qed.
Lemma nodup_app_l {A} (a b : list A) : NoDup (a ++ b) -> NoDup a.
Proof. induction a as [|x a IH]; intros N; [constructor|]. cbn in N. inversion N as [|? ? N1 N2]. constructor; [intros X; apply N1, in_app_iff; auto|auto]. Qed.
Lemma nodup_snoc {A} (a : list A) x : NoDup a -> ~ In x a -> NoDup (a ++ [x]).
Proof. intros N H. eapply Permutation_NoDup; [apply Permutation_cons_append|]. constructor; assumption. Qed.
Lemma proper_once l v : proper l v -> NoDup (asks l) ->
  NoDup (calls l) /\ told l /\ (forall i, In i (calls l) -> In i (asks l)) /\ (forall i z, In (i, z) (open v) -> In (Asked i z) l /\ ~ In i (calls l)) /\
  (forall m, due v = Answer m -> exists l', l = l' ++ [Got m]).
Proof.
  intros P. induction P as [|l v o v' P IH A]; intros N.
  - split; [constructor|]. split; [intros i m []|]. split; [intros i []|]. split; [intros i z []|]. intros m H. discriminate.
  - rewrite asks_app in N. destruct (IH (nodup_app_l _ _ N)) as (I1 & I2 & I3 & I4 & I5). rewrite asks_app, calls_app.
    assert (Q : calls [o] = [] -> (forall i z, In (i, z) (open v') -> In (i, z) (open v) \/ (o = Asked i z)) -> (forall m, due v' = Answer m -> o = Got m) ->
      NoDup (calls l ++ calls [o]) /\ told (l ++ [o]) /\ (forall i, In i (calls l ++ calls [o]) -> In i (asks l ++ asks [o])) /\ (forall i z, In (i, z) (open v') -> In (Asked i z) (l ++ [o]) /\ ~ In i (calls l ++ calls [o])) /\ (forall m, due v' = Answer m -> exists l', l ++ [o] = l' ++ [Got m])).
    { intros Q1 Q2 Q3. rewrite Q1, app_nil_r. split; [exact I1|]. split; [apply told_snoc; [exact I2|intros i m ->; discriminate]|]. split; [intros i H; apply in_app_iff; auto|]. split.
      - intros i z H. destruct (Q2 i z H) as [H'|H']; [destruct (I4 i z H'); split; [apply in_app_iff; auto|assumption]|]. split; [apply in_app_iff; right; left; exact H'|]. intros X. apply I3 in X. subst o. cbn in N. apply (Permutation_NoDup (Permutation_sym (Permutation_cons_append _ _))) in N. inversion N. contradiction.
      - intros m H. exists l. rewrite (Q3 m H). reflexivity. }
    assert (R : forall i a, o = Called i a -> open v' = drop i (open v) -> due v' = Free -> (exists z, In (i, z) (open v)) -> told (l ++ [o]) ->
      NoDup (calls l ++ calls [o]) /\ told (l ++ [o]) /\ (forall i, In i (calls l ++ calls [o]) -> In i (asks l ++ asks [o])) /\ (forall i z, In (i, z) (open v') -> In (Asked i z) (l ++ [o]) /\ ~ In i (calls l ++ calls [o])) /\ (forall m, due v' = Answer m -> exists l', l ++ [o] = l' ++ [Got m])).
    { intros i a -> Eo Ed (z & Hz) T. destruct (I4 i z Hz) as [J1 J2]. cbn [calls flat_map app asks]. rewrite app_nil_r. fold (calls l) (asks l). split; [apply nodup_snoc; assumption|]. split; [exact T|]. split.
      - intros j H. apply in_app_iff in H. destruct H as [H|[<-|[]]]; [auto|exact (in_asks _ _ _ J1)].
      - split; [|intros m H; congruence]. intros j y H. rewrite Eo in H. apply filter_In in H. destruct H as [H Hn]. apply Bool.negb_true_iff, Nat.eqb_neq in Hn. destruct (I4 j y H). split; [apply in_app_iff; auto|]. intros X. apply in_app_iff in X. destruct X as [X|[X|[]]]; [auto|]. cbn in Hn. congruence. }
    destruct A; try (apply Q; [reflexivity|cbn; first [solve [auto]|intros j y Hj; apply in_app_iff in Hj; destruct Hj as [Hj|[Hj|[]]]; [auto|right; injection Hj as -> ->; reflexivity]]|cbn; intros m0 E; first [discriminate E|injection E as ->; reflexivity|match goal with D : due _ = Free |- _ => rewrite D in E; discriminate E end]]).
    + apply (R i Cancelled); [reflexivity|reflexivity|reflexivity|eauto|]. apply told_snoc; [exact I2|intros; discriminate].
    + apply (R i (Reply m)); [reflexivity|reflexivity|reflexivity|eauto|]. destruct (I5 m H) as [l' El]. destruct (I4 i _ H0) as [J1 J2]. intros j m' Hj. apply in_app_iff in Hj. destruct Hj as [Hj|[Hj|[]]].
      * destruct (I2 j m' Hj) as (a & b & c & E). exists a, b, (c ++ [Called i (Reply m)]). rewrite E, <- app_assoc. cbn. rewrite <- app_assoc. reflexivity.
      * injection Hj as <- <-. rewrite El in J1. apply in_app_iff in J1. destruct J1 as [J1|[J1|[]]]; [|discriminate]. apply in_split in J1. destruct J1 as (a & b & Ea). exists a, b, []. rewrite El, Ea, <- !app_assoc. cbn. try rewrite <- app_assoc. reflexivity.
Qed.
