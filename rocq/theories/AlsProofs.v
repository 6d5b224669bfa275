(** Proofs about address aliases. *)
From Verif Require Import Base BaseFacts AlsSpec AlsModel.
From Coq Require Import NArith ZArith Lia.
Local Open Scope N_scope.

Lemma upd_same {X} (f : nat -> X) a x : upd f a x a = x.
Proof. unfold upd. rewrite Nat.eqb_refl. reflexivity. Qed.
Lemma upd_other {X} (f : nat -> X) a x b : b <> a -> upd f a x b = f b.
Proof. intros N. unfold upd. destruct (Nat.eqb_spec b a); [contradiction|reflexivity]. Qed.
Lemma mem_in ip l : mem ip l = true <-> In ip l.
Proof. unfold mem. rewrite existsb_exists. split; [intros (x & I & E); apply N.eqb_eq in E; subst; exact I|intros I; exists ip; split; [exact I|apply N.eqb_refl]]. Qed.
Lemma nodup_inj {X Y} (f : X -> Y) l x y : NoDup (map f l) -> In x l -> In y l -> f x = f y -> x = y.
Proof.
  induction l as [|z l IH]; intros N Ix Iy E; [destruct Ix|]. cbn [map] in N. apply NoDup_cons_iff in N as (M & N).
  destruct Ix as [->|Ix], Iy as [->|Iy]; [reflexivity| | |auto]; elim M; [rewrite E|rewrite <- E]; apply in_map; assumption.
Qed.

Definition bump (f : nat -> Z) (l : list alias) : list alias := map (fun x => Alias (ident x) (index x) (links x + f (ident x)) (ip_of x)) l.
Definition ids (l : list alias) := map ident l.
Definition ips (l : list alias) := map ip_of l.
Definition pairs (l : list alias) := map (fun x => (ident x, ip_of x)) l.
Lemma bump_ids f l : ids (bump f l) = ids l. Proof. unfold ids, bump. rewrite map_map. reflexivity. Qed.
Lemma bump_ips f l : ips (bump f l) = ips l. Proof. unfold ips, bump. rewrite map_map. reflexivity. Qed.
Lemma bump_pairs f l : pairs (bump f l) = pairs l. Proof. unfold pairs, bump. rewrite map_map. reflexivity. Qed.
Lemma bump_in f l y : In y (bump f l) -> exists x, In x l /\ ident y = ident x /\ index y = index x /\ ip_of y = ip_of x /\ (links y = links x + f (ident x))%Z.
Proof. intros I. apply in_map_iff in I as (x & <- & I). exists x. cbn. auto. Qed.
Lemma in_bump f l x : In x l -> exists y, In y (bump f l) /\ ident y = ident x /\ index y = index x /\ ip_of y = ip_of x.
Proof. intros I. eexists. split; [apply in_map_iff; exists x; split; [reflexivity|exact I]|]. cbn. auto. Qed.
Lemma bump_ext f g l : (forall i, In i (ids l) -> f i = g i) -> bump f l = bump g l.
Proof. intros E. apply map_ext_in. intros x I. rewrite E by (apply in_map; exact I). reflexivity. Qed.
Lemma bump_bump f g l : bump f (bump g l) = bump (fun i => g i + f i)%Z l.
Proof. unfold bump. rewrite map_map. apply map_ext. intros x. cbn. f_equal. lia. Qed.
Lemma bump_zero f l : (forall i, In i (ids l) -> f i = 0%Z) -> bump f l = l.
Proof. intros E. unfold bump. rewrite <- (map_id l) at 2. apply map_ext_in. intros [a b c d] I. cbn [ident index links ip_of]. rewrite E by (apply (in_map ident) in I; exact I). f_equal. lia. Qed.

Definition one (i : nat) (d : Z) (j : nat) : Z := if Nat.eqb j i then d else 0%Z.
Lemma link_at i d : forall l, NoDup (ids l) -> In i (ids l) -> link l i d = Ok (bump (one i d) l).
Proof.
  induction l as [|a l IH]; intros N I; [destruct I|]. unfold ids in N, I. cbn [map] in N, I. apply NoDup_cons_iff in N as (M & N). cbn [link bump map]. unfold one at 1. destruct (Nat.eqb_spec (ident a) i) as [E|E].
  - fold (bump (one i d) l). rewrite (bump_zero (one i d) l); [reflexivity|]. intros j Ij. unfold one. destruct (Nat.eqb_spec j i) as [Q|Q]; [|reflexivity]. elim M. rewrite E, <- Q. exact Ij.
  - destruct I as [I|I]; [contradiction|]. rewrite (IH N I). cbn [bind]. fold (bump (one i d) l). rewrite Z.add_0_r. destruct a; reflexivity.
Qed.
Definition cnt (m : list nat) (i : nat) : Z := Z.of_nat (count_occ Nat.eq_dec m i).
Lemma cnt_cons i m j : cnt (i :: m) j = (one i 1 j + cnt m j)%Z.
Proof. unfold cnt, one. cbn [count_occ]. destruct (Nat.eq_dec i j), (Nat.eqb_spec j i); try congruence; lia. Qed.
Lemma cnt_app m i j : cnt (m ++ [i]) j = (cnt m j + one i 1 j)%Z.
Proof. unfold cnt at 1. rewrite count_occ_app. fold (cnt m j). pose proof (cnt_cons i [] j) as E. unfold cnt in *. cbn [count_occ] in *. lia. Qed.
Lemma cnt_in m i : (0 < cnt m i)%Z <-> In i m.
Proof. unfold cnt. rewrite (count_occ_In Nat.eq_dec). lia. Qed.
Lemma unlink_at : forall m l, NoDup (ids l) -> incl m (ids l) -> unlink_all l m = Ok (bump (fun j => - cnt m j)%Z l).
Proof.
  induction m as [|i m IH]; intros l N I; cbn [unlink_all]; [rewrite bump_zero; [reflexivity|intros; reflexivity]|].
  rewrite link_at by (first [exact N|apply I; left; reflexivity]). cbn [bind]. rewrite IH by (rewrite bump_ids; first [exact N|intros j Ij; apply I; right; exact Ij]). rewrite bump_bump. f_equal. apply bump_ext. intros j _. rewrite cnt_cons. unfold one. destruct (Nat.eqb j i); lia.
Qed.

Lemma deref_at : forall l i ip, NoDup (ids l) -> In (i, ip) (pairs l) -> exists x, deref l i = Ok x /\ ip_of x = ip.
Proof.
  induction l as [|a l IH]; intros i ip N I; [destruct I|]. unfold ids in N. cbn [map] in N. apply NoDup_cons_iff in N as (M & N). cbn [deref]. destruct I as [I|I].
  - injection I as <- <-. rewrite Nat.eqb_refl. eauto.
  - destruct (Nat.eqb_spec (ident a) i) as [E|E]; [|apply IH; assumption]. elim M. rewrite E. apply in_map_iff in I as (x & X & I). injection X as <- _. apply in_map. exact I.
Qed.
Lemma search_mine l ip : NoDup (ids l) -> forall m ws, Forall2 (fun i p => In (i, p) (pairs l)) m ws -> ipsearch_mine l m ip = Ok (mem ip ws).
Proof.
  intros N m ws F. induction F as [|i p m ws I F IH]; cbn [ipsearch_mine mem existsb]; [reflexivity|]. destruct (deref_at l i p N I) as (x & E & <-). rewrite E. cbn [bind]. rewrite (N.eqb_sym ip). destruct (ip_of x =? ip); [reflexivity|exact IH].
Qed.
Lemma search_all ip : forall l, match ipsearch l ip with Some x => In x l /\ ip_of x = ip | None => mem ip (ips l) = false end.
Proof.
  induction l as [|a l IH]; cbn [ipsearch ips map mem existsb]; [reflexivity|]. rewrite (N.eqb_sym ip). destruct (N.eqb_spec (ip_of a) ip) as [E|E]; [split; [left; reflexivity|exact E]|]. destruct (ipsearch l ip) as [x|]; [destruct IH; split; [right; assumption|assumption]|exact IH].
Qed.
Lemma slot_at ip g : forall n i k k' r, find_slot k ip g n i = (k', r) ->
  (k' = k /\ r = None /\ (g = true -> forall j, (i <= j < i + n)%nat -> k j <> None)) \/ (exists j, (i <= j < i + n)%nat /\ k j = None /\ k' = upd k j (Some ip) /\ r = Some j) \/ (exists j, (i <= j < i + n)%nat /\ k j = Some ip /\ k' = k /\ r = Some j).
Proof.
  induction n as [|n IH]; intros i k k' r E; cbn [find_slot] in E; [injection E as <- <-; left; repeat split; intros; lia|]. destruct (k i) as [x|] eqn:Ki.
  - destruct (N.eqb_spec x ip) as [->|X]; [injection E as <- <-; right; right; exists i; repeat split; auto; lia|].
    destruct (IH _ _ _ _ E) as [(-> & -> & H)|[(j & J & R)|(j & J & R)]]; [left; repeat split; intros G j J; destruct (Nat.eq_dec j i) as [->|D]; [congruence|apply H; [exact G|lia]]|right; left; exists j; split; [lia|exact R]|right; right; exists j; split; [lia|exact R]].
  - destruct g; injection E as <- <-; [right; left; exists i; repeat split; auto; lia|left; repeat split; discriminate].
Qed.
Lemma filter_length_le {X} (p : X -> bool) l : (length (filter p l) <= length l)%nat.
Proof. induction l as [|x l IH]; cbn [filter length]; [lia|]. destruct (p x); cbn [length]; lia. Qed.
Lemma sweep_at : forall l k, match sweep k l with (k', l', b) => l' = filter (fun x => negb (Z.eqb (links x) 0)) l /\ b = negb (Nat.eqb (length l') (length l)) /\
    (forall i, k' i = k i \/ (k' i = None /\ exists x, In x l /\ links x = 0%Z /\ index x = Some i)) /\
    (forall x i, In x l -> links x = 0%Z -> index x = Some i -> k' i = None) /\ (forall i, k i = None -> k' i = None) end.
Proof.
  induction l as [|a l IH]; intros k; cbn [sweep]; [repeat split; auto; intros x i []|]. destruct (Z.eqb_spec (links a) 0) as [Z|Z].
  - specialize (IH (destroy k a)). destruct (sweep (destroy k a) l) as ((k' & l') & b). destruct IH as (F & B & K1 & K2 & K3). cbn [filter length]. rewrite (proj2 (Z.eqb_eq _ _) Z). cbn [negb]. split; [exact F|]. split.
    { destruct (Nat.eqb_spec (length l') (S (length l))) as [L|]; [|reflexivity]. rewrite F in L. pose proof (filter_length_le (fun x => negb (Z.eqb (links x) 0)) l). lia. }
    assert (D : forall i, k i = None -> destroy k a i = None) by (intros i H; unfold destroy; destruct (index a) as [j|]; [unfold upd; destruct (Nat.eqb i j); auto|exact H]).
    split; [|split].
    + intros i. destruct (K1 i) as [E|(E & x & I & R)]; [|right; split; [exact E|]; exists x; split; [right; exact I|exact R]]. unfold destroy in E. destruct (index a) as [j|] eqn:J; [|left; exact E]. destruct (Nat.eq_dec i j) as [->|N]; [rewrite upd_same in E; right; split; [exact E|]; exists a; split; [left; reflexivity|auto]|rewrite upd_other in E by exact N; left; exact E].
    + intros x i [->|I] L X; [|eapply K2; eassumption]. apply K3. unfold destroy. rewrite X. apply upd_same.
    + intros i H. apply K3, D, H.
  - specialize (IH k). destruct (sweep k l) as ((k' & l') & b). destruct IH as (F & B & K1 & K2 & K3). cbn [filter length]. rewrite (proj2 (Z.eqb_neq _ _) Z). cbn [negb]. split; [rewrite F; reflexivity|]. split; [exact B|]. split; [|split; [|exact K3]].
    + intros i. destruct (K1 i) as [E|(E & x & I & R)]; [left; exact E|right; split; [exact E|]; exists x; split; [right; exact I|exact R]].
    + intros x i [->|I] L X; [contradiction|eapply K2; eassumption].
Qed.

(** How often the aliasers have an object *)
Fixpoint tot (n : nat) (f : nat -> list nat) (i : nat) : Z := match n with O => 0 | S n => tot n f i + cnt (f n) i end.
Lemma tot_upd f a m i : forall n, tot n (upd f a m) i = (tot n f i + (if Nat.ltb a n then cnt m i - cnt (f a) i else 0))%Z.
Proof.
  induction n as [|n IH]; cbn [tot]; [reflexivity|]. rewrite IH. destruct (Nat.eq_dec n a) as [->|D].
  - rewrite upd_same. destruct (Nat.ltb_spec a a), (Nat.ltb_spec a (S a)); lia.
  - rewrite upd_other by exact D. destruct (Nat.ltb_spec a n), (Nat.ltb_spec a (S n)); lia.
Qed.
Lemma tot_pos f i : forall n, (0 <= tot n f i)%Z /\ (tot n f i = 0%Z <-> forall a, (a < n)%nat -> ~ In i (f a)).
Proof.
  induction n as [|n (P & IH)]; cbn [tot]; [split; [lia|split; [intros _ a; lia|reflexivity]]|]. assert (C : (0 <= cnt (f n) i)%Z) by (unfold cnt; lia). split; [lia|]. split.
  - intros E a L I. destruct (Nat.eq_dec a n) as [->|D]; [apply cnt_in in I; lia|]. assert (T : tot n f i = 0%Z) by lia. apply (proj1 IH T a); [lia|exact I].
  - intros H. assert (T : tot n f i = 0%Z) by (apply IH; intros a L; apply H; lia). pose proof (cnt_in (f n) i) as X. destruct (Z.eq_dec (cnt (f n) i) 0) as [Z|Z]; [lia|]. elim (H n); [lia|apply X; lia].
Qed.

Record inv (n : nat) (k0 : kernel) (s : st) (w : want) : Prop := Inv {
  i_live : ips (all s) = live w;
  i_ids : NoDup (ids (all s)); i_fresh : forall i, In i (ids (all s)) -> (i < fresh_id s)%nat;
  i_ips : NoDup (ips (all s));
  i_mine : forall a, Forall2 (fun i p => In (i, p) (pairs (all s))) (mine s a) (wants w a);
  i_out : forall a, (n <= a)%nat -> mine s a = [];
  i_links : forall x, In x (all s) -> links x = tot n (mine s) (ident x);
  i_real : forall a p, real_seen s a p = real_of w a p;
  i_up : forall x i, In x (all s) -> index x = Some i -> kern s i = Some (ip_of x) /\ (i < 256)%nat;
  i_else : forall i v, kern s i = Some v -> k0 i = Some v \/ exists x, In x (all s) /\ index x = Some i /\ ip_of x = v }.

Lemma mine_ids n k0 s w a : inv n k0 s w -> incl (mine s a) (ids (all s)).
Proof.
  intros I i Hi. pose proof (i_mine _ _ _ _ I a) as F. clear -Hi F. induction F as [|j p m ws X F IH]; [destruct Hi|]. destruct Hi as [->|Hi]; [|apply IH, Hi]. apply in_map_iff in X as (x & E & X). injection E as <- _. apply in_map. exact X.
Qed.
(** Who wants an address has its object *)
Lemma mine_wants n k0 s w a x : inv n k0 s w -> In x (all s) -> (In (ident x) (mine s a) <-> In (ip_of x) (wants w a)).
Proof.
  intros I Hx. pose proof (i_mine _ _ _ _ I a) as F. induction F as [|j p m ws X F IH]; [tauto|]. cbn [In]. rewrite IH. apply in_map_iff in X as (y & E & X). injection E as <- <-.
  split; (intros [E|E]; [left|right; exact E]); [f_equal; apply (nodup_inj ident (all s)); auto; apply (i_ids _ _ _ _ I)|f_equal; apply (nodup_inj ip_of (all s)); auto; apply (i_ips _ _ _ _ I)].
Qed.
Lemma links_wanted n k0 s w x : inv n k0 s w -> In x (all s) -> negb (Z.eqb (links x) 0) = wanted n w (ip_of x).
Proof.
  intros I Hx. rewrite (i_links _ _ _ _ I x Hx). destruct (tot_pos (mine s) (ident x) n) as (_ & T). destruct (wanted n w (ip_of x)) eqn:W.
  - unfold wanted in W. apply existsb_exists in W as (a & Ia & M). apply in_seq in Ia. apply mem_in in M. destruct (Z.eqb_spec (tot n (mine s) (ident x)) 0) as [E|E]; [|reflexivity]. elim (proj1 T E a); [lia|]. apply (mine_wants _ _ _ _ a x I Hx). exact M.
  - destruct (Z.eqb_spec (tot n (mine s) (ident x)) 0) as [E|E]; [reflexivity|]. elim E. apply T. intros a L M. apply (mine_wants _ _ _ _ a x I Hx) in M. enough (wanted n w (ip_of x) = true) by congruence. apply existsb_exists. exists a. split; [apply in_seq; lia|apply mem_in; exact M].
Qed.
Lemma filter_map_eq {X Y} (f : X -> Y) p q : forall l, (forall x, In x l -> p x = q (f x)) -> map f (filter p l) = filter q (map f l).
Proof. induction l as [|x l IH]; intros E; cbn [filter map]; [reflexivity|]. rewrite <- E by (left; reflexivity). rewrite <- IH by (intros; apply E; right; assumption). destruct (p x); reflexivity. Qed.
Lemma nodup_filter {X Y} (f : X -> Y) p : forall l, NoDup (map f l) -> NoDup (map f (filter p l)).
Proof.
  induction l as [|x l IH]; intros N; cbn [filter map] in *; [constructor|]. apply NoDup_cons_iff in N as (M & N). destruct (p x); [|apply IH, N]. cbn [map]. constructor; [|apply IH, N]. intros X1. apply M. apply in_map_iff in X1 as (y & <- & I). apply filter_In in I as (I & _). apply in_map, I.
Qed.

Lemma start_ok n k0 s w a r : inv n k0 s w -> (a < n)%nat -> exists s', start_edit s a r = Ok s' /\ inv n k0 s' (fst (next n w (Start a r))) /\ kern s' = kern s.
Proof.
  intros I L. unfold start_edit. rewrite unlink_at by (first [apply (i_ids _ _ _ _ I)|eapply mine_ids; exact I]). cbn [bind]. eexists. split; [reflexivity|]. split; [|reflexivity]. cbn [next fst].
  constructor; cbn [all mine kern real_seen fresh_id live wants real_of].
  - rewrite bump_ips. apply (i_live _ _ _ _ I).
  - rewrite bump_ids. apply (i_ids _ _ _ _ I).
  - intros i. rewrite bump_ids. apply (i_fresh _ _ _ _ I).
  - rewrite bump_ips. apply (i_ips _ _ _ _ I).
  - intros b. rewrite bump_pairs. destruct (Nat.eq_dec b a) as [->|D]; [rewrite !upd_same; constructor|rewrite !upd_other by exact D; apply (i_mine _ _ _ _ I)].
  - intros b Lb. rewrite upd_other by lia. apply (i_out _ _ _ _ I b Lb).
  - intros y Hy. apply bump_in in Hy as (x & Hx & E1 & _ & _ & E2). rewrite E2, E1, (i_links _ _ _ _ I x Hx), tot_upd. rewrite (proj2 (Nat.ltb_lt a n) L). unfold cnt at 2. cbn [count_occ]. lia.
  - intros b p. destruct (Nat.eq_dec b a) as [->|D]; [rewrite !upd_same; reflexivity|rewrite !upd_other by exact D; apply (i_real _ _ _ _ I)].
  - intros y i Hy Y. apply bump_in in Hy as (x & Hx & _ & E1 & E2 & _). rewrite E2. apply (i_up _ _ _ _ I x i Hx). congruence.
  - intros i v K. destruct (i_else _ _ _ _ I i v K) as [X|(x & Hx & X & V)]; [left; exact X|right]. destruct (in_bump (fun j => - cnt (mine s a) j)%Z _ _ Hx) as (y & Hy & _ & E1 & E2). exists y. split; [exact Hy|]. split; congruence.
Qed.

Lemma NoDup_app_single {X} (l : list X) x : NoDup l -> ~ In x l -> NoDup (l ++ [x]).
Proof. intros N I. induction N as [|y l M N IH]; cbn [app]; [repeat constructor; auto|]. constructor; [intros X1; apply in_app_or in X1 as [X1|[->|[]]]; [contradiction|apply I; left; reflexivity]|apply IH; intros X1; apply I; right; exact X1]. Qed.
Lemma fin_ok n k0 s w a : inv n k0 s w -> exists s', done_edit s = (s', snd (next n w (Finish a))) /\ inv n k0 s' (fst (next n w (Finish a))) /\
  (forall i v, kern s i = Some v -> (In v (live w) -> In v (filter (wanted n w) (live w))) -> kern s' i = Some v).
Proof.
  intros I. unfold done_edit. pose proof (sweep_at (all s) (kern s)) as P. destruct (sweep (kern s) (all s)) as ((k' & l') & b). destruct P as (F & B & K1 & K2 & K3).
  assert (E : ips l' = filter (wanted n w) (live w)). { rewrite F, <- (i_live _ _ _ _ I). unfold ips. apply filter_map_eq. intros x Hx. eapply links_wanted; eassumption. }
  assert (In' : forall x, In x l' <-> In x (all s) /\ links x <> 0%Z). { intros x. rewrite F, filter_In. destruct (Z.eqb_spec (links x) 0); cbn [negb]; intuition congruence. }
  assert (Same : forall x y i, In x (all s) -> In y (all s) -> index x = Some i -> index y = Some i -> x = y).
  { intros x y i Hx Hy X Y. destruct (i_up _ _ _ _ I x i Hx X) as (Kx & _). destruct (i_up _ _ _ _ I y i Hy Y) as (Ky & _). apply (nodup_inj ip_of (all s)); auto; [apply (i_ips _ _ _ _ I)|congruence]. }
  eexists. split; [|split].
  - cbn [next snd]. rewrite B, <- E, <- (i_live _ _ _ _ I). unfold ips. rewrite !map_length. reflexivity.
  - cbn [next fst]. constructor; cbn [all mine kern real_seen fresh_id live wants real_of].
    + exact E.
    + rewrite F. apply nodup_filter, (i_ids _ _ _ _ I).
    + intros i Hi. apply (i_fresh _ _ _ _ I). apply in_map_iff in Hi as (x & <- & Hx). apply In' in Hx as (Hx & _). apply in_map, Hx.
    + rewrite F. apply nodup_filter, (i_ips _ _ _ _ I).
    + intros c. pose proof (i_mine _ _ _ _ I c) as M. destruct (Nat.ltb_spec c n) as [Lc|Lc]; [|rewrite (i_out _ _ _ _ I c Lc) in *; inversion M; constructor].
      assert (Q : forall i, In i (mine s c) -> forall p, In (i, p) (pairs (all s)) -> In (i, p) (pairs l')).
      { intros i Hi p Hp. apply in_map_iff in Hp as (x & X & Hx). injection X as <- <-. apply (in_map (fun x => (ident x, ip_of x))). apply In'. split; [exact Hx|]. rewrite (i_links _ _ _ _ I x Hx). intros Z. apply (proj2 (tot_pos _ _ _)) with (a := c) in Z; [contradiction|exact Lc]. }
      clear -M Q. induction M as [|i p m ws X M IH]; constructor; [apply Q; [left; reflexivity|exact X]|apply IH; intros j Hj; apply Q; right; exact Hj].
    + apply (i_out _ _ _ _ I).
    + intros x Hx. apply In' in Hx as (Hx & _). apply (i_links _ _ _ _ I x Hx).
    + apply (i_real _ _ _ _ I).
    + intros x i Hx X. apply In' in Hx as (Hx & Lx). destruct (i_up _ _ _ _ I x i Hx X) as (Kx & R). split; [|exact R]. destruct (K1 i) as [K|(K & y & Hy & Ly & Y)]; [congruence|]. assert (x = y) by (eapply Same; eassumption). congruence.
    + intros i v K. destruct (K1 i) as [E1|(E1 & _)]; [|congruence]. rewrite K in E1. symmetry in E1. destruct (i_else _ _ _ _ I i v E1) as [X|(x & Hx & X & V)]; [left; exact X|right]. exists x. split; [|auto]. apply In'. split; [exact Hx|]. intros Z. rewrite (K2 x i Hx Z X) in K. discriminate.
  - cbn [kern]. intros i v K Lv. destruct (K1 i) as [E1|(E1 & x & Hx & Z & X)]; [congruence|]. exfalso. destruct (i_up _ _ _ _ I x i Hx X) as (Kx & _). assert (V : ip_of x = v) by congruence. rewrite <- V in Lv. rewrite <- E, <- (i_live _ _ _ _ I) in Lv. specialize (Lv (in_map ip_of _ _ Hx)). apply in_map_iff in Lv as (y & Y & Hy). apply In' in Hy as (Hy & Ly). assert (y = x) by (apply (nodup_inj ip_of (all s)); auto; apply (i_ips _ _ _ _ I)). congruence.
Qed.

Lemma add_ok n k0 s w a ip g : inv n k0 s w -> (a < n)%nat -> exists s', add s a ip g = Ok (s', snd (next n w (Add a ip g))) /\ inv n k0 s' (fst (next n w (Add a ip g))) /\
  (forall i v, kern s i = Some v -> kern s' i = Some v) /\
  (snd (next n w (Add a ip g)) = true -> g = true -> (exists j, (j < 256)%nat /\ kern s j = None) -> exists j, (j < 256)%nat /\ kern s' j = Some ip).
Proof.
  intros I L. unfold add. cbn [next]. unfold fresh. rewrite (search_mine _ ip (i_ids _ _ _ _ I) _ _ (i_mine _ _ _ _ I a)), (i_real _ _ _ _ I).
  destruct (ip =? 0); cbn [negb andb]; [exists s; split; [reflexivity|]; split; [exact I|]; split; [auto|discriminate]|]. cbn [bind]. destruct (mem ip (wants w a)); cbn [negb andb orb]; [exists s; split; [reflexivity|]; split; [exact I|]; split; [auto|discriminate]|].
  destruct (real_of w a ip); cbn [negb]; [exists s; split; [reflexivity|]; split; [exact I|]; split; [auto|discriminate]|]. pose proof (search_all ip (all s)) as P. destruct (ipsearch (all s) ip) as [x|].
  - destruct P as (Hx & X). assert (M : mem ip (live w) = true) by (apply mem_in; rewrite <- (i_live _ _ _ _ I), <- X; apply in_map, Hx). rewrite M. cbn [negb fst snd].
    rewrite link_at by (first [apply (i_ids _ _ _ _ I)|apply in_map; exact Hx]). cbn [bind]. eexists. split; [reflexivity|]. split; [|split; [auto|discriminate]].
    constructor; cbn [all mine kern real_seen fresh_id live wants real_of].
    + rewrite bump_ips. apply (i_live _ _ _ _ I).
    + rewrite bump_ids. apply (i_ids _ _ _ _ I).
    + intros i. rewrite bump_ids. apply (i_fresh _ _ _ _ I).
    + rewrite bump_ips. apply (i_ips _ _ _ _ I).
    + intros b. rewrite bump_pairs. destruct (Nat.eq_dec b a) as [->|D]; [rewrite !upd_same|rewrite !upd_other by exact D; apply (i_mine _ _ _ _ I)]. apply Forall2_app; [apply (i_mine _ _ _ _ I)|]. constructor; [|constructor]. rewrite <- X. apply (in_map (fun x => (ident x, ip_of x))). exact Hx.
    + intros b Lb. rewrite upd_other by lia. apply (i_out _ _ _ _ I b Lb).
    + intros y Hy. apply bump_in in Hy as (z & Hz & E1 & _ & _ & E2). rewrite E2, E1, (i_links _ _ _ _ I z Hz), tot_upd. rewrite (proj2 (Nat.ltb_lt a n) L), cnt_app. lia.
    + apply (i_real _ _ _ _ I).
    + intros y i Hy Y. apply bump_in in Hy as (z & Hz & _ & E1 & E2 & _). rewrite E2. apply (i_up _ _ _ _ I z i Hz). congruence.
    + intros i v K. destruct (i_else _ _ _ _ I i v K) as [Y|(z & Hz & Z & V)]; [left; exact Y|right]. destruct (in_bump (one (ident x) 1) _ _ Hz) as (y & Hy & _ & E1 & E2). exists y. split; [exact Hy|]. split; congruence.
  - assert (M : mem ip (live w) = false) by (rewrite <- (i_live _ _ _ _ I); exact P). rewrite M. cbn [negb fst snd]. destruct (find_slot (kern s) ip g 256 0) as (k & i) eqn:S. apply slot_at in S. set (new := Alias (fresh_id s) i 0 ip).
    assert (Nid : ~ In (fresh_id s) (ids (all s))) by (intros X; apply (i_fresh _ _ _ _ I) in X; lia).
    assert (Nip : ~ In ip (ips (all s))) by (intros X; apply mem_in in X; congruence).
    assert (Ids : ids (all s ++ [new]) = ids (all s) ++ [fresh_id s]) by (unfold ids; rewrite map_app; reflexivity).
    assert (Ips : ips (all s ++ [new]) = ips (all s) ++ [ip]) by (unfold ips; rewrite map_app; reflexivity).
    assert (Nd : NoDup (ids (all s ++ [new]))) by (rewrite Ids; apply NoDup_app_single; [apply (i_ids _ _ _ _ I)|exact Nid]).
    assert (Keep : forall j v, kern s j = Some v -> k j = Some v). { intros j v K. destruct S as [(-> & _)|[(j' & _ & F & -> & _)|(j' & _ & _ & -> & _)]]; auto. rewrite upd_other; [exact K|congruence]. }
    rewrite link_at by (first [exact Nd|rewrite Ids; apply in_or_app; right; left; reflexivity]). cbn [bind ident new]. eexists. split; [reflexivity|]. split; [|split].
    + constructor; cbn [all mine kern real_seen fresh_id live wants real_of].
      * rewrite bump_ips, Ips, (i_live _ _ _ _ I). reflexivity.
      * rewrite bump_ids. exact Nd.
      * intros j. rewrite bump_ids, Ids. intros X. apply in_app_or in X as [X|[<-|[]]]; [apply (i_fresh _ _ _ _ I) in X|]; lia.
      * rewrite bump_ips, Ips. apply NoDup_app_single; [apply (i_ips _ _ _ _ I)|exact Nip].
      * assert (Sub : forall m ws, Forall2 (fun i p => In (i, p) (pairs (all s))) m ws -> Forall2 (fun i p => In (i, p) (pairs (all s ++ [new]))) m ws).
        { intros m ws F. induction F as [|j p m ws X F IH]; constructor; [unfold pairs; rewrite map_app; apply in_or_app; left; exact X|exact IH]. }
        intros b. rewrite bump_pairs. destruct (Nat.eq_dec b a) as [->|D]; [rewrite !upd_same|rewrite !upd_other by exact D; apply Sub, (i_mine _ _ _ _ I)]. apply Forall2_app; [apply Sub, (i_mine _ _ _ _ I)|]. constructor; [|constructor]. unfold pairs. rewrite map_app. apply in_or_app. right. left. reflexivity.
      * intros b Lb. rewrite upd_other by lia. apply (i_out _ _ _ _ I b Lb).
      * intros y Hy. apply bump_in in Hy as (z & Hz & E1 & _ & _ & E2). rewrite E2, E1, tot_upd, (proj2 (Nat.ltb_lt a n) L), cnt_app. apply in_app_or in Hz as [Hz|[<-|[]]]; [rewrite (i_links _ _ _ _ I z Hz); lia|]. cbn [links ident new].
        assert (T : tot n (mine s) (fresh_id s) = 0%Z) by (apply tot_pos; intros b _ X; apply Nid; eapply mine_ids; eassumption). lia.
      * apply (i_real _ _ _ _ I).
      * intros y j Hy Y. apply bump_in in Hy as (z & Hz & _ & E1 & E2 & _). rewrite E2. rewrite E1 in Y. apply in_app_or in Hz as [Hz|[<-|[]]]; [destruct (i_up _ _ _ _ I z j Hz Y); split; auto|]. cbn [index ip_of new] in *. destruct S as [(_ & -> & _)|[(j' & R & F & -> & ->)|(j' & R & F & -> & ->)]]; [discriminate| |]; injection Y as <-; (split; [|lia]); [apply upd_same|exact F].
      * intros j v K. assert (Q : kern s j = Some v \/ (i = Some j /\ v = ip)). { destruct S as [(-> & _)|[(j' & _ & F & -> & ->)|(j' & _ & _ & -> & _)]]; [left; exact K| |left; exact K]. destruct (Nat.eq_dec j j') as [->|D]; [rewrite upd_same in K; injection K as <-; auto|rewrite upd_other in K by exact D; left; exact K]. }
        destruct Q as [Q|(-> & ->)].
        -- destruct (i_else _ _ _ _ I j v Q) as [Y|(z & Hz & Z & V)]; [left; exact Y|right]. destruct (in_bump (one (fresh_id s) 1) (all s ++ [new]) z) as (y & Hy & _ & E1 & E2); [apply in_or_app; left; exact Hz|]. exists y. split; [exact Hy|]. split; congruence.
        -- right. destruct (in_bump (one (fresh_id s) 1) (all s ++ [new]) new) as (y & Hy & _ & E1 & E2); [apply in_or_app; right; left; reflexivity|]. exists y. split; [exact Hy|]. split; [exact E1|exact E2].
    + exact Keep.
    + intros _ G (j & Lj & F). cbn [kern]. destruct S as [(_ & _ & H)|[(j' & R & _ & -> & _)|(j' & R & Kj & -> & _)]]; [elim (H G j); [lia|exact F]| |]; exists j'; (split; [lia|]); [apply upd_same|exact Kj].
Qed.
Lemma boot_inv n k0 : inv n k0 (boot k0) nothing.
Proof. constructor; cbn [boot nothing all mine kern real_seen fresh_id live wants real_of ips ids map pairs]; [reflexivity|constructor|intros i []|constructor|intros a; constructor|reflexivity|intros x []|reflexivity|intros x i []|intros i v K; left; exact K]. Qed.
Lemma step_ok n k0 s w o : inv n k0 s w -> uses n o -> exists s', step s o = Ok (s', snd (next n w o)) /\ inv n k0 s' (fst (next n w o)) /\
  (forall i v, kern s i = Some v -> (In v (live w) -> In v (live (fst (next n w o)))) -> kern s' i = Some v).
Proof.
  intros I U. destruct o as [a r|a ip g|a]; cbn [step uses] in *.
  - destruct (start_ok n k0 s w a r I U) as (s' & E & I' & K). rewrite E. cbn [bind]. exists s'. split; [reflexivity|]. split; [exact I'|]. rewrite K. auto.
  - destruct (add_ok n k0 s w a ip g I U) as (s' & E & I' & K & _). exists s'. auto.
  - destruct (fin_ok n k0 s w a I) as (s' & E & I' & K). exists s'. rewrite E. auto.
Qed.
Lemma run_ok n k0 : forall l s w, inv n k0 s w -> Forall (uses n) l -> exists s', run s l = Ok (s', snd (expect n w l)) /\ inv n k0 s' (fst (expect n w l)).
Proof.
  induction l as [|o l IH]; intros s w I F; cbn [run expect]; [exists s; auto|]. inversion F as [|? ? U F']; subst. destruct (step_ok n k0 s w o I U) as (s1 & E & I1 & _). rewrite E. cbn [bind]. destruct (next n w o) as (w1 & b). cbn [fst snd] in *. destruct (IH s1 w1 I1 F') as (s2 & E2 & I2). rewrite E2. cbn [bind]. destruct (expect n w1 l) as (w2 & r). cbn [fst snd] in *. exists s2. auto.
Qed.
