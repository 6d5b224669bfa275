From Verif Require Import Base BaseFacts Ctype UrlModel IniModel IniSpec IniProofs IniProofs2 KeySpec IntFmtModel ConfModel ConfSpec.
Local Open Scope nat_scope.

Lemma same_iff : forall a b, same a b = true <-> same_text a b.
Proof.
  unfold same_text. induction a as [|c a IH]; intros [|d b]; cbn; split; intros H; try discriminate; auto.
  - apply andb_prop in H. destruct H as [H1 H2]. apply Ascii.eqb_eq in H1. apply IH in H2. congruence.
  - inversion H as [[H1 H2]]. rewrite H1, Ascii.eqb_refl. cbn. apply IH, H2.
Qed.
Lemma same_false a b : same a b = false <-> ~ same_text a b.
Proof. rewrite <- same_iff. destruct (same a b); split; congruence. Qed.
Lemma exact_iff : forall a b, exact a b = true <-> a = b.
Proof.
  induction a as [|c a IH]; intros [|d b]; cbn; split; intros H; try discriminate; auto.
  - apply andb_prop in H. destruct H as [H1 H2]. apply Ascii.eqb_eq in H1. apply IH in H2. congruence.
  - inversion H. subst. rewrite Ascii.eqb_refl. cbn. apply IH. reflexivity.
Qed.
Lemma same_refl a : same a a = true. Proof. apply same_iff. reflexivity. Qed.
Lemma st_sym a b : same_text a b -> same_text b a. Proof. unfold same_text. congruence. Qed.
Lemma st_trans a b c : same_text a b -> same_text b c -> same_text a c. Proof. unfold same_text. congruence. Qed.
Lemma same_cong a b c : same_text b c -> same a b = same a c.
Proof.
  intros H. destruct (same a b) eqn:E1, (same a c) eqn:E2; auto; [apply same_iff in E1; apply same_false in E2|apply same_false in E1; apply same_iff in E2];
    [destruct E2; eapply st_trans; eauto|destruct E1; eapply st_trans; eauto; apply st_sym; auto].
Qed.

(** ** Searching lists *)
Lemma none_cons {A} (x : bytes * A) l n : none_of (x :: l) n <-> ~ same_text (fst x) n /\ none_of l n.
Proof. unfold none_of. split; [intros H; split; [apply H; left; auto|intros y Hy; apply H; right; auto]|intros [H1 H2] y [->|Hy]; auto]. Qed.
Lemma first_cons_same {A} (x y : bytes * A) l n : same_text (fst x) n -> first_of (x :: l) n y <-> y = x.
Proof.
  intros H. split.
  - intros (a & b & E & S & N). destruct a as [|z a]; cbn in E; inversion E; subst; [reflexivity|]. destruct (N z (or_introl eq_refl) H).
  - intros ->. exists [], l. split; [reflexivity|]. split; [exact H|]. intros y [].
Qed.
Lemma first_cons_other {A} (x y : bytes * A) l n : ~ same_text (fst x) n -> first_of (x :: l) n y <-> first_of l n y.
Proof.
  intros H. split.
  - intros (a & b & E & S & N). destruct a as [|z a]; cbn in E; inversion E; subst; [contradiction|]. exists a, b. split; [reflexivity|]. split; [exact S|]. intros w Hw. apply N. right. exact Hw.
  - intros (a & b & -> & S & N). exists (x :: a), b. split; [reflexivity|]. split; [exact S|]. intros w [<-|Hw]; auto.
Qed.
Lemma find_sect_first : forall l s x, find_sect l s = Some x <-> first_of l s x.
Proof.
  induction l as [|y l IH]; intros s x; cbn.
  - split; [discriminate|]. intros (a & b & E & _). destruct a; discriminate.
  - destruct (same (fst y) s) eqn:E.
    + apply same_iff in E. rewrite (first_cons_same y x l s E). split; congruence.
    + apply same_false in E. rewrite (first_cons_other y x l s E). apply IH.
Qed.
Lemma find_sect_none : forall l s, find_sect l s = None <-> none_of l s.
Proof.
  induction l as [|y l IH]; intros s; cbn.
  - split; auto. intros _ z [].
  - rewrite none_cons. destruct (same (fst y) s) eqn:E.
    + apply same_iff in E. split; [discriminate|tauto].
    + apply same_false in E. rewrite IH. tauto.
Qed.
Lemma find_entry_first : forall l e v, find_entry l e = Some v <-> exists n, first_of l e (n, v).
Proof.
  induction l as [|[n w] l IH]; intros e v; cbn.
  - split; [discriminate|]. intros (n & a & b & E & _). destruct a; discriminate.
  - destruct (same n e) eqn:E.
    + apply same_iff in E. split.
      * intros [= <-]. exists n. apply first_cons_same; auto.
      * intros (m & H). apply (first_cons_same (n, w) (m, v) l e E) in H. congruence.
    + apply same_false in E. rewrite IH. split; intros (m & H); exists m; apply (first_cons_other (n, w) (m, v) l e E); exact H.
Qed.
Lemma find_entry_none : forall l e, find_entry l e = None <-> none_of l e.
Proof.
  induction l as [|[n w] l IH]; intros e; cbn.
  - split; auto. intros _ z [].
  - rewrite none_cons. cbn. destruct (same n e) eqn:E.
    + apply same_iff in E. split; [discriminate|tauto].
    + apply same_false in E. rewrite IH. tauto.
Qed.
Lemma find_sect_cong l s t : same_text s t -> find_sect l s = find_sect l t.
Proof. intros H. induction l as [|y l IH]; cbn; auto. rewrite (same_cong (fst y) s t H), IH. reflexivity. Qed.
Lemma find_entry_cong l s t : same_text s t -> find_entry l s = find_entry l t.
Proof. intros H. induction l as [|[n y] l IH]; cbn; auto. rewrite (same_cong n s t H), IH. reflexivity. Qed.
Lemma find_sect_self l s x : find_sect l s = Some x -> find_sect l (fst x) = Some x /\ In x l /\ same_text (fst x) s.
Proof.
  intros H. pose proof H as F. apply find_sect_first in F. destruct F as (a & b & E & S & N). split; [|split; [rewrite E; apply in_or_app; cbn; auto|exact S]].
  rewrite (find_sect_cong l (fst x) s S). exact H.
Qed.
Lemma says_iff c s e v : says c s e v <-> exists x, find_sect (sects c) s = Some x /\ find_entry (snd x) e = Some v.
Proof.
  unfold says. split.
  - intros (x & n & H1 & H2). exists x. rewrite find_sect_first, find_entry_first. eauto.
  - intros (x & H1 & H2). rewrite find_sect_first in H1. rewrite find_entry_first in H2. destruct H2 as (n & H2). eauto.
Qed.
Lemma silent_iff c s e : silent c s e <-> forall x, find_sect (sects c) s = Some x -> find_entry (snd x) e = None.
Proof. unfold silent. split; intros H x F; [apply find_entry_none, H, find_sect_first, F|apply find_entry_none, H, find_sect_first, F]. Qed.

(** ** The search *)
Inductive inh (c : conf) (e : bytes) : bytes * entries -> bytes -> Prop :=
| H_here x v : find_entry (snd x) e = Some v -> inh c e x v
| H_up x y v : find_entry (snd x) e = None -> parent c (snd x) = Some y -> inh c e y v -> inh c e x v.
Lemma inherits_inh c e : forall s v, inherits c e s v -> exists x, find_sect (sects c) s = Some x /\ inh c e x v.
Proof.
  induction 1 as [s v H|s t v Hs Ht _ (y & Fy & IH)].
  - apply says_iff in H. destruct H as (x & F & G). exists x. split; [exact F|]. apply H_here, G.
  - apply says_iff in Ht. destruct Ht as (x & F & G). exists x. split; [exact F|]. rewrite silent_iff in Hs. apply (H_up c e x y v); auto.
    unfold parent. rewrite G. exact Fy.
Qed.
Lemma inh_inherits c e : forall x v, inh c e x v -> forall s, find_sect (sects c) s = Some x -> inherits c e s v.
Proof.
  induction 1 as [x v H|x y v Hn Hp _ IH]; intros s F.
  - apply I_here, says_iff. eauto.
  - unfold parent in Hp. destruct (find_entry (snd x) (B "Inherits")) as [t|] eqn:E; [|discriminate].
    apply (I_up c e s t v).
    + apply silent_iff. intros z Fz. rewrite F in Fz. congruence.
    + apply says_iff. eauto.
    + apply IH, Hp.
Qed.
Lemma inh_fun c e : forall x v, inh c e x v -> forall w, inh c e x w -> v = w.
Proof.
  induction 1 as [x v H|x y v Hn Hp _ IH]; intros w G; inversion G; subst; try congruence.
  apply IH. congruence.
Qed.

Section Search.
Variables (c : conf) (e : bytes).
Definition node (x : bytes * entries) : Prop := find_sect (sects c) (fst x) = Some x.
Lemma parent_node (x y : bytes * entries) : parent c (snd x) = Some y -> node y.
Proof. unfold parent. destruct (find_entry _ _) as [v|]; [|discriminate]. intros H. apply find_sect_self in H. apply H. Qed.
Definition closed (cache : list bytes) (cur : option (bytes * entries)) : Prop :=
  forall x, node x -> In (fst x) cache -> find_entry (snd x) e = None /\ (forall y, parent c (snd x) = Some y -> In (fst y) cache \/ cur = Some y).
Lemma closed_silent cache : closed cache None -> forall x v, inh c e x v -> node x -> ~ In (fst x) cache.
Proof.
  intros C. induction 1 as [x v H|x y v Hn Hp _ IH]; intros N I; destruct (C x N I) as [C1 C2]; [congruence|].
  destruct (C2 y Hp) as [Hy|Hy]; [|discriminate]. exact (IH (parent_node x y Hp) Hy).
Qed.
Lemma node_exact x y : node x -> node y -> fst x = fst y -> x = y.
Proof. unfold node. intros A D E. rewrite E in A. congruence. Qed.
Definition names : list bytes := map fst (sects c).
Lemma node_in x : node x -> In (fst x) names.
Proof. intros H. apply find_sect_self in H. apply in_map, H. Qed.
Lemma search_ok : forall fuel cache cur, NoDup cache -> incl cache names -> closed cache cur -> (forall x, cur = Some x -> node x) ->
  length (sects c) < fuel + length cache \/ (cur = None) ->
  exists v cache', search fuel c cache cur e = Ok (v, cache') /\
    (forall w, v = Some w -> exists x, cur = Some x /\ inh c e x w) /\
    (v = None -> NoDup cache' /\ incl cache' names /\ closed cache' None /\ incl cache cache' /\ (forall x, cur = Some x -> In (fst x) cache')).
Proof.
  induction fuel as [|fuel IH]; intros cache cur ND IN C N L.
  - destruct cur as [[n l]|]; cbn [search].
    + destruct L as [L|L]; [|discriminate]. exfalso. pose proof (NoDup_incl_length ND IN) as Q. unfold names in Q. rewrite map_length in Q. lia.
    + exists None, cache. split; [reflexivity|]. split; [discriminate|]. intros _. split; [exact ND|]. split; [exact IN|]. split; [exact C|]. split; [apply incl_refl|discriminate].
  - destruct cur as [[n l]|]; cbn [search].
    2: { exists None, cache. split; [reflexivity|]. split; [discriminate|]. intros _. split; [exact ND|]. split; [exact IN|]. split; [exact C|]. split; [apply incl_refl|discriminate]. }
    pose proof (N (n, l) eq_refl) as Nx. destruct (existsb (exact n) cache) eqn:Ex.
    + apply existsb_exists in Ex. destruct Ex as (m & Im & Em). apply exact_iff in Em. subst m.
      exists None, cache. split; [reflexivity|]. split; [discriminate|]. intros _.
      split; [exact ND|]. split; [exact IN|]. split; [|split; [apply incl_refl|intros x [= <-]; exact Im]].
      intros x Hx Ix. destruct (C x Hx Ix) as [C1 C2]. split; [exact C1|]. intros y Hy. left. destruct (C2 y Hy) as [H|[= <-]]; [exact H|exact Im].
    + assert (NI : ~ In n cache).
      { intros I. assert (existsb (exact n) cache = true) by (apply existsb_exists; exists n; split; [exact I|apply exact_iff; reflexivity]). congruence. }
      destruct (find_entry l e) as [v|] eqn:Ev.
      * exists (Some v), cache. split; [reflexivity|]. split; [|discriminate]. intros w [= <-]. exists (n, l). split; [reflexivity|]. apply H_here. exact Ev.
      * destruct (IH (n :: cache) (parent c l)) as (v & cache' & E & A1 & A2).
        -- constructor; auto.
        -- intros z [<-|Hz]; [apply (node_in (n, l)), Nx|apply IN, Hz].
        -- intros x Hx [Ex'|Ix].
           ++ assert (x = (n, l)) by (apply node_exact; auto). subst x. split; [exact Ev|]. intros y Hy. right. exact Hy.
           ++ destruct (C x Hx Ix) as [C1 C2]. split; [exact C1|]. intros y Hy. left. destruct (C2 y Hy) as [H|[= <-]]; [right; exact H|left; reflexivity].
        -- intros x Hx. apply (parent_node (n, l)). exact Hx.
        -- left. cbn [length]. destruct L as [L|L]; [lia|discriminate].
        -- exists v, cache'. split; [exact E|]. split.
           ++ intros w Hw. destruct (A1 w Hw) as (y & Hy & Hi). exists (n, l). split; [reflexivity|]. exact (H_up c e (n, l) y w Ev Hy Hi).
           ++ intros Hv. destruct (A2 Hv) as (B1 & B2 & B3 & B4 & B5). split; [exact B1|]. split; [exact B2|]. split; [exact B3|].
              split; [intros z Hz; apply B4; right; exact Hz|]. intros x [= <-]. apply B4. left. reflexivity.
Qed.
Lemma search_top cache s : NoDup cache -> incl cache names -> closed cache None ->
  exists v cache', search (enough c) c cache (find_sect (sects c) s) e = Ok (v, cache') /\
    (forall w, v = Some w -> inherits c e s w) /\
    (v = None -> NoDup cache' /\ incl cache' names /\ closed cache' None /\ incl cache cache' /\ ~ exists w, inherits c e s w).
Proof.
  intros ND IN C. destruct (search_ok (enough c) cache (find_sect (sects c) s) ND IN) as (v & cache' & E & A1 & A2).
  - intros x Hx Ix. destruct (C x Hx Ix) as [C1 C2]. split; [exact C1|]. intros y Hy. destruct (C2 y Hy) as [H|H]; [auto|discriminate].
  - intros x H. apply find_sect_self in H. apply H.
  - left. unfold enough. lia.
  - exists v, cache'. split; [exact E|]. split.
    + intros w Hw. destruct (A1 w Hw) as (x & F & H). exact (inh_inherits c e x w H s F).
    + intros Hv. destruct (A2 Hv) as (B1 & B2 & B3 & B4 & B5). repeat (split; [assumption|]). intros (w & Hw).
      apply inherits_inh in Hw. destruct Hw as (x & F & H). apply (closed_silent cache' B3 x w H); [apply find_sect_self in F; apply F|apply B5, F].
Qed.
Lemma closed_nil : closed [] None. Proof. intros x _ []. Qed.
End Search.
Lemma inherits_fun c e s v w : inherits c e s v -> inherits c e s w -> v = w.
Proof.
  intros H G. apply inherits_inh in H. apply inherits_inh in G. destruct H as (x & F & H), G as (y & F' & G).
  assert (x = y) by congruence. subst y. exact (inh_fun c e x v H w G).
Qed.
Lemma get_answer c s e def : exists a, get c s e def = Ok a /\ answer c s e def a.
Proof.
  destruct (search_top c e [] s (NoDup_nil _) (incl_nil_l _) (closed_nil c e)) as (v & cache' & E & A1 & A2).
  unfold get. rewrite E. cbn. eexists. split; [reflexivity|]. destruct v as [v|]; cbn [or_else].
  - left. exists v. split; [apply A1; reflexivity|reflexivity].
  - destruct (A2 eq_refl) as (_ & _ & _ & _ & NH). right. destruct (find_entry (glob c) e) as [w|] eqn:Ew; cbn [or_else].
    + left. split; [exact NH|]. apply find_entry_first in Ew. destruct Ew as (n & Ew). exists n, w. auto.
    + right. split; [exact NH|]. split; [apply find_entry_none, Ew|reflexivity].
Qed.
Lemma answer_fun c s e def a b : answer c s e def a -> answer c s e def b -> a = b.
Proof.
  intros [(v & H & ->)|[(H & n & v & F & ->)|(H & F & ->)]] [(w & G & ->)|[(G & m & w & F' & ->)|(G & F' & ->)]]; auto;
    try (exfalso; now eauto).
  - f_equal. eapply inherits_fun; eauto.
  - assert (E1 : find_entry (glob c) e = Some v) by (apply find_entry_first; eauto). assert (E2 : find_entry (glob c) e = Some w) by (apply find_entry_first; eauto). congruence.
  - assert (E1 : find_entry (glob c) e = Some v) by (apply find_entry_first; eauto). apply find_entry_none in F'. congruence.
  - assert (E1 : find_entry (glob c) e = Some w) by (apply find_entry_first; eauto). apply find_entry_none in F. congruence.
Qed.

(** One entry in several sections *)
Lemma fuzzy1_ok c e : forall ss cache, NoDup cache -> incl cache (names c) -> closed c e cache None ->
  exists v cache', fuzzy1 c cache ss e = Ok (v, cache') /\
    match v with
    | Some w => exists a s b, ss = a ++ s :: b /\ inherits c e s w /\ forall t, In t a -> ~ exists w, inherits c e t w
    | None => forall t, In t ss -> ~ exists w, inherits c e t w
    end.
Proof.
  induction ss as [|s ss IH]; intros cache ND IN C; cbn [fuzzy1].
  - exists None, cache. split; [reflexivity|]. intros t [].
  - destruct (search_top c e cache s ND IN C) as (v & cache' & E & A1 & A2). rewrite E. cbn [bind]. destruct v as [w|].
    + exists (Some w), cache'. split; [reflexivity|]. exists [], s, ss. split; [reflexivity|]. split; [apply A1; reflexivity|]. intros t [].
    + destruct (A2 eq_refl) as (B1 & B2 & B3 & _ & B5). destruct (IH cache' B1 B2 B3) as (v & c2 & E2 & P). exists v, c2. split; [exact E2|].
      destruct v as [w|].
      * destruct P as (a & t & b & -> & Hi & Ha). exists (s :: a), t, b. split; [reflexivity|]. split; [exact Hi|]. intros u [<-|Hu]; auto.
      * intros t [<-|Ht]; auto.
Qed.

(** ** set *)
Lemma set_first_find l e v e' : find_entry l e <> None -> find_entry (set_first l e v) e' = if same e e' then Some v else find_entry l e'.
Proof.
  induction l as [|[n w] l IH]; cbn; [congruence|]. intros H. destruct (same n e) eqn:E; cbn.
  - apply same_iff in E. destruct (same e e') eqn:E'.
    + apply same_iff in E'. assert (S : same n e' = true) by (apply same_iff; eapply st_trans; eauto). rewrite S. reflexivity.
    + destruct (same n e') eqn:S; [|reflexivity]. apply same_iff in S. apply same_false in E'. destruct E'. eapply st_trans; [apply st_sym, E|exact S].
  - rewrite IH; [|exact H]. destruct (same n e') eqn:S; [|reflexivity]. destruct (same e e') eqn:E'; [|reflexivity].
    apply same_iff in S, E'. apply same_false in E. destruct E. eapply st_trans; [exact S|apply st_sym, E'].
Qed.
Lemma find_entry_app l m e : find_entry (l ++ m) e = match find_entry l e with Some v => Some v | None => find_entry m e end.
Proof. induction l as [|[n w] l IH]; cbn; auto. destruct (same n e); auto. Qed.
Lemma remove_first_other l e e' : ~ same_text e e' -> find_entry (remove_first l e) e' = find_entry l e'.
Proof.
  intros H. induction l as [|[n w] l IH]; cbn; auto. destruct (same n e) eqn:E.
  - destruct (same n e') eqn:E'; [|reflexivity]. apply same_iff in E, E'. destruct H. eapply st_trans; [apply st_sym, E|exact E'].
  - cbn. rewrite IH. reflexivity.
Qed.
(** A list whose names differ *)
Definition distinct {A} (l : list (bytes * A)) : Prop := forall a x b y d, l = a ++ x :: b ++ y :: d -> ~ same_text (fst x) (fst y).
Lemma distinct_cons {A} (x : bytes * A) l : distinct (x :: l) <-> none_of l (fst x) /\ distinct l.
Proof.
  split.
  - intros D. split.
    + intros y Hy S. apply in_split in Hy. destruct Hy as (b & d & ->). apply (D [] x b y d eq_refl). apply st_sym, S.
    + intros a u b w d E. apply (D (x :: a) u b w d). cbn. rewrite E. reflexivity.
  - intros [N D] a u b w d E. destruct a as [|z a]; cbn in E; inversion E; subst.
    + intros S. apply (N w); [apply in_or_app; right; left; reflexivity|apply st_sym, S].
    + apply (D a u b w d eq_refl).
Qed.
Lemma remove_first_none l e : distinct l -> none_of (remove_first l e) e.
Proof.
  induction l as [|[n w] l IH]; cbn [remove_first]; [intros _ y []|]. rewrite distinct_cons. intros [N D]. destruct (same n e) eqn:E.
  - apply same_iff in E. intros y Hy S. apply (N y Hy). cbn. eapply st_trans; [exact S|apply st_sym, E].
  - apply none_cons. split; [apply same_false, E|apply IH, D].
Qed.
Lemma upd_sect_find l s f s' : find_sect (upd_sect l s f) s' = match find_sect l s' with
  | Some x => if same s s' then Some (fst x, f (snd x)) else Some x | None => None end.
Proof.
  induction l as [|x l IH]; cbn; [reflexivity|]. destruct (same (fst x) s) eqn:E; cbn.
  - destruct (same (fst x) s') eqn:E'.
    + apply same_iff in E, E'. assert (S : same s s' = true) by (apply same_iff; eapply st_trans; [apply st_sym, E|exact E']). rewrite S. reflexivity.
    + destruct (find_sect l s') eqn:F; [|reflexivity]. destruct (same s s') eqn:S; [|reflexivity].
      apply same_iff in E, S. apply same_false in E'. destruct E'. eapply st_trans; eauto.
  - destruct (same (fst x) s') eqn:E'; [|exact IH].
    destruct (same s s') eqn:S; [|reflexivity]. apply same_iff in E', S. apply same_false in E. destruct E. eapply st_trans; [exact E'|apply st_sym, S].
Qed.
Lemma find_sect_app l m s : find_sect (l ++ m) s = match find_sect l s with Some v => Some v | None => find_sect m s end.
Proof. induction l as [|x l IH]; cbn; auto. destruct (same (fst x) s); auto. Qed.
(** What a section says of an entry *)
Definition own (c : conf) (s e : bytes) : option bytes := match find_sect (sects c) s with Some x => find_entry (snd x) e | None => None end.
Lemma own_says c s e v : own c s e = Some v <-> says c s e v.
Proof.
  unfold own. rewrite says_iff. split.
  - destruct (find_sect (sects c) s) as [x|]; [|discriminate]. eauto.
  - intros (x & -> & H). exact H.
Qed.
Lemma own_silent c s e : own c s e = None <-> silent c s e.
Proof.
  unfold own. rewrite silent_iff. split.
  - destruct (find_sect (sects c) s) as [x|]; [|discriminate]. intros H y [= <-]. exact H.
  - intros H. destruct (find_sect (sects c) s) as [x|]; auto.
Qed.
Lemma rtrim_id e : ~ white_end e -> rtrim e = e.
Proof. intros H. unfold rtrim. rewrite drop_space_head; [apply rev_involutive|]. rewrite <- rev_white. exact H. Qed.
Lemma sect_set_find l e v e' : ~ white_end e -> v <> [] -> find_entry (sect_set l e v) e' = if same e e' then Some v else find_entry l e'.
Proof.
  intros W V. unfold sect_set. rewrite (rtrim_id e W). destruct v as [|c0 v]; [congruence|]. cbn [empty].
  destruct (find_entry l e) as [w|] eqn:F.
  - apply set_first_find. congruence.
  - rewrite find_entry_app. cbn. destruct (same e e') eqn:S.
    + apply same_iff in S. rewrite <- (find_entry_cong l e e' S), F. reflexivity.
    + destruct (find_entry l e'); reflexivity.
Qed.
(** set of a value that is not empty *)
Lemma conf_set_own c s e v c' calls : conf_set c s e (Some v) = (c', calls) -> v <> [] -> ~ white_end e ->
  forall s' e', own c' s' e' = if same s s' && same e e' then Some v else own c s' e'.
Proof.
  intros H V W s' e'. unfold conf_set in H. destruct v as [|c0 v0] eqn:Ev; [congruence|]. rewrite <- Ev in *. 
  assert (EE : empty v = false) by (rewrite Ev; reflexivity). rewrite EE in H. clear Ev EE.
  destruct (find_sect (sects c) s) as [x|] eqn:F.
  - destruct (exact _ v) eqn:X.
    + apply exact_iff in X. inversion H; subst; clear H. unfold own; cbn [sects with_sects].
      destruct (same s s') eqn:S; [|reflexivity]. apply same_iff in S. rewrite <- (find_sect_cong (sects c) s s' S), F.
      destruct (same e e') eqn:S2; cbn [andb]; [|reflexivity]. apply same_iff in S2. rewrite <- (find_entry_cong (snd x) e e' S2).
      destruct (find_entry (snd x) e); congruence.
    + inversion H; subst; clear H. unfold own; cbn [sects with_sects]. rewrite upd_sect_find.
      destruct (same s s') eqn:S; cbn [andb].
      * apply same_iff in S. rewrite <- (find_sect_cong (sects c) s s' S), F. cbn [snd]. apply sect_set_find; auto.
      * destruct (find_sect (sects c) s'); reflexivity.
  - rewrite !find_sect_app, F in H. cbn [find_sect fst] in H. rewrite same_refl in H. cbn [snd find_entry] in H. destruct (exact [] v) eqn:X; [apply exact_iff in X; congruence|].
    inversion H; subst; clear H. unfold own; cbn [sects with_sects]. rewrite upd_sect_find, find_sect_app. cbn [find_sect fst].
    destruct (same s s') eqn:S; cbn [andb].
    + apply same_iff in S. rewrite <- (find_sect_cong (sects c) s s' S), F. cbn [snd]. rewrite sect_set_find; auto.
    + destruct (find_sect (sects c) s'); reflexivity.
Qed.
(** set of nothing *)
Lemma conf_del_own c s e value c' calls : conf_set c s e value = (c', calls) -> value = None \/ value = Some [] -> ~ white_end e ->
  forall s' e', same s s' && same e e' = false -> own c' s' e' = own c s' e'.
Proof.
  intros H V W s' e' S. unfold conf_set in H. assert (EE : match value with Some v => v | None => [] end = []) by (destruct V as [-> | ->]; reflexivity).
  rewrite EE in H. cbn [empty] in H. destruct (find_sect (sects c) s) as [x|] eqn:F.
  2: { inversion H; subst; reflexivity. }
  destruct (exact _ []) eqn:X; inversion H; subst; clear H; [reflexivity|]. unfold own; cbn [sects with_sects]. rewrite upd_sect_find.
  destruct (find_sect (sects c) s') as [y|] eqn:F'; [|reflexivity]. destruct (same s s') eqn:S1; [|reflexivity]. cbn [andb] in S. cbn [snd].
  unfold sect_set. rewrite (rtrim_id e W). cbn [empty]. apply remove_first_other. apply same_false. exact S.
Qed.
Lemma conf_del_gone c s e value c' calls : conf_set c s e value = (c', calls) -> value = None \/ value = Some [] -> ~ white_end e ->
  (forall x, find_sect (sects c) s = Some x -> distinct (snd x)) -> own c' s e = None \/ own c' s e = Some [].
Proof.
  intros H V W D. unfold conf_set in H. assert (EE : match value with Some v => v | None => [] end = []) by (destruct V as [-> | ->]; reflexivity).
  rewrite EE in H. cbn [empty] in H. destruct (find_sect (sects c) s) as [x|] eqn:F.
  2: { inversion H; subst. unfold own. rewrite F. auto. }
  destruct (exact _ []) eqn:X.
  - inversion H; subst; clear H. apply exact_iff in X. unfold own. cbn [sects with_sects]. rewrite F. destruct (find_entry (snd x) e); [subst; auto|auto].
  - inversion H; subst; clear H. left. unfold own; cbn [sects with_sects]. rewrite upd_sect_find, F, same_refl. cbn [snd].
    unfold sect_set. rewrite (rtrim_id e W). cbn [empty]. apply find_entry_none, remove_first_none, D. reflexivity.
Qed.
