(** Proofs about waiting for subprocesses. *)
From Verif Require Import Base SubSpec SubModel.
From Coq Require Import ZArith Lia.
Local Open Scope Z_scope.

(** The processes that are looked after *)
Definition own (s : st) : list Z := pid s :: old_pids s.
Record good (s : st) : Prop := Good { g_sane : sane s = true; g_pid : pid s = -1 \/ 1 < pid s; g_old : Forall (fun p => 1 < p) (old_pids s) }.
(** No [running] in it, for the middle of a loop *)
Record fair (s : st) : Prop := Fair { f_pid : pid s = -1 \/ 1 < pid s; f_old : Forall (fun p => 1 < p) (old_pids s) }.

Lemma pidfile_pid_ok t : pidfile t <> 1 -> pidfile_pid t = -1 \/ 1 < pidfile_pid t.
Proof. unfold pidfile_pid. intros H. destruct (Z.leb_spec (pidfile t) 0); lia. Qed.

Lemma dead_fair s x t : pidfile t <> 1 -> fair s -> 0 < pid s -> fair (dead s x t).
Proof.
  intros H [Hp Ho] Hq. split; cbn.
  - destruct (pid s =? pidfile_pid t); [now left|now apply pidfile_pid_ok].
  - apply Forall_app. split; [exact Ho|]. constructor; [lia|constructor].
Qed.

Lemma filter_Forall (P : Z -> Prop) f l : Forall P l -> Forall P (filter f l).
Proof. rewrite !Forall_forall. intros H x Hx. apply filter_In in Hx. apply H. tauto. Qed.

(** What a round does *)
Lemma round_spec s status c t s' status' x : pidfile t <> 1 -> fair s -> round s status c t = (s', status', x) ->
  fair s' /\ running s' = running s
  /\ (x = true -> 0 < pid s' \/ old_pids s' <> [])
  /\ (x = false -> pid s' = -1 /\ (c = true -> old_pids s' = []))
  /\ (forall p, In p (own s') -> In p (own s) \/ p = -1 \/ p = pidfile t)
  /\ (forall p, In p (own s) -> In p (own s') \/ p = -1 \/ alive t p = false).
Proof.
  intros H1 Hf. unfold round.
  set (m := if 0 <? pid s then _ else _).
  assert (Hm : fair (fst m) /\ running (fst m) = running s
    /\ (forall p, In p (own (fst m)) -> In p (own s) \/ p = -1 \/ p = pidfile t)
    /\ (forall p, In p (own s) -> In p (own (fst m)) \/ p = -1)).
  { assert (Hd : forall y, 0 < pid s -> fair (dead s y t) /\ running (dead s y t) = running s
      /\ (forall p, In p (own (dead s y t)) -> In p (own s) \/ p = -1 \/ p = pidfile t)
      /\ (forall p, In p (own s) -> In p (own (dead s y t)) \/ p = -1)).
    { intros y Hp. split; [now apply dead_fair|]. split; [reflexivity|]. split.
      - intros p. unfold own, dead. cbn [pid old_pids In]. intros [E|Hi].
        + unfold pidfile_pid in E. destruct (Z.leb_spec (pidfile t) 0) in E;
            destruct (pid s =? _) in E; auto.
        + apply in_app_iff in Hi. destruct Hi as [Hi|[Hi|[]]]; auto.
      - intros p. unfold own, dead. cbn [pid old_pids In]. rewrite in_app_iff. cbn. tauto. }
    subst m. destruct (Z.ltb_spec 0 (pid s)) as [Hp|Hp].
    - destruct (answer t); cbn [fst]; try (apply Hd; exact Hp); (split; [exact Hf|]; split; [reflexivity|]; split; intros p Hi; left; exact Hi).
    - cbn [fst]. split; [exact Hf|]; split; [reflexivity|]; split; intros p Hi; left; exact Hi. }
  destruct m as [m ms]. cbn [fst] in Hm. destruct Hm as (Hmf & Hr & Ha & Hb). destruct Hmf as [Hmp Hmo].
  destruct (Z.ltb_spec (pid m) 0) as [Hn|Hn]; intros E; inversion E; subst; clear E.
  - split; [split; cbn; [exact Hmp|now apply filter_Forall]|]. split; [exact Hr|]. cbn [pid old_pids].
    split; [|split; [|split]].
    + intros Hx. right. intros E. rewrite E in Hx. cbn in Hx. destruct c; discriminate.
    + intros Hx. split; [lia|]. intros ->. destruct (filter (alive t) (old_pids m)); [reflexivity|discriminate].
    + intros p [Hi|Hi]; apply Ha; [now left|right]. cbn in Hi. apply filter_In in Hi. tauto.
    + intros p Hi. destruct (Hb p Hi) as [[Hj|Hj]|Hj]; [left; left; exact Hj| |auto].
      destruct (alive t p) eqn:Ea; [|auto]. left. right. cbn. now apply filter_In.
  - split; [now split|]. split; [exact Hr|]. split; [|split; [|split]].
    + intros _. left. lia.
    + discriminate.
    + exact Ha.
    + intros p Hi. destruct (Hb p Hi); auto.
Qed.

(** What a loop does *)
Definition waited (c : bool) (ts : list tick) (s s' : st) (ts' : list tick) : Prop :=
  fair s' /\ (running s' = true -> 0 < pid s' \/ old_pids s' <> [])
  /\ (running s = true -> running s' = false -> pid s' = -1 /\ (c = true -> old_pids s' = []))
  /\ (exists us, ts = us ++ ts'
      /\ (forall p, In p (own s') -> In p (own s) \/ p = -1 \/ exists t, In t us /\ p = pidfile t)
      /\ (forall p, In p (own s) -> In p (own s') \/ p = -1 \/ exists t, In t us /\ alive t p = false)).

Lemma loop_spec delay c ts : Forall (fun t => pidfile t <> 1) ts -> forall s status, fair s ->
  loop delay c ts s status <> Fault
  /\ (forall s' ts', loop delay c ts s status = Ok (s', ts') -> waited c ts s s' ts' /\ (delay < 0 -> running s' = false)).
Proof.
  induction 1 as [|t ts Ht Hts IH]; intros s status Hf; cbn [loop]; [split; discriminate|].
  destruct (round s status c t) as [[m ms] x] eqn:E.
  destruct (round_spec _ _ _ _ _ _ _ Ht Hf E) as (Hmf & Hr & Hx1 & Hx0 & Ha & Hb).
  destruct (x && negb (delay =? 0) && ((delay <? 0) || negb (late t)))%bool eqn:Eg.
  - destruct (IH m ms Hmf) as [Hnf Hok]. split; [exact Hnf|]. intros s' ts' El.
    destruct (Hok _ _ El) as [(Wf & Wr & Wd & us & Eu & Wa & Wb) Hneg]. split; [|exact Hneg].
    split; [exact Wf|]. split; [exact Wr|]. split; [now rewrite <- Hr|].
    exists (t :: us). split; [cbn; now rewrite Eu|]. split.
    + intros p Hi. destruct (Wa p Hi) as [Hj|[Hj|(u & Hu & Hj)]].
      * destruct (Ha p Hj) as [Hk|[Hk|Hk]]; [auto|auto|]. right; right. exists t. split; [now left|exact Hk].
      * auto.
      * right; right. exists u. split; [now right|exact Hj].
    + intros p Hi. destruct (Hb p Hi) as [Hj|[Hj|Hj]]; [|auto|].
      * destruct (Wb p Hj) as [Hk|[Hk|(u & Hu & Hk)]]; [auto|auto|]. right; right. exists u. split; [now right|exact Hk].
      * right; right. exists t. split; [now left|exact Hj].
  - split; [discriminate|]. intros s' ts' El. inversion El; subst; clear El. split.
    + destruct Hmf as [Hp Ho]. split; [split; [exact Hp|exact Ho]|]. cbn [running pid old_pids].
      split; [|split].
      * destruct x; [auto|discriminate].
      * intros Hs. destruct x; [rewrite Hr, Hs; discriminate|auto].
      * exists [t]. split; [reflexivity|]. split.
        -- intros p Hi. destruct (Ha p Hi) as [Hk|[Hk|Hk]]; [auto|auto|]. right; right. exists t. split; [now left|exact Hk].
        -- intros p Hi. destruct (Hb p Hi) as [Hk|[Hk|Hk]]; [auto|auto|]. right; right. exists t. split; [now left|exact Hk].
    + intros Hd. cbn. destruct x; [|reflexivity]. exfalso. cbn in Eg.
      destruct (Z.eqb_spec delay 0); [lia|]. destruct (Z.ltb_spec delay 0); [discriminate|lia].
Qed.

Lemma sane_iff s : sane s = true <-> (running s = true -> 0 < pid s \/ old_pids s <> []).
Proof.
  unfold sane. destruct (running s); cbn; [|split; [intros _ H; discriminate H|reflexivity]].
  destruct (Z.ltb_spec 0 (pid s)); cbn; [intuition|].
  destruct (old_pids s); cbn; split; try discriminate; auto.
  - intros H1. destruct (H1 eq_refl); [lia|congruence].
  - intros _ _. right. discriminate.
Qed.

Lemma wait_spec delay c ts s : Forall (fun t => pidfile t <> 1) ts -> good s ->
  wait delay c ts s <> Fault
  /\ (forall s' ts', wait delay c ts s = Ok (s', ts') -> good s' /\ waited c ts s s' ts' /\ (delay < 0 -> running s' = false)).
Proof.
  intros Ht [Hs Hp Ho]. unfold wait. rewrite Hs.
  destruct (running s || (c && negb (isempty (old_pids s))))%bool eqn:Er.
  - destruct (loop_spec delay c ts Ht s None) as [Hn Hok]; [now split|]. split; [exact Hn|].
    intros s' ts' E. destruct (Hok _ _ E) as [HW Hd]. split; [|split; [exact HW|exact Hd]].
    destruct HW as ([Hp' Ho'] & Hr & _). split; [now apply sane_iff|exact Hp'|exact Ho'].
  - split; [discriminate|]. intros s' ts' E. inversion E; subst; clear E.
    apply Bool.orb_false_iff in Er. destruct Er as [Er _]. split; [now split|]. split.
    + split; [now split|]. split; [now apply sane_iff|]. split; [congruence|].
      exists []. split; [reflexivity|]. split; intros p Hi; left; exact Hi.
    + intros _. exact Er.
Qed.

(** The signals *)
Definition sent_to (s : st) (sig : Z) (l : list signal) : Prop := forall t g, In (t, g) l -> g = sig /\ 1 < Z.abs t /\ In (Z.abs t) (own s).

Lemma kill_old_spec sig gone l : Forall (fun p => 1 < p) l -> exists r, kill_old sig gone l = Ok r /\
  (forall t g, In (t, g) r -> g = sig /\ 1 < Z.abs t /\ In (Z.abs t) l) /\ (forall p, In p l -> In (- p, sig) r).
Proof.
  induction 1 as [|p l Hp Hl (r & E & Ha & Hb)]; cbn [kill_old].
  - exists []. split; [reflexivity|]. split; [intros ? ? []|intros ? []].
  - destruct (Z.eqb_spec p 1); [lia|]. destruct (Z.eqb_spec p (-1)); [lia|]. cbn [orb]. rewrite E. cbn [bind].
    eexists. split; [reflexivity|]. split.
    + intros t g [Hi|Hi].
      * inversion Hi; subst. rewrite Z.abs_opp, Z.abs_eq by lia. split; [reflexivity|]. split; [lia|now left].
      * apply in_app_iff in Hi. destruct Hi as [Hi|Hi].
        -- destruct (gone p); [|destruct Hi]. destruct Hi as [Hi|[]]. inversion Hi; subst. rewrite Z.abs_eq by lia. split; [reflexivity|]. split; [lia|now left].
        -- destruct (Ha t g Hi) as (A & B' & C). split; [exact A|]. split; [exact B'|now right].
    + intros q [->|Hq]; [now left|]. right. apply in_app_iff. right. now apply Hb.
Qed.

Lemma primary_spec sig s : good s -> exists r, kill_primary sig s = Ok r /\ sent_to s sig r.
Proof.
  intros [Hs Hp Ho]. unfold kill_primary. rewrite Hs. eexists. split; [reflexivity|].
  intros t g. destruct (running s && (0 <? pid s))%bool eqn:E; [|intros []]. intros [Hi|[]]. inversion Hi; subst; clear Hi.
  apply andb_prop in E. destruct E as [_ E]. apply Z.ltb_lt in E. rewrite Z.abs_eq by lia.
  split; [reflexivity|]. split; [lia|now left].
Qed.

Lemma kill_spec sig gone s : good s -> exists r, kill sig gone s = Ok r /\ sent_to s sig r /\ (forall p, In p (own s) -> p <> -1 -> In (- p, sig) r).
Proof.
  intros Hg. pose proof Hg as [Hs Hp Ho]. unfold kill. rewrite Hs.
  destruct (kill_old_spec sig gone _ Ho) as (b & Eb & Hb1 & Hb2).
  destruct (primary_spec sig s Hg) as (r & Er & Hr).
  set (m := if 0 <? pid s then _ else _).
  assert (Hm : exists a, m = Ok a /\ sent_to s sig a /\ (pid s <> -1 -> In (- pid s, sig) a)).
  { subst m. destruct (Z.ltb_spec 0 (pid s)).
    - destruct (Z.eqb_spec (pid s) 1); [lia|].
      assert (Hh : forall t g, (- pid s, sig) = (t, g) -> g = sig /\ 1 < Z.abs t /\ In (Z.abs t) (own s)).
      { intros t g E. inversion E; subst. rewrite Z.abs_opp, Z.abs_eq by lia. split; [reflexivity|]. split; [lia|now left]. }
      destruct (gone (pid s)).
      + rewrite Er. cbn [bind]. eexists. split; [reflexivity|]. split; [|intros _; now left].
        intros t g [Hi|Hi]; [now apply Hh|now apply Hr].
      + eexists. split; [reflexivity|]. split; [|intros _; now left]. intros t g [Hi|[]]. now apply Hh.
    - exists []. split; [reflexivity|]. split; [intros ? ? []|]. lia. }
  destruct Hm as (a & -> & Ha1 & Ha2). cbn [bind]. rewrite Eb. cbn [bind]. eexists. split; [reflexivity|]. split.
  - intros t g Hi. apply in_app_iff in Hi. destruct Hi as [Hi|Hi]; [now apply Ha1|].
    destruct (Hb1 t g Hi) as (A & B' & C). split; [exact A|]. split; [exact B'|now right].
  - intros p [Hi|Hi] Hn; apply in_app_iff; [left; subst p; now apply Ha2|right; now apply Hb2].
Qed.

Lemma kop_spec c sig gone s : good s -> exists r, kill_or_primary c sig gone s = Ok r /\ sent_to s sig r.
Proof.
  intros Hg. destruct c; cbn.
  - destruct (kill_spec sig gone s Hg) as (r & E & H & _). now exists r.
  - now apply primary_spec.
Qed.

Lemma waited_trans c1 c2 ts s m us s' ts' : waited c1 ts s m us -> waited c2 us m s' ts' ->
  exists vs, ts = vs ++ ts'
      /\ (forall p, In p (own s') -> In p (own s) \/ p = -1 \/ exists t, In t vs /\ p = pidfile t)
      /\ (forall p, In p (own s) -> In p (own s') \/ p = -1 \/ exists t, In t vs /\ alive t p = false).
Proof.
  intros (_ & _ & _ & a & -> & A1 & A2) (_ & _ & _ & b & -> & B1 & B2).
  exists (a ++ b). split; [now rewrite app_assoc|]. split; intros p Hi.
  - destruct (B1 p Hi) as [Hj|[Hj|(t & Ht & Hj)]]; [|auto|].
    + destruct (A1 p Hj) as [Hk|[Hk|(t & Ht & Hk)]]; auto. right; right. exists t. rewrite in_app_iff. auto.
    + right; right. exists t. rewrite in_app_iff. auto.
  - destruct (A2 p Hi) as [Hj|[Hj|(t & Ht & Hj)]]; [|auto|].
    + destruct (B2 p Hj) as [Hk|[Hk|(t & Ht & Hk)]]; auto. right; right. exists t. rewrite in_app_iff. auto.
    + right; right. exists t. rewrite in_app_iff. auto.
Qed.

(** stop(), from its three waits *)
Lemma stop_spec delay c gone ts s : Forall (fun t => pidfile t <> 1) ts -> good s ->
  stop delay c gone ts s <> Fault
  /\ (forall s' ts' l, stop delay c gone ts s = Ok (s', ts', l) ->
      good s' /\ running s' = false
      /\ (running s = true -> pid s' = -1 /\ (c = true -> old_pids s' = []))
      /\ (exists us, ts = us ++ ts'
          /\ (forall p, In p (own s) -> In p (own s') \/ p = -1 \/ exists t, In t us /\ alive t p = false)
          /\ (forall t g, In (t, g) l -> (g = TERM \/ g = KILL) /\ 1 < Z.abs t /\ (In (Z.abs t) (own s) \/ exists u, In u us /\ Z.abs t = pidfile u)))).
Proof.
  intros Ht Hg. unfold stop.
  destruct (wait_spec 0 true ts s Ht Hg) as [N1 W1].
  destruct (wait 0 true ts s) as [[s1 ts1]| |] eqn:E1; cbn [bind]; [|congruence|split; discriminate].
  destruct (W1 _ _ eq_refl) as (G1 & V1 & _). clear W1 N1.
  pose proof V1 as V1'. destruct V1' as (_ & _ & D1 & u1 & U1 & A1 & B1).
  assert (T1 : Forall (fun t => pidfile t <> 1) ts1) by (rewrite U1 in Ht; apply Forall_app in Ht; tauto).
  destruct (running s1) eqn:R1; cbn [bind].
  2:{ rewrite R1. split; [discriminate|]. intros s' ts' l E. inversion E; subst; clear E.
      split; [exact G1|]. split; [exact R1|]. split.
      - intros Hr. destruct (D1 Hr eq_refl) as [P O]. split; [exact P|]. intros _. now apply O.
      - exists u1. split; [reflexivity|]. split; [exact B1|intros ? ? []]. }
  destruct (kop_spec c TERM gone s1 G1) as (a & Ea & Sa). rewrite Ea. cbn [bind].
  assert (Fa : forall t g, In (t, g) a -> (g = TERM \/ g = KILL) /\ 1 < Z.abs t /\ (In (Z.abs t) (own s) \/ exists u, In u u1 /\ Z.abs t = pidfile u)).
  { intros t g Hi. destruct (Sa t g Hi) as (X & Y & Z0). split; [auto|]. split; [exact Y|]. destruct (A1 _ Z0) as [K|[K|K]]; [auto|lia|auto]. }
  destruct (wait_spec delay c ts1 s1 T1 G1) as [N2 W2].
  destruct (wait delay c ts1 s1) as [[s2 ts2]| |] eqn:E2; cbn [bind]; [|congruence|split; discriminate].
  destruct (W2 _ _ eq_refl) as (G2 & V2 & _). clear W2 N2.
  destruct (waited_trans _ _ _ _ _ _ _ _ V1 V2) as (u2 & U2 & A2 & B2).
  pose proof V2 as V2'. destruct V2' as (_ & _ & D2 & x2 & X2 & _ & _).
  assert (I2 : forall u, In u u1 -> In u u2).
  { intros u Hu. assert (E : u2 = u1 ++ x2) by (rewrite U1, X2, app_assoc in U2; now apply app_inv_tail in U2). rewrite E. apply in_app_iff. auto. }
  assert (T2 : Forall (fun t => pidfile t <> 1) ts2) by (rewrite U2 in Ht; apply Forall_app in Ht; tauto).
  destruct (running s2) eqn:R2; cbn [bind].
  2:{ split; [discriminate|]. intros s' ts' l E. inversion E; subst s' ts' l; clear E.
      split; [exact G2|]. split; [exact R2|]. split; [intros _; now apply D2|].
      exists u2. split; [exact U2|]. split; [exact B2|].
      intros t g Hi. destruct (Fa t g Hi) as (X & Y & [K|(u & Hu & K)]); split; auto; split; auto. right. exists u. auto. }
  destruct (kop_spec c KILL gone s2 G2) as (b & Eb & Sb). rewrite Eb. cbn [bind].
  assert (Fb : forall t g, In (t, g) b -> (g = TERM \/ g = KILL) /\ 1 < Z.abs t /\ (In (Z.abs t) (own s) \/ exists u, In u u2 /\ Z.abs t = pidfile u)).
  { intros t g Hi. destruct (Sb t g Hi) as (X & Y & Z0). split; [auto|]. split; [exact Y|]. destruct (A2 _ Z0) as [K|[K|K]]; [auto|lia|auto]. }
  destruct (wait_spec (-1) c ts2 s2 T2 G2) as [N3 W3].
  destruct (wait (-1) c ts2 s2) as [[s3 ts3]| |] eqn:E3; cbn [bind]; [|congruence|split; discriminate].
  destruct (W3 _ _ eq_refl) as (G3 & V3 & Q3). clear W3 N3.
  destruct V3 as (_ & _ & D3 & x3 & X3 & _ & B3).
  split; [discriminate|]. intros s' ts' l E. inversion E; subst s' ts' l; clear E.
  split; [exact G3|]. split; [apply Q3; lia|]. split; [intros _; apply D3; [exact R2|apply Q3; lia]|].
  exists (u2 ++ x3). split; [rewrite U2, X3; now rewrite app_assoc|]. split.
  - intros p Hi. destruct (B2 p Hi) as [K|[K|(t & Htt & K)]]; [|auto|].
    + destruct (B3 p K) as [L|[L|(t & Htt & L)]]; auto. right; right. exists t. rewrite in_app_iff. auto.
    + right; right. exists t. rewrite in_app_iff. auto.
  - intros t g Hi. apply in_app_iff in Hi. destruct Hi as [Hi|Hi].
    + destruct (Fa t g Hi) as (X & Y & [K|(u & Hu & K)]); split; auto; split; auto. right. exists u. rewrite in_app_iff. auto.
    + destruct (Fb t g Hi) as (X & Y & [K|(u & Hu & K)]); split; auto; split; auto. right. exists u. rewrite in_app_iff. auto.
Qed.

(** The exit status, without a pid file *)
Definition plain (t : tick) : Prop := pidfile t <= 0 /\ answer t <> NoChild.
Lemma loop_status delay c ts : Forall plain ts -> forall s status s' ts', loop delay c ts s status = Ok (s', ts') ->
  (pid s' = pid s /\ estatus s' = estatus s)
  \/ (0 < pid s /\ pid s' = -1 /\ exists us t vs x, ts = us ++ t :: vs ++ ts' /\ Forall (fun u => answer u = Still \/ answer u = Failed) us /\ answer t = Exited x /\ estatus s' = Some x).
Proof.
  induction 1 as [|t ts [Hp Ha] Hts IH]; intros s status s' ts'; cbn [loop]; [discriminate|].
  destruct (round s status c t) as [[m ms] x] eqn:E.
  assert (K : (pid m = pid s /\ estatus m = estatus s /\ (0 < pid s -> answer t = Still \/ answer t = Failed)) \/ (0 < pid s /\ pid m = -1 /\ exists y, answer t = Exited y /\ estatus m = Some y)).
  { revert E. unfold round. destruct (Z.ltb_spec 0 (pid s)) as [Hq|Hq].
    - destruct (answer t) as [|y| |] eqn:Et; try congruence.
      + destruct (pid s <? 0) eqn:En; intros E; inversion E; subst; left; auto.
      + assert (Hd : pid (dead s (Some y) t) = -1).
        { cbn. unfold pidfile_pid. destruct (Z.leb_spec (pidfile t) 0); [|lia]. destruct (pid s =? -1); reflexivity. }
        rewrite Hd. cbn [Z.ltb Z.compare]. intros E. inversion E; subst. right. split; [exact Hq|]. split; [reflexivity|]. exists y. auto.
      + destruct (pid s <? 0) eqn:En; intros E; inversion E; subst; left; auto.
    - destruct (pid s <? 0) eqn:En; intros E; inversion E; subst; left; (split; [reflexivity|]; split; [reflexivity|lia]). }
  destruct (x && negb (delay =? 0) && ((delay <? 0) || negb (late t)))%bool.
  - intros El. assert (Hsuf : exists vs, ts = vs ++ ts').
    { clear -El. revert m ms El. induction ts as [|u ts IH]; intros m ms; cbn [loop]; [discriminate|].
      destruct (round m ms c u) as [[m' ms'] x']. destruct (x' && negb (delay =? 0) && ((delay <? 0) || negb (late u)))%bool.
      - intros El. destruct (IH _ _ El) as [vs ->]. now exists (u :: vs).
      - intros E. inversion E; subst. now exists [u]. }
    destruct (IH _ _ _ _ El) as [[P Q]|(P & Q & us & u & vs & y & -> & F & A & S)].
    + destruct K as [(K1 & K2 & _)|(K1 & K2 & y & K3 & K4)]; [left; split; congruence|right].
      split; [exact K1|]. split; [congruence|]. destruct Hsuf as [vs ->]. exists [], t, vs, y. split; [reflexivity|]. split; [constructor|]. split; [exact K3|congruence].
    + destruct K as [(K1 & K2 & K3)|(K1 & K2 & _)]; [|lia]. right. rewrite K1 in P. split; [exact P|]. split; [exact Q|].
      exists (t :: us), u, vs, y. split; [reflexivity|]. split; [constructor; auto|]. auto.
  - intros El. inversion El; subst; clear El. cbn [pid estatus].
    destruct K as [(K1 & K2 & _)|(K1 & K2 & y & K3 & K4)]; [left; auto|right].
    split; [exact K1|]. split; [exact K2|]. exists [], t, [], y. split; [reflexivity|]. split; [constructor|]. auto.
Qed.
Lemma wait_status delay c ts s s' ts' : Forall plain ts -> wait delay c ts s = Ok (s', ts') ->
  (pid s' = pid s /\ estatus s' = estatus s)
  \/ (0 < pid s /\ pid s' = -1 /\ exists us t vs x, ts = us ++ t :: vs ++ ts' /\ Forall (fun u => answer u = Still \/ answer u = Failed) us /\ answer t = Exited x /\ estatus s' = Some x).
Proof.
  intros H. unfold wait. destruct (sane s); [|discriminate].
  destruct (running s || _)%bool; [now apply loop_status|]. intros E. inversion E; subst. left. auto.
Qed.

(** Waiting without limit ends when the process does *)
Lemma loop_ends c us t ts : Forall (fun u => answer u = Still \/ answer u = Failed) us -> forall s status x, 0 < pid s -> answer t = Exited x -> pidfile t <= 0 \/ pidfile t = pid s ->
  (c = true -> forall p, In p (own s) -> alive t p = false) ->
  exists s', loop (-1) c (us ++ t :: ts) s status = Ok (s', ts) /\ running s' = false /\ pid s' = -1 /\ estatus s' = Some x /\ (c = true -> old_pids s' = []).
Proof.
  induction 1 as [|u us Hu Hus IH]; intros s status x Hp Ht Hf Hc; cbn [app loop].
  - unfold round. destruct (Z.ltb_spec 0 (pid s)); [|lia]. rewrite Ht.
    assert (Hd : pid (dead s (Some x) t) = -1).
    { cbn. unfold pidfile_pid. destruct (Z.leb_spec (pidfile t) 0); [destruct (pid s =? -1); reflexivity|].
      destruct (Z.eqb_spec (pid s) (pidfile t)); [reflexivity|lia]. }
    rewrite Hd. cbn [Z.ltb Z.compare].
    assert (He : c = true -> filter (alive t) (old_pids (dead s (Some x) t)) = []).
    { intros Ec. specialize (Hc Ec). cbn [dead old_pids]. destruct (filter _ _) as [|q l] eqn:E; [reflexivity|].
      assert (Hi : In q (q :: l)) by now left. rewrite <- E in Hi. apply filter_In in Hi. destruct Hi as [Hi Hq].
      rewrite Hc in Hq; [discriminate|]. apply in_app_iff in Hi. destruct Hi as [Hi|[Hi|[]]]; [now right|now left]. }
    assert (Ex : (c && negb (isempty (filter (alive t) (old_pids (dead s (Some x) t)))))%bool = false) by (destruct c; [rewrite He; reflexivity|reflexivity]).
    rewrite Ex. cbn [andb]. eexists. split; [reflexivity|]. cbn [running pid estatus old_pids]. auto.
  - assert (E : round s status c u = (s, status, true)).
    { unfold round. destruct (Z.ltb_spec 0 (pid s)); [|lia]. destruct (Z.ltb_spec (pid s) 0) as [|_]; [lia|].
      destruct Hu as [-> | ->]; destruct (Z.ltb_spec (pid s) 0); try lia; reflexivity. }
    rewrite E. cbn. now apply IH.
Qed.

(** Waiting for the children without limit leaves none *)
Lemma loop_none delay ts : delay < 0 -> forall s status s' ts', loop delay true ts s status = Ok (s', ts') -> old_pids s' = [].
Proof.
  intros Hd. induction ts as [|t ts IH]; intros s status s' ts'; cbn [loop]; [discriminate|].
  destruct (round s status true t) as [[m ms] x] eqn:E. destruct x.
  - cbn [andb]. destruct (Z.eqb_spec delay 0); [lia|]. destruct (Z.ltb_spec delay 0); [|lia]. cbn. apply IH.
  - cbn [andb]. intros El. inversion El; subst; clear El. cbn [old_pids].
    revert E. unfold round. destruct (if 0 <? pid s then _ else _) as [n ns]. destruct (pid n <? 0); [|discriminate].
    intros E. inversion E; subst. cbn. destruct (filter (alive t) (old_pids n)); [reflexivity|discriminate].
Qed.
Lemma round_still s status c t : 0 < pid s -> answer t = Still -> round s status c t = (s, status, true).
Proof. intros Hp Ht. unfold round. destruct (Z.ltb_spec 0 (pid s)); [|lia]. rewrite Ht. destruct (Z.ltb_spec (pid s) 0); [lia|reflexivity]. Qed.
Lemma wait_still delay c t ts s : good s -> running s = true -> 0 < pid s -> answer t = Still -> delay = 0 \/ (0 < delay /\ late t = true) -> wait delay c (t :: ts) s = Ok (s, ts).
Proof.
  intros [Gs _ _] R P A D. unfold wait. rewrite Gs, R. cbn [orb loop]. rewrite (round_still s None c t P A).
  assert (E : (true && negb (delay =? 0) && ((delay <? 0) || negb (late t)))%bool = false).
  { destruct D as [-> |[D ->]]; [reflexivity|]. destruct (Z.ltb_spec delay 0); [lia|]. cbn. now rewrite Bool.andb_false_r. }
  rewrite E. rewrite R. destruct s; cbn in *. now subst.
Qed.
Lemma kop_main c sig gone s : good s -> running s = true -> 0 < pid s -> exists r, kill_or_primary c sig gone s = Ok r /\ In (if c then - pid s else pid s, sig) r.
Proof.
  intros G R P. destruct c; cbn [kill_or_primary].
  - destruct (kill_spec sig gone s G) as (r & E & _ & H). exists r. split; [exact E|]. apply H; [now left|lia].
  - unfold kill_primary. rewrite (g_sane _ G), R. cbn [andb]. destruct (Z.ltb_spec 0 (pid s)); [|lia]. eexists. split; [reflexivity|now left].
Qed.
Lemma stop_shape delay c gone ts s s' ts' l : Forall (fun t => pidfile t <> 1) ts -> good s -> stop delay c gone ts s = Ok (s', ts', l) ->
  exists a b, l = a ++ b /\ Forall (fun x => snd x = TERM) a /\ Forall (fun x => snd x = KILL) b /\ (c = false -> Forall (fun x : signal => 0 < fst x) l).
Proof.
  intros Ht Hg. unfold stop.
  assert (H : forall sig r m, kill_or_primary c sig gone m = Ok r -> good m -> Forall (fun x => snd x = sig) r /\ (c = false -> Forall (fun x : signal => 0 < fst x) r)).
  { intros sig r m E G. destruct (kop_spec c sig gone m G) as (r' & E' & S). rewrite E in E'. inversion E'; subst r'. split.
    - apply Forall_forall. intros [t g] Hi. now destruct (S t g Hi).
    - intros ->. cbn [kill_or_primary] in E. unfold kill_primary in E. rewrite (g_sane _ G) in E.
      destruct (running m && (0 <? pid m))%bool eqn:Er; inversion E; subst; constructor; [|constructor].
      apply andb_prop in Er. destruct Er as [_ Er]. now apply Z.ltb_lt. }
  destruct (wait_spec 0 true ts s Ht Hg) as [_ W1].
  destruct (wait 0 true ts s) as [[s1 ts1]| |]; cbn [bind]; [|discriminate|discriminate].
  destruct (W1 _ _ eq_refl) as (G1 & V1 & _). destruct V1 as (_ & _ & _ & u1 & U1 & _ & _).
  assert (T1 : Forall (fun t => pidfile t <> 1) ts1) by (rewrite U1 in Ht; apply Forall_app in Ht; tauto).
  destruct (running s1) eqn:R1; cbn [bind].
  2:{ rewrite R1. intros E. inversion E; subst. exists [], []. split; [reflexivity|]. split; [constructor|]. split; [constructor|]. constructor. }
  destruct (kill_or_primary c TERM gone s1) as [a| |] eqn:Ea; cbn [bind]; [|discriminate|discriminate].
  destruct (H _ _ _ Ea G1) as [A1 A2].
  destruct (wait_spec delay c ts1 s1 T1 G1) as [_ W2].
  destruct (wait delay c ts1 s1) as [[s2 ts2]| |]; cbn [bind]; [|discriminate|discriminate].
  destruct (W2 _ _ eq_refl) as (G2 & _ & _).
  destruct (running s2) eqn:R2; cbn [bind].
  2:{ intros E. inversion E; subst. exists l, []. split; [now rewrite app_nil_r|]. split; [exact A1|]. split; [constructor|exact A2]. }
  destruct (kill_or_primary c KILL gone s2) as [b| |] eqn:Eb; cbn [bind]; [|discriminate|discriminate].
  destruct (H _ _ _ Eb G2) as [B1 B2].
  destruct (wait (-1) c ts2 s2) as [[s3 ts3]| |]; cbn [bind]; [|discriminate|discriminate].
  intros E. inversion E; subst. exists a, b. split; [reflexivity|]. split; [exact A1|]. split; [exact B1|].
  intros Hc. apply Forall_app. auto.
Qed.
