(** Facts about what the daemon does with a request. *)
From Verif Require Import Base BaseFacts Ctype TclModel TclSpec TclProofs KeyModel KeySpec KeyProofs UrlModel TreeProofs TempModel TempSpec TempProofs IniModel IniSpec IniProofs IniProofs2 IniProofs3 IntFmtModel RemoteModel RemoteSpec RemoteProofs.
Local Open Scope char_scope.
Local Open Scope list_scope.

(** * Trees that hold fit keys and values *)
Definition neat (s : bytes) : Prop := ~ white_end s.
Definition fitv (v : option bytes) : Prop := match v with Some v => fit_value v | None => True end.
Inductive tidy : tree bytes -> Prop :=
| T_node k v ch : fit_value v -> Forall (fun c : tree bytes => neat (tkey c)) ch -> Forall tidy ch -> tidy (Node k v ch).
Definition tidyo (o : option (tree bytes)) : Prop := match o with Some t => tidy t | None => True end.
Lemma tidy_inv t : tidy t -> fit_value (tval t) /\ Forall (fun c : tree bytes => neat (tkey c)) (tch t) /\ Forall tidy (tch t).
Proof. intros H. inversion H. cbn. auto. Qed.
Definition fitn (x : notif) : Prop := Forall neat (fst x) /\ fitv (snd x).
Lemma neat_snoc k s : Forall neat k -> neat s -> Forall neat (k ++ [s]).
Proof. intros. apply Forall_app. auto. Qed.
Lemma visit_fit : forall t, tidy t -> forall full, Forall neat full -> Forall fitn (visit full t).
Proof.
  induction t as [k v ch IH] using tree_ind2. intros T full Hf. apply tidy_inv in T. cbn [tch] in T. destruct T as (_ & Hk & Ht). cbn [visit]. apply Forall_app. split; [|constructor; [split; [exact Hf|exact I]|constructor]].
  apply Forall_flat_map. rewrite Forall_forall in IH, Hk, Ht. apply Forall_forall. intros c Hc. apply (IH c Hc (Ht c Hc)). apply neat_snoc; [exact Hf|apply Hk, Hc].
Qed.
Lemma fit_nil : fit_value [].
Proof. split; [intros []|]. intros x E. destruct x; discriminate. Qed.
Lemma tidy_with k v ch s c c' : tidy (Node k v ch) -> child ch s = Some c -> match c' with Some n => tkey n = tkey c /\ tidy n | None => True end -> tidy (Node k v (with_child ch s c')).
Proof.
  intros T Ec H. apply tidy_inv in T. cbn [tch tval] in T. destruct T as (Hv & Hk & Ht). destruct (child_split _ _ _ Ec) as (a & b & -> & _ & -> & _).
  rewrite Forall_app in Hk, Ht. destruct Hk as [Ka Kb], Ht as [Ta Tb]. pose proof (Forall_inv Kb) as Kc. apply Forall_inv_tail in Kb. apply Forall_inv_tail in Tb. cbv beta in Kc.
  constructor; [exact Hv|apply Forall_app; split; auto; destruct c' as [n|]; auto; destruct H as [E _]; constructor; [rewrite E; exact Kc|exact Kb]|].
  apply Forall_app; split; auto. destruct c' as [n|]; auto. constructor; tauto.
Qed.
Lemma del_tkey k : forall full t t' n, del full t k = Some (Some t', n) -> tkey t' = tkey t.
Proof.
  destruct k as [|s r]; intros full t t' n H; cbn [del] in H; [discriminate|]. destruct (child (tch t) s) as [c|]; [|discriminate]. destruct (del (full ++ [tkey c]) c r) as [[c' n']|]; [|discriminate].
  injection H as <- _. reflexivity.
Qed.
Lemma del_fit : forall k full t t' n, tidy t -> Forall neat full -> del full t k = Some (t', n) -> tidyo t' /\ Forall fitn n.
Proof.
  induction k as [|s r IH]; intros full t t' n T Hf H; cbn [del] in H.
  - injection H as <- <-. split; [exact I|apply visit_fit; assumption].
  - destruct (child (tch t) s) as [c|] eqn:Ec; [|discriminate]. destruct (del (full ++ [tkey c]) c r) as [[c' n']|] eqn:Ed; [|discriminate]. injection H as <- <-.
    pose proof (tidy_inv _ T) as (_ & Hk & Ht). destruct (IH _ _ _ _ (child_Forall _ _ _ _ Ht Ec) (neat_snoc _ _ Hf (child_Forall _ _ _ _ Hk Ec)) Ed) as [Tc Fn]. split; [|exact Fn].
    cbn [tidyo]. destruct t as [k0 v0 ch]. cbn [tch tkey tval] in *. eapply tidy_with; [exact T|exact Ec|]. destruct c' as [n1|]; [|exact I]. split; [exact (del_tkey _ _ _ _ _ Ed)|exact Tc].
Qed.
Lemma ins_fit v : fit_value v -> forall rest full node k0, tidyo node -> Forall neat full -> Forall neat rest ->
  tidy (fst (fst (ins full node k0 rest v))) /\ Forall fitn (snd (fst (ins full node k0 rest v))).
Proof.
  intros Hv. induction rest as [|s r IH]; intros full node k0 T Hf Hr.
  - destruct node as [[k v0 ch]|]; cbn [ins].
    + destruct (list_eq_dec ascii_dec v v0); cbn [fst snd]; [split; [exact T|constructor]|]. apply tidy_inv in T. split; [constructor; tauto|]. constructor; [split; [exact Hf|exact Hv]|constructor].
    + cbn [fst snd]. split; [constructor; auto|]. constructor; [split; [exact Hf|exact Hv]|constructor].
  - pose proof (Forall_inv Hr) as Hs. apply Forall_inv_tail in Hr. destruct node as [[k v0 ch]|]; cbn [ins].
    + destruct (child ch s) as [c|] eqn:Ec.
      * pose proof (tidy_inv _ T) as (_ & Hk & Ht). cbn [tch] in Hk, Ht. pose proof (IH (full ++ [tkey c]) (Some c) s (child_Forall _ _ _ _ Ht Ec) (neat_snoc _ _ Hf (child_Forall _ _ _ _ Hk Ec)) Hr) as [A C].
        pose proof (ins_tkey (full ++ [tkey c]) (Some c) s r v) as Tk. destruct (ins (full ++ [tkey c]) (Some c) s r v) as [[c' n] d]. cbn [fst snd] in *. split; [|exact C].
        eapply tidy_with; [exact T|exact Ec|]. auto.
      * pose proof (IH (full ++ [s]) None s I (neat_snoc _ _ Hf Hs) Hr) as [A C].
        pose proof (ins_tkey (full ++ [s]) None s r v) as Tk. destruct (ins (full ++ [s]) None s r v) as [[c' n] d]. cbn [fst snd] in *. split; [|exact C].
        apply tidy_inv in T. cbn [tch tval] in T. destruct T as (H1 & H2 & H3). constructor; [exact H1| |]; apply Forall_app; split; auto. constructor; [rewrite Tk; exact Hs|constructor].
    + pose proof (IH (full ++ [s]) None s I (neat_snoc _ _ Hf Hs) Hr) as [A C].
      pose proof (ins_tkey (full ++ [s]) None s r v) as Tk. destruct (ins (full ++ [s]) None s r v) as [[c' n] d]. cbn [fst snd] in *. split.
      * constructor; [exact fit_nil| |]; constructor; auto. rewrite Tk. exact Hs.
      * constructor; [split; [exact Hf|exact fit_nil]|exact C].
Qed.
Lemma strip_named k : canonical k -> strip k = (named k, slashed k).
Proof.
  intros [P|(k' & Hk & P & ->)].
  - unfold strip, last_seg. destruct (plain_slashed k P) as [-> ->]. destruct k as [|s r]; [reflexivity|]. rewrite isempty_ne. cbv zeta. rewrite last_seg_plain by (auto; discriminate). reflexivity.
  - unfold strip, last_seg. destruct (trailing_slashed k' P) as [-> ->]. destruct (last_seg_trailing k') as [-> ->]. rewrite (plain_collapse k' P).
    destruct k' as [|s r]; [congruence|]. reflexivity.
Qed.
Lemma neat_named k : Forall neat k -> Forall neat (named k).
Proof. rewrite !Forall_forall. intros H s Hs. apply filter_In in Hs. apply H, Hs. Qed.
Lemma tset_fit g k v : tidyo (root g) -> canonical k -> Forall neat k -> fitv v -> tidyo (root (fst (tset g k v))) /\ Forall fitn (snd (tset g k v)).
Proof.
  intros T C Hk Hv. unfold tset. rewrite strip_named by exact C. destruct v as [v|].
  - destruct (slashed k); [split; [exact T|constructor]|]. pose proof (ins_fit v Hv (named k) [] (root g) [] T (Forall_nil _) (neat_named _ Hk)) as [A D]. destruct (ins [] (root g) [] (named k) v) as [[t' n] d]. auto.
  - destruct (root g) as [t|] eqn:E; [|cbn [fst snd]; rewrite E; split; [exact I|constructor]]. destruct (del [] t (named k)) as [[t' n]|] eqn:Ed; [|cbn [fst snd]; rewrite E; split; [exact T|constructor]].
    exact (del_fit _ _ _ _ _ T (Forall_nil _) Ed).
Qed.

(** * Notices *)
Definition nmsg (x : notif) : msg := {| mc := NOTICE; ma := printable (fst x) :: match snd x with Some v => [v] | None => [] end; mt := false |}.
Lemma key_nul k : canonical k -> nul_free (printable k).
Proof. intros C. rewrite printable_loop. apply print_nul, canonical_nul, C. Qed.
Lemma escape_key_ok k : canonical k -> escape_key k = Ok (esc (printable k)).
Proof. intros C. apply escape_str_ok, key_nul, C. Qed.
Lemma key_value_ok k v : canonical k -> nul_free v -> key_value k v = Ok (esc (printable k) ++ " " :: esc v).
Proof. intros C H. unfold key_value. rewrite escape_key_ok by exact C. cbn [bind]. unfold escape. rewrite escape_str_ok by exact H. reflexivity. Qed.
Lemma write_key c k : writecmd c (Some (esc (printable k))) = text {| mc := c; ma := [printable k]; mt := false |} ++ [newline].
Proof. unfold writecmd, text, words. cbn [mc ma mt flat_map]. rewrite ?app_nil_r. cbn [app]. rewrite ?app_nil_r, <- ?app_assoc. reflexivity. Qed.
Lemma write_pair c a b : writecmd c (Some (esc a ++ " " :: esc b)) = text {| mc := c; ma := [a; b]; mt := false |} ++ [newline].
Proof. unfold writecmd, text, words. cbn [mc ma mt flat_map]. rewrite ?app_nil_r. cbn [app]. rewrite ?app_nil_r, <- ?app_assoc. cbn [app]. rewrite <- ?app_assoc. reflexivity. Qed.
Definition good (g : gen) : Prop := WFo (root g) /\ tidyo (root g).
Definition fitnk (x : notif) : Prop := Forall plain (fst x) /\ Forall neat (fst x) /\ fitv (snd x).
Lemma nmsg_whole x : fitnk x -> whole (nmsg x).
Proof.
  destruct x as [k v]. intros (P & _ & Hv). unfold whole, nmsg. cbn [ma fst snd] in *. constructor; [apply key_nul; left; exact P|]. destruct v as [v|]; [|constructor]. constructor; [apply Hv|constructor].
Qed.
Lemma notices_ok g n : (forall x, In x n -> fitnk x /\ tget g (fst x) = snd x) -> notices g n = Ok (frames (map nmsg n)).
Proof.
  induction n as [|[k v] n IH]; intros H; [reflexivity|]. cbn [notices]. destruct (H (k, v) (or_introl eq_refl)) as [(P & _ & Hv) E]. cbn [fst snd] in *. unfold notice. rewrite E.
  rewrite IH by (intros x Hx; apply H; right; exact Hx). assert (C : canonical k) by (left; exact P). destruct v as [v|].
  - rewrite key_value_ok by (auto; apply Hv). cbn [bind]. rewrite write_pair. reflexivity.
  - rewrite escape_key_ok by exact C. cbn [bind]. rewrite write_key. reflexivity.
Qed.
Lemma assign_ok g k v : good g -> canonical k -> Forall neat k -> fitv v ->
  assign g k v = Ok (fst (tset g k v), frames (map nmsg (snd (tset g k v)))) /\ good (fst (tset g k v)) /\ Forall fitnk (snd (tset g k v)).
Proof.
  intros [W T] C Hk Hv. pose proof (tset_fit g k v T C Hk Hv) as [T' F]. unfold assign. destruct (tset g k v) as [g' n] eqn:E. cbn [fst snd] in *.
  destruct (tset_ok g k v g' n W C E) as (W' & _ & Tl & _). destruct Tl as [Tl _ _]. assert (H : forall x, In x n -> fitnk x /\ tget g' (fst x) = snd x).
  { intros [q u] Hx. destruct (Tl q u Hx) as (P & H1 & H2). rewrite Forall_forall in F. destruct (F _ Hx) as [Fk Fv]. split; [split; [exact P|split; assumption]|]. cbn [fst snd].
    rewrite tget_has by (left; exact P). rewrite (proj1 (plain_slashed q P)). auto. }
  rewrite notices_ok by exact H. split; [reflexivity|]. split; [split; assumption|]. apply Forall_forall. intros x Hx. apply H, Hx.
Qed.
