(** The console and the log buffer. *)
From Verif Require Import Base BaseFacts Ctype UrlModel LogModel LogSpec LogProofs.
Local Open Scope Z_scope.

(** * The console *)
Definition atom_out (a : atom) : bytes := match a with ABegin p => p | AByte c => [c] | AEnd _ _ => [] end.
Lemma atoms_of_bytes s : flat_map atom_out (map AByte s) = s.
Proof. induction s as [|c s IH]; [reflexivity|]. cbn. f_equal. exact IH. Qed.
Lemma console_flat e : flat_map console e = flat_map atom_out (flat e).
Proof. induction e as [|x e IH]; [reflexivity|]. cbn [flat_map flat]. rewrite flat_map_app. f_equal; [|exact IH]. destruct x; cbn [flat1 console]; [symmetry; apply app_nil_r|symmetry; apply atoms_of_bytes|reflexivity]. Qed.
Lemma line_out p : flat_map atom_out (line_atoms p) = pfx (src p) (lvl p) ++ txt p ++ [newline].
Proof. unfold line_atoms. cbn [flat_map atom_out]. rewrite flat_map_app, atoms_of_bytes. cbn. rewrite app_nil_r. reflexivity. Qed.
Lemma flat_map_flat_map {A C D} (f : A -> list C) (g : C -> list D) l : flat_map g (flat_map f l) = flat_map (fun x => flat_map g (f x)) l.
Proof. induction l as [|x l IH]; [reflexivity|]. cbn. rewrite flat_map_app, IH. reflexivity. Qed.

(** * Trimming *)
Lemma blank_isspace c : isspace c = blank c. Proof. reflexivity. Qed.
Lemma drop_space_spec s : exists a, s = a ++ drop_space s /\ forallb blank a = true /\ match drop_space s with [] => True | c :: _ => blank c = false end.
Proof.
  induction s as [|c s IH].
  { exists (@nil ascii). cbn. auto. }
  cbn [drop_space]. destruct (isspace c) eqn:E; rewrite blank_isspace in E.
  - destruct IH as (a & Ea & Ha & Hc). exists (c :: a). split; [cbn; f_equal; exact Ea|]. split; [cbn; rewrite E; exact Ha|exact Hc].
  - exists []. auto.
Qed.
Lemma forallb_rev {A} (f : A -> bool) l : forallb f (rev l) = forallb f l.
Proof. induction l as [|x l IH]; [reflexivity|]. cbn [rev]. rewrite forallb_app, IH. cbn. destruct (f x), (forallb f l); reflexivity. Qed.
Lemma trim_ok s : trimmed s (trim_string s).
Proof.
  unfold trimmed, trim_string. destruct (drop_space_spec (rev s)) as (a & Ea & Ha & Hc). set (m := drop_space (rev s)) in *. destruct (drop_space_spec (rev m)) as (a' & Ea' & Ha' & Hc'). set (t := drop_space (rev m)) in *.
  exists a', (rev a). split; [|split; [exact Ha'|split; [rewrite forallb_rev; exact Ha|split; [exact Hc'|]]]].
  - apply (f_equal (@rev _)) in Ea. rewrite rev_involutive, rev_app_distr in Ea. rewrite Ea, Ea', app_assoc. reflexivity.
  - assert (Em : m = rev t ++ rev a') by (rewrite <- rev_app_distr, <- Ea', rev_involutive; reflexivity). rewrite Em in Hc. destruct (rev t); [exact I|exact Hc].
Qed.
Lemma trim_nl s : trim_string (s ++ [newline]) = trim_string s.
Proof. unfold trim_string. rewrite rev_app_distr. reflexivity. Qed.

(** * The buffer sees lines *)
Definition buf_atom (b : logbuf) (a : atom) : logbuf :=
  match a with ABegin p => buf_event b (Begin p) | AByte c => buf_event b (Mid [c]) | AEnd s v => buf_event b (End s v) end.
Lemma buf_eta b : {| msgs := msgs b; counters := counters b; current := current b; max_lines := max_lines b; next := next b |} = b.
Proof. destruct b; reflexivity. Qed.
Lemma buf_bytes s : forall b, fold_left buf_atom (map AByte s) b = buf_event b (Mid s).
Proof. induction s as [|c s IH]; intros b; cbn [map fold_left]; [cbn; rewrite app_nil_r; symmetry; apply buf_eta|]. rewrite IH. cbn. rewrite <- app_assoc. reflexivity. Qed.
Lemma buf_flat e : forall b, fold_left buf_event e b = fold_left buf_atom (flat e) b.
Proof. induction e as [|x e IH]; intros b; [reflexivity|]. cbn [fold_left flat flat_map]. rewrite fold_left_app, IH. f_equal. destruct x; cbn [flat1]; [reflexivity|symmetry; apply buf_bytes|reflexivity]. Qed.
Definition keep (b : logbuf) (p : piece) : logbuf := handle_msg b (src p) (lvl p) (txt p).
Definition trim (p : piece) : piece := mk (src p) (lvl p) (trim_string (txt p)).
Lemma handle_conf b s v t : current (handle_msg b s v t) = current b /\ max_lines (handle_msg b s v t) = max_lines b.
Proof. unfold handle_msg. destruct (counter_add _ _ _). split; reflexivity. Qed.
Lemma buf_lines ls : Forall (fun p => nul_free (txt p) /\ lvl p < 10) ls -> forall b, current b = [] -> fold_left buf_atom (flat_map line_atoms ls) b = fold_left keep (map trim ls) b.
Proof.
  induction 1 as [|p ls [N V] _ IH]; intros b C; [reflexivity|]. cbn [flat_map map]. rewrite fold_left_app. cbn [fold_left].
  assert (Q : fold_left buf_atom (line_atoms p) b = keep b (trim p)).
  { unfold line_atoms. cbn [fold_left buf_atom buf_event]. rewrite fold_left_app, buf_bytes. cbn [fold_left buf_atom buf_event current msgs counters max_lines next]. apply Z.ltb_lt in V. unfold num_loglevels. rewrite V, C. cbn [app]. rewrite cstr_nul_free, trim_nl.
    - unfold keep, trim. cbn [src lvl txt mk]. f_equal. rewrite <- C. apply buf_eta.
    - apply nul_free_app. split; [exact N|]. intros [Q|[]]; discriminate. }
  rewrite Q. apply IH. unfold keep. rewrite (proj1 (handle_conf _ _ _ _)). exact C.
Qed.
Lemma show_nul c : nul_free (show c).
Proof. assert (Q : existsb (Ascii.eqb nul) (show c) = false). { apply negb_true_iff. revert c. apply byte_sweep. vm_compute. reflexivity. } intros H. assert (existsb (Ascii.eqb nul) (show c) = true) by (apply existsb_exists; exists nul; split; [exact H|reflexivity]). congruence. Qed.
Lemma lines_nul b h : Forall (fun p => nul_free (txt p)) (lines b h).
Proof.
  apply Forall_forall. intros p I. unfold lines in I. apply in_flat_map in I. destruct I as (q & _ & I). unfold lines_of in I. apply in_map_iff in I. destruct I as (f & <- & _). cbn [txt]. intros H. apply in_flat_map in H. destruct H as (c & _ & H). exact (show_nul c H).
Qed.
Lemma lines_proper b h : Forall proper h -> Forall (fun p => 0 <= lvl p < 10) (lines b h).
Proof.
  intros P. assert (T : Forall (fun p => 0 <= lvl p < 10) (texts b h)).
  { induction P as [|o h Po P IH]; [constructor|]. cbn [texts]. destruct o as [p|]; [|exact IH]. unfold join. destruct (hd None h); [|constructor; assumption]. destruct (texts b h) as [|t ts]; [constructor; [assumption|constructor]|]. destruct (negb b && same_head p p0); constructor; try assumption. apply (Forall_inv_tail IH). }
  apply Forall_forall. intros p I. unfold lines in I. apply in_flat_map in I. destruct I as (q & Iq & I). rewrite Forall_forall in T. specialize (T q Iq). unfold lines_of in I. apply in_map_iff in I. destruct I as (f & <- & _). exact T.
Qed.

(** * Keeping the newest of each kind *)
Definition strip (m : msg) : piece := mk (source m) (level m) (message m).
Definition key (m : msg) : bytes := shown (source m) ++ B ":" ++ [ascii_of_nat (48 + Z.to_nat (level m))].
Definition is_key (t : bytes) (m : msg) : bool := beq (key m) t.
Lemma beq_iff a b : beq a b = true <-> a = b.
Proof. unfold beq. destruct (list_eq_dec Ascii.ascii_dec a b); split; congruence. Qed.
Lemma is_key_iff t m : is_key t m = true <-> key m = t. Proof. apply beq_iff. Qed.
Fixpoint newk (k : Z) (l : list msg) : list msg :=
  match l with
  | [] => []
  | m :: r => if Z.of_nat (length (filter (is_key (key m)) r)) <? k then m :: newk k r else newk k r
  end.
Fixpoint rmfirst (t : bytes) (l : list msg) : list msg :=
  match l with [] => [] | m :: r => if is_key t m then r else m :: rmfirst t r end.
Lemma newk_count k t l : 0 <= k -> Z.of_nat (length (filter (is_key t) (newk k l))) = Z.min k (Z.of_nat (length (filter (is_key t) l))).
Proof.
  intros K. induction l as [|m l IH]; cbn [newk filter]; [cbn; lia|]. destruct (Z.ltb_spec (Z.of_nat (length (filter (is_key (key m)) l))) k) as [H|H]; cbn [filter]; destruct (is_key t m) eqn:E; cbn [length]; try lia; apply is_key_iff in E; subst t; lia.
Qed.
Lemma newk_snoc k l m : 0 <= k -> newk k (l ++ [m]) =
  if k <? Z.of_nat (length (filter (is_key (key m)) (newk k l))) + 1 then rmfirst (key m) (newk k l ++ [m]) else newk k l ++ [m].
Proof.
  intros K. rewrite (newk_count k _ l K). induction l as [|x l IH].
  - cbn. assert (Q : is_key (key m) m = true) by (apply is_key_iff; reflexivity). rewrite Q. destruct (Z.ltb_spec 0 k), (Z.ltb_spec k (Z.min k 0 + 1)); try lia; reflexivity.
  - cbn [app newk]. rewrite filter_app. cbn [filter]. destruct (is_key (key x) m) eqn:E.
    + apply is_key_iff in E. assert (E' : is_key (key m) x = true) by (apply is_key_iff; symmetry; exact E). rewrite E', <- E. rewrite app_length. cbn [length]. set (c := Z.of_nat (length (filter (is_key (key m)) l))) in *.
      replace (Z.of_nat (length (filter (is_key (key m)) l) + 1)) with (c + 1) by (unfold c; lia). replace (Z.of_nat (S (length (filter (is_key (key m)) l)))) with (c + 1) by (unfold c; lia).
      destruct (Z.ltb_spec (c + 1) k), (Z.ltb_spec c k); try lia.
      * rewrite IH. destruct (Z.ltb_spec k (Z.min k c + 1)), (Z.ltb_spec k (Z.min k (c + 1) + 1)); try lia. reflexivity.
      * rewrite IH. destruct (Z.ltb_spec k (Z.min k c + 1)), (Z.ltb_spec k (Z.min k (c + 1) + 1)); try lia. cbn [app rmfirst]. rewrite E'. reflexivity.
      * rewrite IH. destruct (Z.ltb_spec k (Z.min k c + 1)), (Z.ltb_spec k (Z.min k (c + 1) + 1)); try lia. reflexivity.
    + assert (E' : is_key (key m) x = false). { destruct (is_key (key m) x) eqn:Q; [|reflexivity]. apply is_key_iff in Q. assert (is_key (key x) m = true) by (apply is_key_iff; symmetry; exact Q). congruence. }
      rewrite app_nil_r, E', IH. destruct (Z.ltb_spec (Z.of_nat (length (filter (is_key (key x)) l))) k); [|reflexivity]. cbn [app rmfirst]. rewrite E'. destruct (k <? _); reflexivity.
Qed.
Lemma newk_in k l x : In x (newk k l) -> In x l.
Proof. induction l as [|m l IH]; [intros []|]. cbn [newk]. destruct (_ <? k); cbn; intuition. Qed.
Lemma newk_nodup k l : NoDup (map ident l) -> NoDup (map ident (newk k l)).
Proof.
  induction l as [|m l IH]; [constructor|]. cbn [map newk]. intros N. inversion N as [|a r Na Nr Er]; subst. destruct (_ <? k); [|auto]. cbn [map]. constructor; [|auto]. intros Q. apply Na. apply in_map_iff in Q. destruct Q as (y & <- & Q). apply in_map, (newk_in k), Q.
Qed.
Lemma unlink_first t l : NoDup (map ident l) -> forall x r, filter (is_key t) l = x :: r -> unlink x l = rmfirst t l.
Proof.
  induction l as [|m l IH]; intros N x r F; [discriminate|]. cbn [filter unlink rmfirst] in *. destruct (is_key t m) eqn:E.
  - injection F as -> _. rewrite Nat.eqb_refl. reflexivity.
  - inversion N as [|a b Na Nr Er]; subst. destruct (Nat.eqb_spec (ident m) (ident x)) as [Q|Q]; [|f_equal; eapply IH; eassumption]. exfalso. apply Na. rewrite Q. apply in_map. assert (I : In x (filter (is_key t) l)) by (rewrite F; left; reflexivity). apply filter_In in I. apply I.
Qed.
Lemma filter_rmfirst t t' l : filter (is_key t') (rmfirst t l) = if beq t t' then tl (filter (is_key t') l) else filter (is_key t') l.
Proof.
  destruct (beq t t') eqn:E.
  - apply beq_iff in E. subst t'. induction l as [|m l IH]; [reflexivity|]. cbn [rmfirst filter]. destruct (is_key t m) eqn:Q; [reflexivity|]. cbn [filter]. rewrite Q. exact IH.
  - induction l as [|m l IH]; [reflexivity|]. cbn [rmfirst filter]. destruct (is_key t m) eqn:Q.
    + destruct (is_key t' m) eqn:Q'; [|reflexivity]. apply is_key_iff in Q. apply is_key_iff in Q'. assert (beq t t' = true) by (apply beq_iff; congruence). congruence.
    + cbn [filter]. rewrite IH. reflexivity.
Qed.
Definition look (b : logbuf) (t : bytes) : list msg := match find t (counters b) with Some l => l | None => [] end.
Lemma find_put t v l t' : find t' (put t v l) = if beq t t' then Some v else find t' l.
Proof.
  induction l as [|[k w] l IH]; cbn [put find]; [reflexivity|]. destruct (beq k t) eqn:E; cbn [find].
  - apply beq_iff in E. subst k. destruct (beq t t'); reflexivity.
  - rewrite IH. destruct (beq k t') eqn:Q; [|reflexivity]. apply beq_iff in Q. subst k. destruct (beq t t') eqn:Z; [|reflexivity]. apply beq_iff in Z. subst. assert (beq t' t' = true) by (apply beq_iff; reflexivity). congruence.
Qed.
Record holds (b : logbuf) (hist : list msg) : Prop := {
  h_msgs : msgs b = newk (size_t (max_lines b)) hist;
  h_look : forall t, look b t = filter (is_key t) (msgs b);
  h_ids : map ident hist = seq 0 (length hist);
  h_next : next b = length hist }.
Lemma size_t_pos z : 0 <= size_t z. Proof. unfold size_t. apply Z.mod_pos_bound. lia. Qed.
Lemma keep_holds b hist p : holds b hist -> exists m, strip m = p /\ holds (keep b p) (hist ++ [m]).
Proof.
  intros [H1 H2 H3 H4]. set (m := {| ident := next b; level := lvl p; source := src p; message := txt p |}). exists m. split; [destruct p; reflexivity|].
  assert (Ids : map ident (hist ++ [m]) = seq 0 (length (hist ++ [m]))). { rewrite map_app, H3, app_length. cbn [map length ident m]. rewrite Nat.add_1_r, seq_S, H4. reflexivity. }
  assert (Nd : NoDup (map ident (msgs b ++ [m]))). { rewrite map_app. cbn [map]. rewrite H1. assert (Q : NoDup (map ident (hist ++ [m]))) by (rewrite Ids; apply seq_NoDup). rewrite map_app in Q. cbn [map] in Q.
    rewrite <- (rev_involutive (map ident (newk _ hist) ++ _)). apply NoDup_rev. rewrite rev_app_distr. cbn [rev app]. apply (NoDup_rev) in Q. rewrite rev_app_distr in Q. cbn [rev app] in Q. inversion Q as [|a r Na Nr Er]; subst. constructor; [|apply NoDup_rev, newk_nodup; apply NoDup_rev in Nr; rewrite rev_involutive in Nr; exact Nr]. intros I. apply Na. apply in_rev in I. rewrite <- in_rev. apply in_map_iff in I. destruct I as (y & Ey & I). apply in_map_iff. exists y. split; [exact Ey|]. apply (newk_in _ _ _ I). }
  unfold keep, handle_msg. change ({| ident := next b; level := lvl p; source := src p; message := txt p |}) with m. fold (look b (shown (src p) ++ B ":" ++ [ascii_of_nat (48 + Z.to_nat (lvl p))])). change (shown (src p) ++ B ":" ++ [ascii_of_nat (48 + Z.to_nat (lvl p))]) with (key m). rewrite H2. unfold counter_add.
  assert (Km : is_key (key m) m = true) by (apply is_key_iff; reflexivity).
  assert (Fl : filter (is_key (key m)) (msgs b) ++ [m] = filter (is_key (key m)) (msgs b ++ [m])) by (rewrite filter_app; cbn [filter]; rewrite Km; reflexivity).
  pose proof (newk_snoc (size_t (max_lines b)) hist m (size_t_pos _)) as S. rewrite <- H1 in S.
  rewrite app_length. cbn [length]. replace (Z.of_nat (length (filter (is_key (key m)) (msgs b)) + 1)) with (Z.of_nat (length (filter (is_key (key m)) (msgs b))) + 1) by lia.
  destruct (Z.ltb_spec (size_t (max_lines b)) (Z.of_nat (length (filter (is_key (key m)) (msgs b))) + 1)) as [Lt|Ge].
  - rewrite Fl. destruct (filter (is_key (key m)) (msgs b ++ [m])) as [|x r] eqn:F; [destruct (filter (is_key (key m)) (msgs b)); discriminate|].
    rewrite (unlink_first (key m) (msgs b ++ [m]) Nd x r F). constructor; cbn [msgs max_lines next].
    + symmetry. exact S.
    + intros t. unfold look. cbn [counters]. rewrite find_put, filter_rmfirst. destruct (beq (key m) t) eqn:E; [apply beq_iff in E; subst t; rewrite F; reflexivity|].
      rewrite filter_app. cbn [filter]. assert (Q : is_key t m = false) by exact E. rewrite Q, app_nil_r. apply H2.
    + exact Ids.
    + rewrite app_length, H4. cbn. lia.
  - constructor; cbn [msgs max_lines next].
    + symmetry. exact S.
    + intros t. unfold look. cbn [counters]. rewrite find_put. destruct (beq (key m) t) eqn:E; [apply beq_iff in E; subst t; exact Fl|].
      rewrite filter_app. cbn [filter]. assert (Q : is_key t m = false) by exact E. rewrite Q, app_nil_r. apply H2.
    + exact Ids.
    + rewrite app_length, H4. cbn. lia.
Qed.
Lemma keeps_holds ps : forall b hist, holds b hist -> exists hist', map strip hist' = map strip hist ++ ps /\ holds (fold_left keep ps b) hist' /\ max_lines (fold_left keep ps b) = max_lines b.
Proof.
  induction ps as [|p ps IH]; intros b hist H; cbn [fold_left]; [exists hist; rewrite app_nil_r; auto|]. destruct (keep_holds b hist p H) as (m & Sm & H'). destruct (IH _ _ H') as (hist' & E & Hh & M). exists hist'. split; [rewrite E, map_app, <- app_assoc; cbn [map app]; rewrite Sm; reflexivity|]. split; [exact Hh|]. rewrite M. apply (proj2 (handle_conf _ _ _ _)).
Qed.
Lemma key_kind a b : 0 <= level a < 10 -> 0 <= level b < 10 -> is_key (key a) b = same_kind (strip a) (strip b).
Proof.
  intros Ha Hb. apply eq_true_iff_eq. rewrite is_key_iff. unfold key, same_kind, strip. cbn [src lvl mk]. rewrite andb_true_iff, Z.eqb_eq. change name_of with shown.
  destruct (list_eq_dec Ascii.ascii_dec (shown (source a)) (shown (source b))) as [E|E].
  - rewrite E. split.
    + intros Q. split; [reflexivity|]. apply app_inv_head in Q. assert (W : forall z, 0 <= z < 10 -> nat_of_ascii (ascii_of_nat (48 + Z.to_nat z)) = (48 + Z.to_nat z)%nat) by (intros z Hz; apply nat_ascii_embedding; lia). assert (Q1 : nat_of_ascii (ascii_of_nat (48 + Z.to_nat (level b))) = nat_of_ascii (ascii_of_nat (48 + Z.to_nat (level a)))) by (exact (f_equal (fun l => nat_of_ascii (nth 1 l nul)) Q)). rewrite !W in Q1 by assumption. lia.
    + intros [_ ->]. reflexivity.
  - split; [|intros [Q _]; discriminate]. intros Q. exfalso. apply E. rewrite !app_assoc in Q. apply app_inj_tail in Q. destruct Q as [Q _]. apply app_inj_tail in Q. destruct Q as [Q _]. symmetry. exact Q.
Qed.
Lemma newk_newest k l : Forall (fun m => 0 <= level m < 10) l -> map strip (newk k l) = newest k (map strip l).
Proof.
  induction 1 as [|m l Hm Hl IH]; [reflexivity|]. cbn [newk map newest].
  assert (Q : length (filter (is_key (key m)) l) = length (filter (same_kind (strip m)) (map strip l))). { clear IH. induction Hl as [|x l Hx Hl IH]; [reflexivity|]. cbn [filter map]. rewrite (key_kind m x Hm Hx). destruct (same_kind (strip m) (strip x)); cbn [length]; rewrite IH; reflexivity. }
  rewrite Q. destruct (_ <? k); cbn [map]; rewrite IH; reflexivity.
Qed.
Lemma kept max ps : Forall (fun p => 0 <= lvl p < 10) ps -> map strip (msgs (fold_left keep ps (new_buf max))) = newest (size_t max) ps.
Proof.
  intros V. assert (H0 : holds (new_buf max) []) by (constructor; reflexivity). destruct (keeps_holds ps (new_buf max) [] H0) as (hist & E & H & M). cbn [map app] in E. rewrite (h_msgs _ _ H), M. cbn [new_buf max_lines]. rewrite newk_newest, E; [reflexivity|].
  apply Forall_forall. intros m I. apply (in_map strip) in I. rewrite E in I. rewrite Forall_forall in V. apply (V _ I).
Qed.
Lemma newest_all k l : Z.of_nat (length l) <= k -> newest k l = l.
Proof.
  induction l as [|m l IH]; [reflexivity|]. cbn [length newest]. intros H. assert (F : (length (filter (same_kind m) l) <= length l)%nat) by (clear; induction l as [|x l IH]; cbn; [lia|]; destruct (same_kind m x); cbn; lia). destruct (Z.ltb_spec (Z.of_nat (length (filter (same_kind m) l))) k); [|lia]. f_equal. apply IH. lia.
Qed.
