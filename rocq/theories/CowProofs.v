From Verif Require Import Base BaseFacts CowModel CowSpec.
From Coq Require Import ZifyBool ZifyNat Permutation.
Local Open Scope nat_scope.

(** ** List updates *)
Section SetNth.
  Context {A : Type}.
  Lemma setnth_length (l : list A) i a : length (setnth l i a) = length l.
  Proof. revert i. induction l as [|x l IH]; intros [|i]; cbn; congruence. Qed.
  Lemma setnth_same (l : list A) i a x : nth_error l i = Some x -> nth_error (setnth l i a) i = Some a.
  Proof. revert i. induction l as [|y l IH]; intros [|i] H; cbn in *; try discriminate; auto. Qed.
  Lemma setnth_other (l : list A) i j a : i <> j -> nth_error (setnth l i a) j = nth_error l j.
  Proof. revert i j. induction l as [|y l IH]; intros [|i] [|j] H; cbn; try reflexivity; try lia. apply IH. lia. Qed.
  Lemma setnth_setnth (l : list A) i a b : setnth (setnth l i a) i b = setnth l i b.
  Proof. revert i. induction l as [|y l IH]; intros [|i]; cbn; try reflexivity. f_equal. apply IH. Qed.
End SetNth.

(** ** Reference counts *)
Definition refers (b : nat) (w : ws) : bool := match wbuf w with Some b' => b =? b' | None => false end.
Fixpoint cnt (b : nat) (l : list ws) : nat :=
  match l with [] => 0 | w :: r => (if refers b w then 1 else 0) + cnt b r end.

Lemma cnt_perm b l l' : Permutation l l' -> cnt b l = cnt b l'.
Proof. induction 1; cbn [cnt]; lia. Qed.
Lemma cnt_in b l w : In w l -> wbuf w = Some b -> 0 < cnt b l.
Proof.
  induction l as [|u l IH]; intros H E; [destruct H|]. destruct H as [->|H]; cbn [cnt].
  - unfold refers. rewrite E, Nat.eqb_refl. lia.
  - pose proof (IH H E). lia.
Qed.

Definition holds (h : heap) (w : ws) : Prop := exists b, wbuf w = Some b /\ b < length h.
Record Inv (h : heap) (l : list ws) : Prop := {
  inv_links : forall b c, nth_error h b = Some c ->
    links c = cnt b l + (if b =? 0 then 1 else 0) /\ (alive c = true \/ (b <> 0 /\ cnt b l = 0));
  inv_null : 0 < length h;
  inv_holds : Forall (holds h) l
}.
Lemma Inv_perm h l l' : Permutation l l' -> Inv h l -> Inv h l'.
Proof.
  intros P [I1 I2 I3]. split; [|assumption|].
  - intros b c E. rewrite <- (cnt_perm b _ _ P). apply I1. assumption.
  - rewrite Forall_forall in *. intros w Hw. apply I3. eapply Permutation_in; [apply Permutation_sym; exact P|assumption].
Qed.
Lemma Inv_get h l w : Inv h l -> In w l -> exists b c, wbuf w = Some b /\ nth_error h b = Some c /\ getcell h b = Ok c /\ 0 < cnt b l.
Proof.
  intros I Hin. pose proof (inv_holds _ _ I) as F. rewrite Forall_forall in F. destruct (F w Hin) as (b & E & Hb).
  destruct (nth_error h b) as [c|] eqn:Ec; [|apply nth_error_None in Ec; lia].
  exists b, c. pose proof (cnt_in b l w Hin E) as Hc. destruct (inv_links _ _ I b c Ec) as (_ & [Ha|[_ Ha]]); [|lia].
  split; [assumption|]. split; [assumption|]. split; [|assumption]. unfold getcell. rewrite Ec, Ha. reflexivity.
Qed.
Lemma Inv_cell h l b : Inv h l -> b = 0 \/ 0 < cnt b l -> b < length h -> exists c, nth_error h b = Some c /\ getcell h b = Ok c /\ links c = cnt b l + (if b =? 0 then 1 else 0).
Proof.
  intros I Hb Hl. destruct (nth_error h b) as [c|] eqn:Ec; [|apply nth_error_None in Ec; lia].
  exists c. destruct (inv_links _ _ I b c Ec) as (Hk & Ha). split; [reflexivity|]. split; [|assumption].
  unfold getcell. rewrite Ec. destruct Ha as [->|Ha]; [reflexivity|]. lia.
Qed.

(** two heaps with the same texts (the second may have more buffers) *)
Definition same (h h' : heap) : Prop :=
  forall b c, nth_error h b = Some c -> exists c', nth_error h' b = Some c' /\ data c' = data c.
Lemma same_refl h : same h h.
Proof. intros b c E. exists c. split; [assumption|reflexivity]. Qed.
Lemma same_trans h1 h2 h3 : same h1 h2 -> same h2 h3 -> same h1 h3.
Proof. intros S T b c E. destruct (S b c E) as (c1 & E1 & D1). destruct (T b c1 E1) as (c2 & E2 & D2). exists c2. split; congruence. Qed.
Lemma same_setnth h b c c' : nth_error h b = Some c -> data c' = data c -> same h (setnth h b c').
Proof.
  intros E D b1 c1 E1. destruct (Nat.eq_dec b b1) as [->|Hne].
  - exists c'. split; [eapply setnth_same; eassumption|congruence].
  - exists c1. rewrite setnth_other by assumption. split; [assumption|reflexivity].
Qed.
Lemma same_app h c : same h (h ++ [c]).
Proof. intros b c0 E. exists c0. split; [|reflexivity]. rewrite nth_error_app1; [assumption|]. apply nth_error_Some. congruence. Qed.
Lemma same_length h h' : same h h' -> length h <= length h'.
Proof.
  intros S. destruct (Nat.le_gt_cases (length h) (length h')) as [|H]; [assumption|]. exfalso.
  destruct (nth_error h (length h')) as [c|] eqn:E; [|apply nth_error_None in E; lia].
  destruct (S _ _ E) as (c' & E' & _). assert (nth_error h' (length h') = None) by (apply nth_error_None; lia). congruence.
Qed.

(** text at a pointer *)
Definition txt (h : heap) (p : ptr) : option bytes :=
  match p with
  | PNull => None
  | PExt s _ => Some s
  | PIn b o => match nth_error h b with Some c => Some (cstr (skipn o (data c))) | None => None end
  end.
Definition ended (h : heap) (b o : nat) : Prop := exists c, nth_error h b = Some c /\ In nul (skipn o (data c)).
Definition pgood (h : heap) (w : ws) : Prop :=
  match wstr w with
  | PNull => True
  | PExt _ _ => False
  | PIn b o => wbuf w = Some b /\ b <> 0 /\ ended h b o
  end.
(** a pointer that stays readable as long as the strings of [l] live *)
Definition pok (h : heap) (l : list ws) (p : ptr) : Prop :=
  match p with
  | PNull => True
  | PExt s _ => nul_free s
  | PIn b o => 0 < cnt b l /\ b <> 0 /\ ended h b o
  end.
Lemma ended_same h h' b o : same h h' -> ended h b o -> ended h' b o.
Proof. intros S (c & E & H). destruct (S b c E) as (c' & E' & D). exists c'. rewrite D. split; assumption. Qed.
Lemma pgood_same h h' w : same h h' -> pgood h w -> pgood h' w.
Proof. intros S. unfold pgood. destruct (wstr w); try tauto. intros (A & B & C). split; [assumption|]. split; [assumption|]. eapply ended_same; eassumption. Qed.
Lemma txt_same h h' p : same h h' -> match p with PIn b o => ended h b o | _ => True end -> txt h' p = txt h p.
Proof.
  intros S. destruct p as [|b o|s n]; cbn; try reflexivity. intros (c & E & _). destruct (S b c E) as (c' & E' & D).
  rewrite E, E', D. reflexivity.
Qed.
Lemma txt_same_good h h' w : same h h' -> pgood h w -> txt h' (wstr w) = txt h (wstr w).
Proof. intros S G. apply txt_same; [assumption|]. unfold pgood in G. destruct (wstr w); try exact I. apply G. Qed.
Lemma pgood_pok h l w : In w l -> pgood h w -> pok h l (wstr w).
Proof.
  unfold pgood, pok. intros Hin G. destruct (wstr w) as [|b o|s n]; try tauto. destruct G as (E & G). split; [|exact G].
  eapply cnt_in; eassumption.
Qed.
Lemma pok_same h h' l p : same h h' -> pok h l p -> pok h' l p.
Proof. intros S. destruct p; cbn; try tauto. intros (A & B & C). split; [assumption|]. split; [assumption|]. eapply ended_same; eassumption. Qed.
Lemma pok_cnt h l l' p : (forall b, cnt b l <= cnt b l') -> pok h l p -> pok h l' p.
Proof. intros S. destruct p as [|b o|]; cbn; try tauto. intros (A & B & C). specialize (S b). split; [lia|]. split; assumption. Qed.

Lemma existsb_nul d : In nul d -> existsb (Ascii.eqb nul) d = true.
Proof. intros H. apply existsb_exists. exists nul. split; [assumption|apply Ascii.eqb_refl]. Qed.
Lemma string_at_ok h l p : Inv h l -> pok h l p -> string_at h p = Ok (txt h p).
Proof.
  intros I. destruct p as [|b o|s n]; cbn [string_at txt]; try reflexivity. intros (Hc & Hb & c & E & Hn).
  destruct (Inv_cell h l b I) as (c' & E' & Eg & _); [right; assumption|apply nth_error_Some; congruence|].
  rewrite Eg. cbn [bind]. assert (c' = c) as -> by congruence. rewrite E, (existsb_nul _ Hn). reflexivity.
Qed.
Lemma txt_nul_free h l p : pok h l p -> forall t, txt h p = Some t -> nul_free t.
Proof.
  destruct p as [|b o|s n]; cbn; intros H t E; try discriminate.
  - destruct (nth_error h b); [|discriminate]. injection E as <-. apply cstr_is_nul_free.
  - injection E as <-. assumption.
Qed.

(** ** unlink and link *)
Lemma unlink_inv h w l : Inv h (w :: l) -> exists h', unlink h w = Ok h' /\ Inv h' l /\ same h h' /\ length h' = length h /\
  (forall b', wbuf w <> Some b' -> nth_error h' b' = nth_error h b').
Proof.
  intros I. destruct (Inv_get h _ w I (or_introl eq_refl)) as (b & c & Eb & Ec & Eg & _).
  unfold unlink. rewrite Eb, Eg. cbn [bind].
  destruct (inv_links _ _ I b c Ec) as (Hl & _). assert (Er : refers b w = true) by (unfold refers; rewrite Eb; apply Nat.eqb_refl).
  cbn [cnt] in Hl. rewrite Er in Hl.
  destruct ((b =? nullbuf) && (links c =? 1)) eqn:Ef.
  { apply andb_true_iff in Ef. destruct Ef as [E1 E2]. apply Nat.eqb_eq in E1, E2. unfold nullbuf in E1. subst b. cbn in Hl. lia. }
  eexists. split; [reflexivity|].
  split; [|split; [eapply same_setnth; [exact Ec|reflexivity]|split; [apply setnth_length|intros b' Hb'; apply setnth_other; congruence]]].
  destruct I as [I1 I2 I3]. split.
  - intros b1 c1 E1. destruct (Nat.eq_dec b b1) as [<-|Hne].
    + rewrite (setnth_same _ _ _ _ Ec) in E1. injection E1 as <-. cbn [links alive].
      split; [lia|]. destruct (Nat.eqb_spec (links c - 1) 0); [right|left; reflexivity].
      destruct (Nat.eqb_spec b 0); split; lia.
    + rewrite setnth_other in E1 by assumption. specialize (I1 b1 c1 E1). cbn [cnt] in I1.
      assert (refers b1 w = false) as R by (unfold refers; rewrite Eb; apply Nat.eqb_neq; lia). rewrite R in I1. exact I1.
  - rewrite setnth_length. assumption.
  - apply Forall_inv_tail in I3. eapply Forall_impl; [|exact I3]. intros u (b1 & E1 & H1). exists b1. rewrite setnth_length. split; assumption.
Qed.
Lemma link_inv h l b p : Inv h l -> b < length h -> b = 0 \/ 0 < cnt b l \/ (exists c, nth_error h b = Some c /\ alive c = true) -> exists h',
  link h (Some b) p = Ok (h', {| wbuf := Some b; wstr := p |}) /\ Inv h' ({| wbuf := Some b; wstr := p |} :: l) /\ same h h' /\ length h' = length h.
Proof.
  intros I Hb Hal. destruct (nth_error h b) as [c|] eqn:Ec; [|apply nth_error_None in Ec; lia].
  assert (Ha : alive c = true).
  { destruct (inv_links _ _ I b c Ec) as (_ & [Ha|Ha]); [assumption|]. destruct Hal as [Z|[Z|(c' & E' & Z)]]; [lia|lia|congruence]. }
  unfold link, getcell. rewrite Ec, Ha. cbn [bind]. eexists. split; [reflexivity|].
  split; [|split; [eapply same_setnth; [exact Ec|reflexivity]|apply setnth_length]].
  destruct I as [I1 I2 I3]. split.
  - intros b1 c1 E1. cbn [cnt]. unfold refers at 1 2. cbn [wbuf]. destruct (Nat.eq_dec b b1) as [<-|Hne].
    + rewrite (setnth_same _ _ _ _ Ec) in E1. injection E1 as <-. cbn [links alive]. rewrite Nat.eqb_refl.
      destruct (I1 b c Ec) as (Hl & _). split; [lia|left; reflexivity].
    + rewrite setnth_other in E1 by assumption. destruct (Nat.eqb_spec b1 b); [lia|]. apply (I1 b1 c1 E1).
  - rewrite setnth_length. assumption.
  - constructor; [exists b; cbn; rewrite setnth_length; split; [reflexivity|assumption]|].
    eapply Forall_impl; [|exact I3]. intros u (b1 & E1 & H1). exists b1. rewrite setnth_length. split; assumption.
Qed.

(** ** Fresh buffers *)
Lemma lor_ge a b : a <= Nat.lor a b.
Proof.
  apply Nat.ldiff_le. apply Nat.bits_inj_0. intros n. rewrite Nat.ldiff_spec, Nat.lor_spec.
  destruct (Nat.testbit a n), (Nat.testbit b n); reflexivity.
Qed.
Lemma room_ge n : n + 1 <= room n.
Proof. unfold room. pose proof (lor_ge (12 + n + 1) 3). lia. Qed.

Lemma split_nul d : In nul d -> exists r, d = cstr d ++ nul :: r.
Proof.
  induction d as [|c d IH]; intros H; [destruct H|]. cbn [cstr]. destruct (Ascii.eqb_spec c nul) as [->|Hne].
  - exists d. reflexivity.
  - destruct H as [H|H]; [congruence|]. destruct (IH H) as (r & E). exists r. cbn [app]. f_equal. exact E.
Qed.

Lemma cnt_fresh h l : Inv h l -> cnt (length h) l = 0.
Proof.
  intros I. destruct (cnt (length h) l) eqn:E; [reflexivity|]. exfalso.
  pose proof (inv_holds _ _ I) as F. clear I. induction F as [|w l (b & Eb & Hb) _ IH]; [discriminate|].
  cbn [cnt] in E. unfold refers in E at 1. rewrite Eb in E. destruct (Nat.eqb_spec (length h) b); [lia|]. apply IH. exact E.
Qed.
Lemma Inv_alloc h l d : Inv h l -> Inv (h ++ [{| data := d; links := 0; alive := true |}]) l.
Proof.
  intros I. pose proof (cnt_fresh h l I) as Hf. destruct I as [I1 I2 I3]. split.
  - intros b c E. destruct (Nat.lt_ge_cases b (length h)) as [Hb|Hb].
    + rewrite nth_error_app1 in E by assumption. apply I1; assumption.
    + rewrite nth_error_app2 in E by assumption. destruct (b - length h) as [|k] eqn:Ek; [|destruct k; discriminate].
      assert (b = length h) as -> by lia. injection E as <-. cbn. split; [|left; reflexivity].
      rewrite Hf. destruct (Nat.eqb_spec (length h) 0); lia.
  - rewrite app_length. lia.
  - eapply Forall_impl; [|exact I3]. intros w (b & Eb & Hb). exists b. rewrite app_length. split; [assumption|lia].
Qed.
Lemma Inv_newbuf h l d p : Inv h l ->
  Inv (h ++ [{| data := d; links := 1; alive := true |}]) ({| wbuf := Some (length h); wstr := p |} :: l).
Proof.
  intros I. pose proof (cnt_fresh h l I) as Hf. destruct I as [I1 I2 I3]. split.
  - intros b c E. cbn [cnt]. unfold refers at 1 2. cbn [wbuf]. destruct (Nat.lt_ge_cases b (length h)) as [Hb|Hb].
    + rewrite nth_error_app1 in E by assumption. destruct (Nat.eqb_spec b (length h)); [lia|]. apply I1; assumption.
    + rewrite nth_error_app2 in E by assumption. destruct (b - length h) as [|k] eqn:Ek; [|destruct k; discriminate].
      assert (b = length h) as -> by lia. injection E as <-. cbn [links alive]. split; [|left; reflexivity].
      rewrite Hf, Nat.eqb_refl. destruct (Nat.eqb_spec (length h) 0); lia.
  - rewrite app_length. lia.
  - constructor; [exists (length h); rewrite app_length; cbn; split; [reflexivity|lia]|].
    eapply Forall_impl; [|exact I3]. intros w (b & Eb & Hb). exists b. rewrite app_length. split; [assumption|lia].
Qed.

(** writing into a buffer that is in use *)
Lemma write_inv h l b c o s d : Inv h l -> nth_error h b = Some c -> alive c = true -> store_seq (data c) o s = Some d ->
  exists h', write_data h b o s = Ok h' /\ Inv h' l /\ length h' = length h /\
    nth_error h' b = Some {| data := d; links := links c; alive := true |} /\
    (forall b', b' <> b -> nth_error h' b' = nth_error h b').
Proof.
  intros I E Ha Hs. unfold write_data, getcell. rewrite E, Ha. cbn [bind]. rewrite Hs. cbn [of_opt bind].
  eexists. split; [reflexivity|]. split; [|split; [apply setnth_length|split; [eapply setnth_same; exact E|intros b' Hb'; apply setnth_other; lia]]].
  destruct I as [I1 I2 I3]. split.
  - intros b1 c1 E1. destruct (Nat.eq_dec b b1) as [<-|Hne].
    + rewrite (setnth_same _ _ _ _ E) in E1. injection E1 as <-. cbn [links alive]. destruct (I1 b c E) as (Hl & _).
      split; [exact Hl|left; reflexivity].
    + rewrite setnth_other in E1 by assumption. apply I1. assumption.
  - rewrite setnth_length. assumption.
  - eapply Forall_impl; [|exact I3]. intros u (b1 & E1 & H1). exists b1. rewrite setnth_length. split; assumption.
Qed.

(** the strings of [l] keep their text (and stay readable) *)
Definition keep (h h' : heap) (l : list ws) : Prop :=
  forall u, In u l -> pgood h u -> pgood h' u /\ txt h' (wstr u) = txt h (wstr u).
Lemma keep_refl h l : keep h h l.
Proof. intros u _ G. split; [assumption|reflexivity]. Qed.
Lemma keep_trans h1 h2 h3 l : keep h1 h2 l -> keep h2 h3 l -> keep h1 h3 l.
Proof. intros K1 K2 u Hu G. destruct (K1 u Hu G) as (G2 & T2). destruct (K2 u Hu G2) as (G3 & T3). split; [assumption|congruence]. Qed.
Lemma keep_same h h' l : same h h' -> keep h h' l.
Proof. intros S u _ G. split; [eapply pgood_same; eassumption|apply txt_same_good; assumption]. Qed.
Lemma keep_sub h h' l l' : (forall u, In u l' -> In u l) -> keep h h' l -> keep h h' l'.
Proof. intros S K u Hu. apply K. apply S. assumption. Qed.
(** writing into a buffer no string of [l] uses *)
Lemma keep_write h h' l b : (forall b', b' <> b -> nth_error h' b' = nth_error h b') -> cnt b l = 0 -> keep h h' l.
Proof.
  intros Hw Hc u Hu G. unfold pgood in *. destruct (wstr u) as [|b' o|s n] eqn:E; [split; [exact I|reflexivity]| |contradiction].
  destruct G as (Eb & Hb & c & Ec & Hn). assert (b' <> b).
  { intros ->. pose proof (cnt_in b l u Hu Eb). lia. }
  split; [|cbn; rewrite Hw by assumption; reflexivity].
  split; [assumption|]. split; [assumption|]. exists c. rewrite Hw by assumption. split; assumption.
Qed.

(** The result of an operation on the string [w] beside the strings [l] *)
Definition done (h : heap) (l : list ws) (v : option bytes) (r : res (heap * ws)) : Prop :=
  exists h' w', r = Ok (h', w') /\ Inv h' (w' :: l) /\ keep h h' l /\ pgood h' w' /\ txt h' (wstr w') = v.
Definition at_zero (w : ws) : Prop := match wstr w with PIn _ o => o = 0 | _ => True end.

Lemma fresh_write t n : length t <= n -> store_seq (calloc n) 0 t = Some (t ++ calloc (n - length t)).
Proof.
  intros H. rewrite store_seq_some by (unfold calloc; rewrite repeat_length; lia). cbn [firstn app]. do 2 f_equal.
  unfold calloc. cbn [Nat.add]. clear. revert n. induction (length t) as [|m IH]; intros n.
  - rewrite Nat.sub_0_r. reflexivity.
  - destruct n; [reflexivity|]. cbn [repeat skipn Nat.sub]. apply IH.
Qed.

Lemma unique_inv h w l b : Inv h (w :: l) -> wbuf w = Some b -> pok h (w :: l) (wstr w) ->
  (b = 0 \/ pgood h w) -> (wstr w = PNull -> pgood h w) ->
  exists h' w', unique h w = Ok (h', w') /\ Inv h' (w' :: l) /\ same h h' /\ pgood h' w' /\ txt h' (wstr w') = txt h (wstr w) /\
    (at_zero w' \/ w' = w) /\
    match wstr w' with PNull => True | PIn b' _ => cnt b' l = 0 | PExt _ _ => False end.
Proof.
  intros I Eb P Hg Hnull. destruct (Inv_get h _ w I (or_introl eq_refl)) as (b1 & c & Eb1 & Ec & Eg & Hcn).
  assert (b1 = b) as -> by congruence. clear Eb1.
  destruct (inv_links _ _ I b c Ec) as (Hl & _).
  assert (Hr : cnt b (w :: l) = S (cnt b l)) by (cbn [cnt]; unfold refers; rewrite Eb, Nat.eqb_refl; reflexivity).
  unfold unique. rewrite Eb, Eg. cbn [bind].
  destruct (Nat.leb_spec (links c) 1) as [H1|H1].
  - assert (b <> 0) by (intros ->; rewrite Nat.eqb_refl, Hr in Hl; lia). destruct Hg as [|Hg]; [contradiction|].
    exists h, w. split; [reflexivity|]. split; [assumption|]. split; [apply same_refl|]. split; [assumption|]. split; [reflexivity|].
    split; [right; reflexivity|]. unfold pgood in Hg. destruct (wstr w) as [|b' o|]; [exact Logic.I| |exact Hg].
    destruct Hg as (E & _). assert (b' = b) as -> by congruence. destruct (b =? 0); lia.
  - rewrite (string_at_ok h _ _ I P). cbn [bind]. destruct (txt h (wstr w)) as [t|] eqn:Et.
    + pose proof (txt_nul_free _ _ _ P _ Et) as Hn. unfold alloc. pose proof (room_ge (length t)) as Hroom.
      set (h1 := h ++ [{| data := calloc (room (length t)); links := 0; alive := true |}]).
      pose proof (Inv_alloc h _ (calloc (room (length t))) I) as I1. fold h1 in I1.
      assert (E1 : nth_error h1 (length h) = Some {| data := calloc (room (length t)); links := 0; alive := true |}).
      { unfold h1. rewrite nth_error_app2, Nat.sub_diag by lia. reflexivity. }
      destruct (write_inv h1 _ _ _ 0 t _ I1 E1 eq_refl (fresh_write t (room (length t)) ltac:(lia))) as (h2 & W & I2 & L2 & E2 & K2).
      rewrite W. cbn [bind]. clear W.
      assert (S2 : same h h2).
      { intros b0 c0 E0. assert (b0 < length h) by (apply nth_error_Some; congruence). exists c0. rewrite K2 by lia.
        split; [|reflexivity]. unfold h1. rewrite nth_error_app1 by assumption. assumption. }
      destruct (unlink_inv h2 w l I2) as (h3 & -> & I3 & S3 & L3 & K3). cbn [bind].
      assert (F3 : cnt (length h) l = 0).
      { pose proof (cnt_fresh h _ I) as F. cbn [cnt] in F. lia. }
      assert (Hne : b <> length h) by (assert (b < length h) by (apply nth_error_Some; congruence); lia).
      assert (E3 : nth_error h3 (length h) = Some {| data := t ++ calloc (room (length t) - length t); links := 0; alive := true |}).
      { rewrite K3 by congruence. exact E2. }
      assert (Lh : length h3 = S (length h)) by (rewrite L3, L2; unfold h1; rewrite app_length; cbn; lia).
      destruct (link_inv h3 l (length h) (PIn (length h) 0) I3 ltac:(lia)) as (h4 & -> & I4 & S4 & L4).
      { right. right. eexists. split; [exact E3|reflexivity]. }
      destruct (S4 _ _ E3) as (c4 & E4 & D4). cbn [data] in D4.
      destruct (room (length t) - length t) as [|k] eqn:Ek; [lia|].
      exists h4, {| wbuf := Some (length h); wstr := PIn (length h) 0 |}. split; [reflexivity|]. split; [assumption|].
      split; [eapply same_trans; [exact S2|]; eapply same_trans; eassumption|].
      split; [|split; [|split]].
      * cbn. split; [reflexivity|]. split; [pose proof (inv_null _ _ I); lia|]. exists c4. split; [assumption|]. cbn [skipn].
        rewrite D4. apply in_or_app. right. left. reflexivity.
      * cbn [wstr txt]. rewrite E4. cbn [skipn]. rewrite D4. unfold calloc. cbn [repeat]. rewrite cstr_app_nul by assumption. reflexivity.
      * left. reflexivity.
      * exact F3.
    + exists h, w. split; [reflexivity|]. split; [assumption|]. split; [apply same_refl|].
      assert (Ew : wstr w = PNull).
      { destruct (wstr w) as [|b' o|s n] eqn:Ep; [reflexivity| |discriminate]. exfalso. destruct P as (_ & _ & c' & Ec' & _).
        cbn [txt] in Et. rewrite Ec' in Et. discriminate. }
      split; [apply Hnull; assumption|]. split; [assumption|]. split; [right; reflexivity|]. rewrite Ew. exact Logic.I.
Qed.

(** copying from a C pointer: link to nullbuf, then unique *)
Lemma copy_ptr h l p : Inv h l -> pok h l p ->
  exists h' w', (let! (h, w) := link h (Some nullbuf) p in unique h w) = Ok (h', w') /\
    Inv h' (w' :: l) /\ same h h' /\ pgood h' w' /\ txt h' (wstr w') = txt h p /\ at_zero w'.
Proof.
  intros I P. destruct (link_inv h l nullbuf p I (inv_null _ _ I) (or_introl eq_refl)) as (h1 & -> & I1 & S1 & L1). cbn [bind].
  set (w := {| wbuf := Some nullbuf; wstr := p |}) in *.
  assert (P1 : pok h1 (w :: l) p).
  { apply (pok_cnt h1 l); [intros b0; cbn [cnt]; lia|]. eapply pok_same; eassumption. }
  destruct (unique_inv h1 w l nullbuf I1 eq_refl P1 (or_introl eq_refl)) as (h2 & w2 & E & I2 & S2 & G2 & T2 & Z2 & C2).
  { cbn. intros ->. exact Logic.I. }
  exists h2, w2. split; [exact E|]. split; [assumption|]. split; [eapply same_trans; eassumption|]. split; [assumption|].
  split.
  - rewrite T2. apply txt_same; [assumption|]. destruct p; try exact Logic.I. apply P.
  - destruct Z2 as [Z2| ->]; [assumption|]. destruct p as [|b o|s n]; [exact Logic.I| |exact Logic.I].
    unfold pgood in G2. cbn in G2. destruct G2 as (G & H & _). injection G as <-. unfold nullbuf in H. lia.
Qed.

Lemma new_default_inv h l : Inv h l -> exists h' w', new_default h = Ok (h', w') /\ Inv h' (w' :: l) /\ same h h' /\ pgood h' w' /\
  wstr w' = PNull.
Proof.
  intros I. unfold new_default. destruct (link_inv h l nullbuf PNull I (inv_null _ _ I) (or_introl eq_refl)) as (h1 & -> & I1 & S1 & _).
  eexists _, _. split; [reflexivity|]. split; [assumption|]. split; [assumption|]. split; [exact Logic.I|reflexivity].
Qed.

Lemma done_same h l v r h' w' : r = Ok (h', w') -> Inv h' (w' :: l) -> same h h' -> pgood h' w' -> txt h' (wstr w') = v -> done h l v r.
Proof. intros E I S G T. exists h', w'. split; [assumption|]. split; [assumption|]. split; [apply keep_same; assumption|]. split; assumption. Qed.

Lemma new_cstr_done h l p : Inv h l -> pok h l p -> done h l (txt h p) (new_cstr h p) /\
  (forall h' w', new_cstr h p = Ok (h', w') -> at_zero w').
Proof.
  intros I P. unfold new_cstr. destruct (new_default_inv h l I) as (h1 & w1 & -> & I1 & S1 & G1 & E1). cbn [bind].
  destruct (unlink_inv h1 w1 l I1) as (h2 & -> & I2 & S2 & _). cbn [bind].
  pose proof (same_trans _ _ _ S1 S2) as S12.
  destruct (copy_ptr h2 l p I2 (pok_same _ _ _ _ S12 P)) as (h3 & w3 & E3 & I3 & S3 & G3 & T3 & Z3).
  split.
  - eapply done_same; [exact E3|assumption| |assumption|].
    + eapply same_trans; eassumption.
    + rewrite T3. apply txt_same; [assumption|]. destruct p; try exact Logic.I. apply P.
  - intros h' w' E. rewrite E3 in E. injection E as <- <-. assumption.
Qed.

Lemma ws_eta w b p : wbuf w = b -> wstr w = p -> w = {| wbuf := b; wstr := p |}.
Proof. destruct w. cbn. congruence. Qed.

(** linking to the buffer of a string of [l] *)
Lemma share h l v b : Inv h l -> wbuf v = Some b -> b < length h -> b = 0 \/ 0 < cnt b l -> pgood h v ->
  exists h', link h (wbuf v) (wstr v) = Ok (h', v) /\ Inv h' (v :: l) /\ same h h' /\ pgood h' v /\ txt h' (wstr v) = txt h (wstr v).
Proof.
  intros I Eb Hb Hc G. rewrite Eb. destruct (link_inv h l b (wstr v) I Hb) as (h1 & E & I1 & S1 & _); [tauto|].
  rewrite <- (ws_eta v _ _ Eb eq_refl) in *. exists h1. split; [assumption|]. split; [assumption|]. split; [assumption|].
  split; [eapply pgood_same; eassumption|apply txt_same_good; assumption].
Qed.

Lemma copy_construct_done h l v : Inv h l -> In v l -> pgood h v ->
  exists h', copy_construct h v = Ok (h', v) /\ Inv h' (v :: l) /\ same h h' /\ pgood h' v /\ txt h' (wstr v) = txt h (wstr v).
Proof.
  intros I Hin G. unfold copy_construct. destruct (new_default_inv h l I) as (h1 & w1 & -> & I1 & S1 & G1 & E1). cbn [bind].
  destruct (unlink_inv h1 w1 l I1) as (h2 & -> & I2 & S2 & _). cbn [bind]. pose proof (same_trans _ _ _ S1 S2) as S12.
  destruct (Inv_get h2 l v I2 Hin) as (b & c & Eb & Ec & _ & Hc).
  destruct (share h2 l v b I2 Eb) as (h3 & E3 & I3 & S3 & G3 & T3).
  { apply nth_error_Some. congruence. } { right. assumption. } { eapply pgood_same; eassumption. }
  exists h3. rewrite Eb in E3 |- *. split; [exact E3|]. split; [assumption|]. split; [eapply same_trans; eassumption|].
  split; [assumption|]. rewrite T3. apply txt_same_good; assumption.
Qed.

(** assignment from a string in [l] (or from the target itself) *)
Lemma ptr_eqb_eq p q : ptr_eqb p q = true -> p = q.
Proof.
  destruct p as [|b o|], q as [|b' o'|]; cbn; try discriminate; try reflexivity. intros H. apply andb_true_iff in H.
  destruct H as [H1 H2]. apply Nat.eqb_eq in H1, H2. congruence.
Qed.
Lemma ptr_eqb_refl p : match p with PExt _ _ => False | _ => True end -> ptr_eqb p p = true.
Proof. destruct p; cbn; try tauto. intros _. rewrite !Nat.eqb_refl. reflexivity. Qed.

Lemma assign_self h w : (exists b, wbuf w = Some b) -> pgood h w -> assign h w w = Ok (h, w).
Proof.
  intros (b & E) G. unfold assign. rewrite E, Nat.eqb_refl, ptr_eqb_refl; [reflexivity|]. unfold pgood in G. destruct (wstr w); tauto.
Qed.
Lemma assign_done h w l v : Inv h (w :: l) -> In v l -> pgood h v -> pgood h w ->
  exists h' w', assign h w v = Ok (h', w') /\ Inv h' (w' :: l) /\ same h h' /\ pgood h' w' /\ txt h' (wstr w') = txt h (wstr v) /\ w' = v.
Proof.
  intros I Hin G Gw.
  destruct (Inv_get h _ v I (or_intror Hin)) as (b & c & Eb & Ec & _ & _).
  destruct (Inv_get h _ w I (or_introl eq_refl)) as (bw & cw & Ebw & Ecw & _ & _).
  unfold assign. rewrite Eb, Ebw.
  destruct (ptr_eqb (wstr v) (wstr w) && (b =? bw)) eqn:Ee.
  - apply andb_true_iff in Ee. destruct Ee as [E1 E2]. apply ptr_eqb_eq in E1. apply Nat.eqb_eq in E2. subst bw.
    exists h, w. split; [reflexivity|]. split; [assumption|]. split; [apply same_refl|]. split; [assumption|].
    split; [congruence|]. destruct v, w; cbn in *; congruence.
  - destruct (unlink_inv h w l I) as (h1 & -> & I1 & S1 & L1 & _). cbn [bind].
    destruct (share h1 l v b I1 Eb) as (h2 & E2 & I2 & S2 & G2 & T2).
    { rewrite L1. apply nth_error_Some. congruence. } { right. eapply cnt_in; eassumption. } { eapply pgood_same; eassumption. }
    rewrite Eb in E2. exists h2, v. split; [exact E2|]. split; [assumption|]. split; [eapply same_trans; eassumption|].
    split; [assumption|]. split; [|reflexivity]. rewrite T2. apply txt_same_good; assumption.
Qed.

(** assignment from a C pointer that does not overlap the target *)
Lemma assign_copy h w l p : Inv h (w :: l) -> pok h l p -> pgood h w ->
  (forall c, overlaps c (wstr w) p = false) \/ (exists b, wbuf w = Some b /\ 0 < cnt b l) ->
  exists h' w', assign h w (fast p) = Ok (h', w') /\ Inv h' (w' :: l) /\ same h h' /\ pgood h' w' /\ txt h' (wstr w') = txt h p /\
    (at_zero w' \/ w' = w).
Proof.
  intros I P Gw Ho. unfold assign, fast. cbn [wbuf wstr]. rewrite andb_true_r.
  destruct (ptr_eqb p (wstr w)) eqn:Ee.
  { apply ptr_eqb_eq in Ee. exists h, w. split; [reflexivity|]. split; [assumption|]. split; [apply same_refl|]. split; [assumption|].
    split; [congruence|right; reflexivity]. }
  assert (C : exists h' w', (let! h := unlink h w in let! (h, w) := link h (Some nullbuf) p in unique h w) = Ok (h', w') /\
    Inv h' (w' :: l) /\ same h h' /\ pgood h' w' /\ txt h' (wstr w') = txt h p /\ (at_zero w' \/ w' = w)).
  { destruct (unlink_inv h w l I) as (h1 & -> & I1 & S1 & _). cbn [bind].
    destruct (copy_ptr h1 l p I1 (pok_same _ _ _ _ S1 P)) as (h2 & w2 & E2 & I2 & S2 & G2 & T2 & Z2).
    exists h2, w2. split; [exact E2|]. split; [assumption|]. split; [eapply same_trans; eassumption|]. split; [assumption|].
    split; [|left; assumption]. rewrite T2. apply txt_same; [assumption|]. destruct p; try exact Logic.I. apply P. }
  destruct (Inv_get h _ w I (or_introl eq_refl)) as (bw & cw & Ebw & Ecw & Eg & _). rewrite Ebw.
  destruct (wstr w) as [|b o|s n] eqn:Es; try exact C.
  rewrite Eg. cbn [bind].
  replace ((links cw =? 1) && overlaps cw (PIn b o) p) with false; [exact C|].
  symmetry. destruct Ho as [Ho|(b' & Eb' & Hc)].
  - rewrite Ho. apply andb_false_r.
  - assert (b' = bw) as -> by congruence. destruct (inv_links _ _ I bw cw Ecw) as (Hl & _). cbn [cnt] in Hl.
    unfold refers in Hl at 1. rewrite Ebw, Nat.eqb_refl in Hl. destruct (Nat.eqb_spec (links cw) 1); [lia|reflexivity].
Qed.

(** assigning a tail of its own text to a string that starts at its buffer *)
Lemma skipn_cstr (d : bytes) : forall i r t, d = t ++ nul :: r -> nul_free t -> i <= length t ->
  cstr (skipn i d) = skipn i t /\ In nul (skipn i d).
Proof.
  intros i r t -> Hn Hi. assert (E : skipn i (t ++ nul :: r) = skipn i t ++ nul :: r).
  { rewrite skipn_app. replace (i - length t) with 0 by lia. reflexivity. }
  rewrite E. split; [|apply in_or_app; right; left; reflexivity].
  apply cstr_app_nul. intros H. apply Hn. rewrite <- (firstn_skipn i t). apply in_or_app. right. assumption.
Qed.

Lemma tail_pointer h w b o i t : pgood h w -> wstr w = PIn b o -> txt h (wstr w) = Some t -> i <= length t ->
  ended h b (o + i) /\ txt h (PIn b (o + i)) = Some (skipn i t) /\ nul_free t.
Proof.
  intros G E T Hi. unfold pgood in G. rewrite E in *. destruct G as (_ & _ & c & Ec & Hn). cbn [txt] in T. rewrite Ec in T.
  injection T as T. destruct (split_nul _ Hn) as (r & Hr). rewrite T in Hr. assert (Hf : nul_free t) by (rewrite <- T; apply cstr_is_nul_free).
  destruct (skipn_cstr _ i r t Hr Hf Hi) as (A & B). rewrite skipn_skipn_add, Nat.add_comm in A, B.
  split; [exists c; split; assumption|]. split; [|assumption]. cbn [txt]. rewrite Ec, A. reflexivity.
Qed.

Lemma skipn_nil_len {A} (l : list A) n : skipn n l <> [] -> n < length l.
Proof. intros H. destruct (Nat.lt_ge_cases n (length l)); [assumption|]. rewrite skipn_all2 in H by lia. contradiction. Qed.

Lemma assign_tail h w l b i t : Inv h (w :: l) -> pgood h w -> wstr w = PIn b 0 -> txt h (wstr w) = Some t -> i <= length t ->
  exists h' w', assign h w (fast (PIn b i)) = Ok (h', w') /\ Inv h' (w' :: l) /\ keep h h' l /\ pgood h' w' /\
    txt h' (wstr w') = Some (skipn i t) /\ at_zero w'.
Proof.
  intros I G E T Hi.
  destruct (tail_pointer h w b 0 i t G E T Hi) as (He & Ht & Hf). cbn [Nat.add] in *.
  pose proof G as G0. unfold pgood in G0. rewrite E in G0. destruct G0 as (Eb & Hb & _).
  destruct (Nat.eq_dec i 0) as [->|Hi0].
  { unfold assign, fast. cbn [wstr wbuf]. rewrite E. cbn [ptr_eqb]. rewrite !Nat.eqb_refl. cbn [andb].
    exists h, w. split; [reflexivity|]. split; [assumption|]. split; [apply keep_refl|]. split; [assumption|].
    split; [rewrite T; reflexivity|]. unfold at_zero. rewrite E. reflexivity. }
  destruct (Nat.eq_dec (cnt b l) 0) as [Hc|Hc].
  - destruct (Inv_get h _ w I (or_introl eq_refl)) as (bw & c & Ebw & Ec & Eg & _).
    assert (bw = b) as -> by congruence. unfold assign, fast. cbn [wstr wbuf].
    assert (ptr_eqb (PIn b i) (wstr w) = false) as ->.
    { rewrite E. cbn. rewrite Nat.eqb_refl. cbn. apply Nat.eqb_neq. assumption. }
    cbn [andb]. rewrite Eb, E, Eg. cbn [bind].
    destruct (inv_links _ _ I b c Ec) as (Hl & _). cbn [cnt] in Hl. unfold refers in Hl at 1. rewrite Eb, Nat.eqb_refl in Hl.
    destruct (Nat.eqb_spec b 0); [lia|]. destruct (Nat.eqb_spec (links c) 1); [|lia].
    destruct He as (c' & Ec' & Hn). assert (c' = c) as -> by congruence.
    assert (Hlen : i < length (data c)) by (apply skipn_nil_len; intros X; rewrite X in Hn; destruct Hn).
    cbn [overlaps]. rewrite Nat.eqb_refl. destruct (Nat.ltb_spec 0 i); [|lia]. destruct (Nat.leb_spec i (0 + (12 + length (data c)))); [|lia].
    cbn [andb].
    assert (P : pok h (w :: l) (PIn b i)).
    { cbn. unfold refers. rewrite Eb, Nat.eqb_refl. split; [lia|]. split; [assumption|]. exists c. split; assumption. }
    rewrite (string_at_ok h _ _ I P). cbn [bind]. rewrite Ht.
    assert (Hd : exists r, data c = t ++ nul :: r).
    { cbn [txt] in T. rewrite E in T. cbn [txt] in T. rewrite Ec in T. injection T as T. rewrite <- T. apply split_nul.
      clear - G E Ec. unfold pgood in G. rewrite E in G. destruct G as (_ & _ & c' & Ec' & Hn). cbn [skipn] in *. congruence. }
    destruct Hd as (r & Hd).
    assert (Hst : exists q, store_seq (data c) 0 (skipn i t ++ [nul]) = Some (skipn i t ++ nul :: q)).
    { rewrite store_seq_some.
      - cbn [firstn app]. rewrite <- app_assoc. eexists. reflexivity.
      - rewrite app_length, skipn_length, Hd, app_length. cbn [length]. lia. }
    destruct Hst as (q & Hst).
    assert (Ha : alive c = true) by (unfold getcell in Eg; rewrite Ec in Eg; destruct (alive c); [reflexivity|discriminate]).
    destruct (write_inv h _ b c 0 _ _ I Ec Ha Hst) as (h' & -> & I' & L' & E' & K'). cbn [bind].
    assert (Hs : nul_free (skipn i t)).
    { intros X. apply Hf. rewrite <- (firstn_skipn i t). apply in_or_app. right. assumption. }
    exists h', w. split; [reflexivity|]. split; [assumption|]. split; [apply (keep_write h h' l b K' Hc)|].
    split; [|split].
    + unfold pgood. rewrite E. split; [assumption|]. split; [assumption|]. exists {| data := skipn i t ++ nul :: q; links := links c; alive := true |}.
      split; [assumption|]. cbn [skipn data]. apply in_or_app. right. left. reflexivity.
    + rewrite E. cbn [txt]. rewrite E'. cbn [skipn data]. rewrite cstr_app_nul by assumption. reflexivity.
    + unfold at_zero. rewrite E. reflexivity.
  - destruct (assign_copy h w l (PIn b i) I) as (h' & w' & E1 & I1 & S1 & G1 & T1 & Z1); [|assumption| |].
    + cbn. split; [lia|]. split; assumption.
    + right. exists b. split; [assumption|lia].
    + exists h', w'. split; [assumption|]. split; [assumption|]. split; [apply keep_same; assumption|]. split; [assumption|].
      split; [congruence|]. destruct Z1 as [Z1| ->]; [assumption|]. unfold at_zero. rewrite E. reflexivity.
Qed.

(** ** offset *)
Lemma offset_done h l v i : Inv h l -> In v l -> pgood h v ->
  exists h' t, offset h v i = Ok (h', t) /\ Inv h' (t :: l) /\ same h h' /\ pgood h' t /\ txt h' (wstr t) = drop i (txt h (wstr v)).
Proof.
  intros I Hin G. unfold offset.
  destruct (Inv_get h l v I Hin) as (b & c & Eb & Ec & _ & Hc).
  destruct (share h l v b I Eb) as (h1 & E1 & I1 & S1 & G1 & T1).
  { apply nth_error_Some. congruence. } { right. assumption. } { assumption. }
  rewrite E1. cbn [bind]. rewrite (string_at_ok h1 _ _ I1 (pgood_pok h1 (v :: l) v (or_introl eq_refl) G1)). cbn [bind].
  eexists _, _. split; [reflexivity|].
  destruct (wstr v) as [|b' o|] eqn:Es.
  - cbn [txt]. assert (Hv : v = {| wbuf := wbuf v; wstr := PNull |}) by (apply ws_eta; [reflexivity|assumption]). rewrite <- Hv.
    split; [assumption|]. split; [assumption|]. split; [assumption|]. rewrite Es. reflexivity.
  - set (k := if i <? match txt h1 (PIn b' o) with Some s => length s | None => 0 end then i else match txt h1 (PIn b' o) with Some s => length s | None => 0 end).
    destruct (txt h1 (wstr v)) as [t|] eqn:Tt.
    2:{ exfalso. unfold pgood in G1. rewrite Es in *. destruct G1 as (_ & _ & c1 & Ec1 & _). cbn in Tt. rewrite Ec1 in Tt. discriminate. }
    assert (Hk : k <= length t /\ skipn k t = skipn i t).
    { unfold k. rewrite Es in Tt. rewrite Tt. destruct (Nat.ltb_spec i (length t)); [split; [lia|reflexivity]|].
      split; [lia|]. rewrite !skipn_all2 by lia. reflexivity. }
    destruct Hk as (Hk & Hsk).
    destruct (tail_pointer h1 v b' o k t G1 Es Tt Hk) as (He & Ht & _).
    unfold pgood in G1. rewrite Es in G1. destruct G1 as (Eb' & Hb' & _).
    split; [|split; [assumption|split]].
    + destruct I1 as [J1 J2 J3]. split; [|assumption|].
      * intros b0 c0 E0. specialize (J1 b0 c0 E0). cbn [cnt] in *. unfold refers in *. cbn [wbuf] in *. exact J1.
      * inversion J3 as [|? ? Hv Hl]. constructor; [|assumption]. destruct Hv as (b0 & X & Y). exists b0. split; assumption.
    + unfold pgood. cbn [wstr wbuf]. split; [assumption|]. split; assumption.
    + cbn [wstr]. rewrite Ht, Hsk. rewrite <- T1. rewrite Es in Tt. rewrite Tt. reflexivity.
  - exfalso. unfold pgood in G. rewrite Es in G. exact G.
Qed.

(** ** edit *)
Lemma poke_done h w l i c t : Inv h (w :: l) -> pgood h w -> txt h (wstr w) = Some t -> i < length t ->
  exists h' w', (let! (h, w) := unique h w in
     match wstr w with PIn b o => let! h := write_data h b (o + i) [c] in Ok (h, w) | _ => Fault end) = Ok (h', w') /\
    Inv h' (w' :: l) /\ keep h h' l /\ pgood h' w' /\ txt h' (wstr w') = Some (cstr (firstn i t ++ c :: skipn (S i) t)) /\ (at_zero w' \/ w' = w).
Proof.
  intros I G T Hi. destruct (Inv_get h _ w I (or_introl eq_refl)) as (b0 & c0 & Eb0 & _).
  destruct (unique_inv h w l b0 I Eb0 (pgood_pok h (w :: l) w (or_introl eq_refl) G) (or_intror G) (fun _ => G))
    as (h1 & w1 & -> & I1 & S1 & G1 & T1 & Z1 & C1). cbn [bind].
  rewrite T in T1. destruct (wstr w1) as [|b o|] eqn:E1; [discriminate| |contradiction].
  pose proof G1 as G1'. unfold pgood in G1. rewrite E1 in G1. destruct G1 as (Eb & Hb & cc & Ec & Hn).
  cbn [txt] in T1. rewrite Ec in T1. injection T1 as T1. destruct (split_nul _ Hn) as (r & Hr). rewrite T1 in Hr.
  assert (Ho : o <= length (data cc)).
  { destruct (Nat.le_gt_cases o (length (data cc))); [assumption|]. rewrite skipn_all2 in Hn by lia. destruct Hn. }
  assert (Hd : data cc = firstn o (data cc) ++ t ++ nul :: r) by (rewrite <- Hr; symmetry; apply firstn_skipn).
  set (pre := firstn o (data cc)) in *. assert (Lp : length pre = o) by (unfold pre; rewrite firstn_length; lia).
  assert (Hst : store_seq (data cc) (o + i) [c] = Some (pre ++ (firstn i t ++ c :: skipn (S i) t) ++ nul :: r)).
  { rewrite store_seq_some by (rewrite Hd, !app_length; cbn [length]; lia). f_equal. rewrite Hd.
    replace (firstn (o + i) (pre ++ t ++ nul :: r)) with (pre ++ firstn i t).
    2:{ rewrite firstn_app, (firstn_all2 pre) by lia. f_equal. replace (o + i - length pre) with i by lia.
        rewrite firstn_app. replace (i - length t) with 0 by lia. rewrite app_nil_r. reflexivity. }
    cbn [length]. rewrite (skipn_app_len pre _ _ (S i)) by lia.
    rewrite skipn_app. replace (S i - length t) with 0 by lia. cbn [skipn]. rewrite <- !app_assoc. reflexivity. }
  destruct (Inv_get h1 _ w1 I1 (or_introl eq_refl)) as (b1 & c1 & Eb1 & Ec1 & Eg1 & _).
  assert (b1 = b) as -> by congruence. assert (c1 = cc) as -> by congruence.
  assert (Ha : alive cc = true) by (unfold getcell in Eg1; rewrite Ec in Eg1; destruct (alive cc); [reflexivity|discriminate]).
  destruct (write_inv h1 _ b cc _ _ _ I1 Ec Ha Hst) as (h2 & -> & I2 & L2 & E2 & K2). cbn [bind].
  exists h2, w1. split; [reflexivity|]. split; [assumption|].
  split; [eapply keep_trans; [apply keep_same; eassumption|apply (keep_write h1 h2 l b K2 C1)]|].
  assert (Hs : skipn o (pre ++ (firstn i t ++ c :: skipn (S i) t) ++ nul :: r) = (firstn i t ++ c :: skipn (S i) t) ++ nul :: r).
  { rewrite (skipn_app_len pre _ _ 0) by lia. reflexivity. }
  split; [|split; [|exact Z1]].
  - unfold pgood. rewrite E1. split; [assumption|]. split; [assumption|]. eexists. split; [exact E2|]. cbn [data]. rewrite Hs.
    apply in_or_app. right. left. reflexivity.
  - rewrite E1. cbn [txt]. rewrite E2. cbn [data]. rewrite Hs. f_equal.
    generalize (firstn i t ++ c :: skipn (S i) t). intros u. clear. induction u as [|x u IH]; [reflexivity|]. cbn [app cstr].
    destruct (Ascii.eqb x nul); [reflexivity|]. f_equal. exact IH.
Qed.

(** ** setsize and append *)
Lemma fresh_text h (n : nat) (s : bytes) l : Inv h l -> nul_free s -> length s <= n ->
  exists h', write_data (h ++ [{| data := calloc (room n); links := 1; alive := true |}]) (length h) 0 (s ++ [nul]) = Ok h' /\
    Inv h' ({| wbuf := Some (length h); wstr := PIn (length h) 0 |} :: l) /\ same h h' /\
    pgood h' {| wbuf := Some (length h); wstr := PIn (length h) 0 |} /\ txt h' (PIn (length h) 0) = Some s.
Proof.
  intros I Hn Hl. pose proof (Inv_newbuf h l (calloc (room n)) (PIn (length h) 0) I) as I1. pose proof (room_ge n) as Hr.
  assert (E1 : nth_error (h ++ [{| data := calloc (room n); links := 1; alive := true |}]) (length h) = Some {| data := calloc (room n); links := 1; alive := true |}).
  { rewrite nth_error_app2, Nat.sub_diag by lia. reflexivity. }
  assert (Ls : length (s ++ [nul]) <= room n) by (rewrite app_length; cbn [length]; lia).
  destruct (write_inv _ _ _ _ 0 _ _ I1 E1 eq_refl (fresh_write (s ++ [nul]) (room n) Ls)) as (h2 & W & I2 & L2 & E2 & K2).
  exists h2. split; [exact W|]. split; [assumption|].
  split; [|split].
  - intros b c E. assert (b < length h) by (apply nth_error_Some; congruence). exists c. rewrite K2 by lia. split; [|reflexivity].
    rewrite nth_error_app1 by assumption. assumption.
  - cbn. split; [reflexivity|]. split; [pose proof (inv_null _ _ I); lia|]. eexists. split; [exact E2|]. cbn [data skipn].
    apply in_or_app. left. apply in_or_app. right. left. reflexivity.
  - cbn [txt]. rewrite E2. cbn [skipn data]. rewrite <- app_assoc. cbn [app]. rewrite cstr_app_nul by assumption. reflexivity.
Qed.

Lemma fill_done h w l n s : Inv h (w :: l) -> nul_free s -> length s <= n ->
  exists h' w', (let! (h, w) := setsize h w n in let! (h, w) := unique h w in
     match wstr w with PIn b o => let! h := write_data h b o (s ++ [nul]) in Ok (h, w) | _ => Fault end) = Ok (h', w') /\
    Inv h' (w' :: l) /\ same h h' /\ pgood h' w' /\ txt h' (wstr w') = Some s /\ at_zero w'.
Proof.
  intros I Hn Hl. unfold setsize. destruct (unlink_inv h w l I) as (h1 & -> & I1 & S1 & _). cbn [bind]. unfold newbuf.
  assert (Eu : unique (h1 ++ [{| data := calloc (room n); links := 1; alive := true |}]) {| wbuf := Some (length h1); wstr := PIn (length h1) 0 |}
     = Ok (h1 ++ [{| data := calloc (room n); links := 1; alive := true |}], {| wbuf := Some (length h1); wstr := PIn (length h1) 0 |})).
  { unfold unique, getcell. cbn [wbuf]. rewrite nth_error_app2, Nat.sub_diag by lia. reflexivity. }
  cbn [bind]. rewrite Eu. cbn [bind wstr].
  destruct (fresh_text h1 n s l I1 Hn Hl) as (h2 & -> & I2 & S2 & G2 & T2). cbn [bind].
  eexists _, _. split; [reflexivity|]. split; [assumption|]. split; [eapply same_trans; eassumption|]. split; [assumption|].
  split; [assumption|reflexivity].
Qed.

Lemma append_done h w l v u t : Inv h (w :: l) -> pgood h w -> In v (w :: l) -> pgood h v ->
  txt h (wstr w) = Some u -> txt h (wstr v) = Some t ->
  exists h' w', append h w v = Ok (h', w') /\ Inv h' (w' :: l) /\ same h h' /\ pgood h' w' /\ txt h' (wstr w') = Some (u ++ t) /\ at_zero w'.
Proof.
  intros I G Hin Gv Tu Tt. unfold append.
  rewrite (string_at_ok h _ _ I (pgood_pok h (w :: l) v Hin Gv)). cbn [bind]. rewrite Tt.
  rewrite (string_at_ok h _ _ I (pgood_pok h (w :: l) w (or_introl eq_refl) G)). cbn [bind]. rewrite Tu.
  unfold newbuf. cbn [wbuf].
  assert (Hn : nul_free (u ++ t)).
  { apply nul_free_app. split; [apply (txt_nul_free h _ _ (pgood_pok h (w :: l) w (or_introl eq_refl) G) _ Tu)|apply (txt_nul_free h _ _ (pgood_pok h (w :: l) v Hin Gv) _ Tt)]. }
  rewrite app_assoc.
  destruct (fresh_text h (length (u ++ t)) (u ++ t) (w :: l) I Hn (le_n _)) as (h1 & -> & I1 & S1 & G1 & T1). cbn [bind].
  set (tmp := {| wbuf := Some (length h); wstr := PIn (length h) 0 |}) in *.
  assert (I1' : Inv h1 (w :: tmp :: l)) by (eapply Inv_perm; [apply perm_swap|exact I1]).
  destruct (assign_done h1 w (tmp :: l) tmp I1' (or_introl eq_refl) G1 (pgood_same _ _ _ S1 G)) as (h2 & w2 & -> & I2 & S2 & G2 & T2 & ->).
  cbn [bind]. assert (I2' : Inv h2 (tmp :: tmp :: l)) by exact I2.
  destruct (unlink_inv h2 tmp (tmp :: l) I2') as (h3 & -> & I3 & S3 & _). cbn [bind].
  exists h3, tmp. split; [reflexivity|]. split; [assumption|].
  split; [eapply same_trans; [exact S1|eapply same_trans; eassumption]|].
  split; [eapply pgood_same; eassumption|]. split; [|reflexivity].
  rewrite (txt_same_good h2 h3 tmp S3 G2), T2. exact T1.
Qed.

(** ** Programs *)
Fixpoint refs (e : list (option ws)) : list ws :=
  match e with [] => [] | Some w :: r => w :: refs r | None :: r => refs r end.
Lemma refs_in e x w : nth_error e x = Some (Some w) -> In w (refs e).
Proof.
  revert x. induction e as [|o e IH]; intros [|x] H; try discriminate; cbn in H.
  - injection H as ->. left. reflexivity.
  - destruct o; [right|]; eapply IH; exact H.
Qed.
Lemma in_refs e w : In w (refs e) -> exists x, nth_error e x = Some (Some w).
Proof.
  induction e as [|o e IH]; intros H; [destruct H|]. destruct o as [u|].
  - destruct H as [->|H]; [exists 0; reflexivity|]. destruct (IH H) as (x & E). exists (S x). assumption.
  - destruct (IH H) as (x & E). exists (S x). assumption.
Qed.
Lemma refs_split e x w : nth_error e x = Some (Some w) -> Permutation (refs e) (w :: refs (setnth e x None)).
Proof.
  revert x. induction e as [|o e IH]; intros [|x] H; try discriminate; cbn in H.
  - injection H as ->. reflexivity.
  - cbn [setnth refs]. specialize (IH x H). destruct o as [u|]; [|exact IH].
    etransitivity; [apply perm_skip; exact IH|apply perm_swap].
Qed.
Lemma refs_set e x o w : nth_error e x = Some o -> Permutation (w :: refs (setnth e x None)) (refs (setnth e x (Some w))).
Proof.
  intros H. rewrite (refs_split (setnth e x (Some w)) x w).
  - rewrite setnth_setnth. reflexivity.
  - eapply setnth_same; eassumption.
Qed.
Lemma refs_none e x : nth_error e x = Some None -> refs (setnth e x None) = refs e.
Proof. revert x. induction e as [|o e IH]; intros [|x] H; try discriminate; cbn in H; [injection H as ->; reflexivity|]. cbn. rewrite IH by assumption. reflexivity. Qed.
Lemma refs_other e x y v : x <> y -> nth_error e y = Some (Some v) -> In v (refs (setnth e x None)).
Proof. intros H E. apply (refs_in _ y). rewrite setnth_other by assumption. assumption. Qed.

Definition off_ok (z : bool) (l : list ws) : Prop := z = true -> Forall at_zero l.
Record Rel (z : bool) (s : state) (e : values) : Prop := {
  rel_inv : Inv (hp s) (refs (env s));
  rel_good : Forall (pgood (hp s)) (refs (env s));
  rel_len : length (env s) = length e;
  rel_val : forall x o, nth_error (env s) x = Some o ->
    nth_error e x = Some (match o with None => None | Some w => Some (txt (hp s) (wstr w)) end);
  rel_zero : off_ok z (refs (env s))
}.

(** replacing one variable *)
Lemma rel_update z s e x o h' w' v : Rel z s e -> nth_error (env s) x = Some o ->
  let rest := refs (setnth (env s) x None) in
  Inv h' (w' :: rest) -> keep (hp s) h' rest -> pgood h' w' -> txt h' (wstr w') = v -> (z = true -> at_zero w') ->
  Rel z {| hp := h'; env := setnth (env s) x (Some w') |} (put e x v).
Proof.
  intros [R1 R2 R3 R4 R5] Ex rest I K G T Z. unfold put.
  assert (Hr : forall u, In u rest -> In u (refs (env s))).
  { intros u Hu. apply in_refs in Hu. destruct Hu as (y & Ey). destruct (Nat.eq_dec x y) as [<-|Hn].
    - rewrite (setnth_same _ _ _ _ Ex) in Ey. discriminate.
    - rewrite setnth_other in Ey by assumption. eapply refs_in; exact Ey. }
  rewrite Forall_forall in R2.
  split; cbn [hp env].
  - eapply Inv_perm; [eapply refs_set; exact Ex|exact I].
  - eapply Permutation_Forall; [eapply refs_set; exact Ex|]. constructor; [assumption|]. rewrite Forall_forall. intros u Hu.
    apply (K u Hu). apply R2. apply Hr. assumption.
  - rewrite !setnth_length. assumption.
  - intros y o' Ey. destruct (Nat.eq_dec x y) as [<-|Hn].
    + rewrite (setnth_same _ _ _ _ Ex) in Ey. injection Ey as <-. rewrite T. eapply setnth_same. apply (R4 x o Ex).
    + rewrite setnth_other in Ey by assumption. rewrite setnth_other by assumption. rewrite (R4 y o' Ey). destruct o' as [u|]; [|reflexivity].
      destruct (K u) as (_ & ->); [eapply refs_other; eassumption| |reflexivity]. apply R2. eapply refs_in; exact Ey.
  - intros Hz. eapply Permutation_Forall; [eapply refs_set; exact Ex|]. constructor; [apply Z; assumption|].
    specialize (R5 Hz). rewrite Forall_forall in *. intros u Hu. apply R5. apply Hr. assumption.
Qed.

Lemma rel_init z k : Rel z (init k) (repeat None k).
Proof.
  assert (E : refs (repeat None k) = []) by (induction k; cbn; auto).
  split; cbn [hp env init]; rewrite ?E.
  - split; [|cbn; lia|constructor]. intros [|[|b]] c H; cbn in H; try discriminate. injection H as <-. cbn. split; [reflexivity|left; reflexivity].
  - constructor.
  - rewrite !repeat_length. reflexivity.
  - intros x o H. assert (o = None) as -> by (apply nth_error_In in H; apply repeat_spec in H; assumption).
    assert (Hx : x < k) by (rewrite <- (repeat_length (@None ws) k); apply nth_error_Some; congruence).
    apply nth_error_repeat. assumption.
  - intros _. constructor.
Qed.

Lemma rel_live z s e x w : Rel z s e -> nth_error (env s) x = Some (Some w) -> get e x = Some (txt (hp s) (wstr w)) /\ pgood (hp s) w /\
  Inv (hp s) (w :: refs (setnth (env s) x None)) /\ In w (refs (env s)).
Proof.
  intros [R1 R2 R3 R4 R5] E. unfold get. rewrite (R4 x _ E). split; [reflexivity|]. rewrite Forall_forall in R2.
  pose proof (refs_in _ _ _ E) as Hin. split; [apply R2; assumption|]. split; [|assumption].
  eapply Inv_perm; [eapply refs_split; exact E|assumption].
Qed.
Lemma rel_get z s e x v : Rel z s e -> get e x = Some v -> exists w, nth_error (env s) x = Some (Some w) /\ var s x = Ok w /\ v = txt (hp s) (wstr w).
Proof.
  intros [R1 R2 R3 R4 R5] G. unfold get in G. destruct (nth_error e x) as [o|] eqn:E; [|discriminate]. subst o.
  destruct (nth_error (env s) x) as [[w|]|] eqn:Ex.
  - exists w. specialize (R4 x _ Ex). rewrite E in R4. split; [reflexivity|]. split; [unfold var; rewrite Ex; reflexivity|congruence].
  - specialize (R4 x _ Ex). congruence.
  - exfalso. apply nth_error_None in Ex. assert (x < length e) by (apply nth_error_Some; congruence). lia.
Qed.
Lemma rel_fresh z s e x : Rel z s e -> is_fresh e x = true -> nth_error (env s) x = Some None /\ fresh s x = Ok tt.
Proof.
  intros [R1 R2 R3 R4 R5] G. unfold is_fresh in G. destruct (nth_error e x) as [[v|]|] eqn:E; try discriminate.
  unfold fresh. destruct (nth_error (env s) x) as [o|] eqn:Ex.
  - specialize (R4 x _ Ex). rewrite E in R4. destruct o; [discriminate|]. split; reflexivity.
  - exfalso. apply nth_error_None in Ex. assert (x < length e) by (apply nth_error_Some; congruence). lia.
Qed.
Lemma is_live_get e x : is_live e x = true -> exists v, get e x = Some v.
Proof. unfold is_live. destruct (get e x) as [v|]; [exists v; reflexivity|discriminate]. Qed.

(** [z]: offset() is never used; otherwise no string is assigned its own tail *)
Definition allowed (z : bool) (o : op) : Prop := if z then uses_offset o = false else own_tail o = false.

Ltac fresh_var R x :=
  match goal with
  | H : (if is_fresh ?e x then _ else None) = Some _ |- _ =>
      destruct (is_fresh e x) eqn:?Hfr; [|discriminate];
      destruct (rel_fresh _ _ _ _ R Hfr) as (?Ex & ->); cbn [bind]
  end.

Lemma keep_all h h' l : same h h' -> keep h h' l.
Proof. apply keep_same. Qed.

Lemma step_ok z s e o e' : Rel z s e -> c_string o -> far o -> allowed z o -> meaning e o = Some e' ->
  exists s', step s o = Ok s' /\ Rel z s' e'.
Proof.
  intros R Hc Hf Ha M. pose proof (rel_inv _ _ _ R) as I.
  assert (Zv : forall y v, nth_error (env s) y = Some (Some v) -> z = true -> at_zero v).
  { intros y v Ev Hz. pose proof (rel_zero _ _ _ R Hz) as F. rewrite Forall_forall in F. apply F. eapply refs_in; exact Ev. }
  destruct o as [x|x t|x y|x y i|x|x y|x t nr|x y i nr|x y i|x i c|x n t|x y]; cbn [meaning step] in *.
  - fresh_var R x. injection M as <-. rewrite <- (refs_none _ _ Ex) in I.
    destruct (new_default_inv _ _ I) as (h' & w' & -> & I' & S' & G' & E'). eexists. split; [reflexivity|].
    eapply rel_update; [exact R|exact Ex|exact I'|apply keep_same; assumption|assumption|rewrite E'; reflexivity|].
    intros _. unfold at_zero. rewrite E'. exact Logic.I.
  - fresh_var R x. injection M as <-. rewrite <- (refs_none _ _ Ex) in I.
    assert (P : pok (hp s) (refs (setnth (env s) x None)) (cptr t None)) by (destruct t; cbn in *; [exact Hc|exact Logic.I]).
    destruct (new_cstr_done _ _ _ I P) as ((h' & w' & E' & I' & K' & G' & T') & Z'). rewrite E'. eexists. split; [reflexivity|].
    eapply rel_update; [exact R|exact Ex|exact I'|assumption|assumption| |intros _; apply (Z' _ _ E')].
    rewrite T'. destruct t; reflexivity.
  - fresh_var R x. destruct (get e y) as [v|] eqn:Gy; [|discriminate]. injection M as <-.
    destruct (rel_get _ _ _ _ _ R Gy) as (w & Ew & -> & ->). cbn [bind]. rewrite <- (refs_none _ _ Ex) in I.
    assert (Hxy : x <> y) by (intros ->; congruence).
    destruct (rel_live _ _ _ _ _ R Ew) as (_ & Gw & _ & _).
    destruct (copy_construct_done _ _ w I (refs_other _ _ _ _ Hxy Ew) Gw) as (h' & -> & I' & S' & G' & T'). eexists. split; [reflexivity|].
    eapply rel_update; [exact R|exact Ex|exact I'|apply keep_same; assumption|assumption|exact T'|]. apply (Zv y w Ew).
  - fresh_var R x. destruct (get e y) as [v|] eqn:Gy; [|discriminate]. injection M as <-.
    destruct (rel_get _ _ _ _ _ R Gy) as (w & Ew & -> & ->). cbn [bind]. rewrite <- (refs_none _ _ Ex) in I.
    assert (Hxy : x <> y) by (intros ->; congruence).
    destruct (rel_live _ _ _ _ _ R Ew) as (_ & Gw & _ & _).
    destruct (offset_done _ _ w i I (refs_other _ _ _ _ Hxy Ew) Gw) as (h1 & t & -> & I1 & S1 & G1 & T1). cbn [bind].
    destruct (copy_construct_done _ _ t I1 (or_introl eq_refl) G1) as (h2 & -> & I2 & S2 & G2 & T2). cbn [bind].
    destruct (unlink_inv h2 t _ I2) as (h3 & -> & I3 & S3 & _). cbn [bind set]. eexists. split; [reflexivity|].
    eapply rel_update; [exact R|exact Ex|exact I3| | | |].
    + apply keep_same. eapply same_trans; [exact S1|eapply same_trans; eassumption].
    + eapply pgood_same; eassumption.
    + rewrite (txt_same_good _ _ _ S3 G2), T2. exact T1.
    + intros ->. cbn in Ha. discriminate.
  - destruct (is_live e x) eqn:L; [|discriminate]. injection M as <-. destruct (is_live_get _ _ L) as (v & Gx).
    destruct (rel_get _ _ _ _ _ R Gx) as (w & Ew & -> & ->). cbn [bind].
    destruct (rel_live _ _ _ _ _ R Ew) as (_ & Gw & Iw & _).
    destruct (unlink_inv _ _ _ Iw) as (h' & -> & I' & S' & _). cbn [bind]. eexists. split; [reflexivity|].
    destruct R as [R1 R2 R3 R4 R5]. rewrite Forall_forall in R2.
    assert (Hr : forall u, In u (refs (setnth (env s) x None)) -> In u (refs (env s))).
    { intros u Hu. eapply Permutation_in; [apply Permutation_sym, (refs_split _ _ _ Ew)|]. right. assumption. }
    split; cbn [hp env].
    + assumption.
    + rewrite Forall_forall. intros u Hu. eapply pgood_same; [exact S'|]. apply R2. apply Hr. assumption.
    + rewrite !setnth_length. assumption.
    + intros y o Ey. destruct (Nat.eq_dec x y) as [<-|Hn].
      * rewrite (setnth_same _ _ _ _ Ew) in Ey. injection Ey as <-. eapply setnth_same. apply (R4 x _ Ew).
      * rewrite setnth_other in Ey by assumption. rewrite setnth_other by assumption. rewrite (R4 y o Ey). destruct o as [u|]; [|reflexivity].
        rewrite (txt_same_good _ _ u S'); [reflexivity|]. apply R2. eapply refs_in; exact Ey.
    + intros Hz. specialize (R5 Hz). rewrite Forall_forall in *. intros u Hu. apply R5, Hr. assumption.
  - destruct (is_live e x) eqn:L; [|discriminate]. destruct (get e y) as [v|] eqn:Gy; [|discriminate]. injection M as <-.
    destruct (is_live_get _ _ L) as (vx & Gx). destruct (rel_get _ _ _ _ _ R Gx) as (w & Ew & -> & _). cbn [bind].
    destruct (rel_get _ _ _ _ _ R Gy) as (u & Eu & -> & ->). cbn [bind].
    destruct (rel_live _ _ _ _ _ R Ew) as (_ & Gw & Iw & _). destruct (rel_live _ _ _ _ _ R Eu) as (_ & Gu & _ & _).
    destruct (Nat.eq_dec x y) as [<-|Hxy].
    + assert (u = w) as -> by congruence.
      rewrite (assign_self (hp s) w); [|destruct (Inv_get _ _ w Iw (or_introl eq_refl)) as (b & _ & Eb & _); exists b; exact Eb|assumption].
      eexists. split; [reflexivity|]. eapply rel_update; [exact R|exact Ew|exact Iw|apply keep_refl|assumption|reflexivity|apply (Zv x w Ew)].
    + destruct (assign_done _ _ _ u Iw (refs_other _ _ _ _ Hxy Eu) Gu Gw) as (h' & w' & -> & I' & S' & G' & T' & ->).
      eexists. split; [reflexivity|]. eapply rel_update; [exact R|exact Ew|exact I'|apply keep_same; assumption|assumption|exact T'|apply (Zv y u Eu)].
  - destruct (is_live e x) eqn:L; [|discriminate]. injection M as <-. destruct nr as [d|]; [destruct Hf|].
    destruct (is_live_get _ _ L) as (vx & Gx). destruct (rel_get _ _ _ _ _ R Gx) as (w & Ew & -> & _). cbn [bind].
    destruct (rel_live _ _ _ _ _ R Ew) as (_ & Gw & Iw & _).
    assert (P : pok (hp s) (refs (setnth (env s) x None)) (cptr t None)) by (destruct t; cbn in *; [exact Hc|exact Logic.I]).
    destruct (assign_copy _ w _ _ Iw P Gw) as (h' & w' & -> & I' & S' & G' & T' & Z').
    { left. intros c. destruct t, (wstr w); reflexivity. }
    eexists. split; [reflexivity|]. eapply rel_update; [exact R|exact Ew|exact I'|apply keep_same; assumption|assumption| |].
    + rewrite T'. destruct t; reflexivity.
    + intros Hz. destruct Z' as [Z'| ->]; [assumption|]. apply (Zv x w Ew Hz).
  - destruct (is_live e x) eqn:L; [|discriminate]. destruct nr as [d|]; [destruct Hf|].
    destruct (get e y) as [[t|]|] eqn:Gy; try discriminate. destruct (Nat.leb_spec i (length t)) as [Hi|Hi]; [|discriminate]. injection M as <-.
    destruct (is_live_get _ _ L) as (vx & Gx). destruct (rel_get _ _ _ _ _ R Gx) as (w & Ew & -> & _). cbn [bind].
    destruct (rel_get _ _ _ _ _ R Gy) as (u & Eu & -> & Tu). cbn [bind].
    destruct (rel_live _ _ _ _ _ R Ew) as (_ & Gw & Iw & _). destruct (rel_live _ _ _ _ _ R Eu) as (_ & Gu & _ & _).
    destruct (wstr u) as [|b o|sx nx] eqn:Es; [discriminate| |exfalso; unfold pgood in Gu; rewrite Es in Gu; exact Gu].
    assert (Ea : forall w p, assign_in (hp s) w p None = assign (hp s) w (fast p)) by (intros w0 p0; unfold assign_in; destruct (overlaps_other w0 p0); reflexivity).
    rewrite Ea. clear Ea. rewrite <- Es in Tu.
    destruct (tail_pointer _ u b o i t Gu Es (eq_sym Tu) Hi) as (He & Ht & _).
    destruct (Nat.eq_dec x y) as [<-|Hxy].
    + assert (u = w) as -> by congruence. destruct z.
      2:{ cbn in Ha. rewrite Nat.eqb_refl in Ha. discriminate. }
      pose proof (Zv x w Ew eq_refl) as Zw. unfold at_zero in Zw. rewrite Es in Zw. subst o. cbn [Nat.add] in *.
      destruct (assign_tail _ w _ b i t Iw Gw Es (eq_sym Tu) Hi) as (h' & w' & -> & I' & K' & G' & T' & Z').
      eexists. split; [reflexivity|]. eapply rel_update; [exact R|exact Ew|exact I'|assumption|assumption|exact T'|intros _; assumption].
    + assert (Hin : In u (refs (setnth (env s) x None))) by (apply (refs_other _ _ _ _ Hxy Eu)).
      pose proof Gu as Gu'. unfold pgood in Gu'. rewrite Es in Gu'. destruct Gu' as (Eb & Hb & _).
      assert (P : pok (hp s) (refs (setnth (env s) x None)) (PIn b (o + i))).
      { split; [eapply cnt_in; eassumption|]. split; assumption. }
      destruct (assign_copy _ w _ _ Iw P Gw) as (h' & w' & -> & I' & S' & G' & T' & Z').
      { destruct (wstr w) as [|bw ow|] eqn:Ews; [left; reflexivity| |left; reflexivity].
        destruct (Nat.eq_dec bw b) as [->|Hne].
        - right. unfold pgood in Gw. rewrite Ews in Gw. exists b. split; [apply Gw|]. eapply cnt_in; eassumption.
        - left. intros c. cbn. destruct (Nat.eqb_spec bw b); [contradiction|reflexivity]. }
      eexists. split; [reflexivity|]. eapply rel_update; [exact R|exact Ew|exact I'|apply keep_same; assumption|assumption| |].
      * rewrite T', Ht. reflexivity.
      * intros Hz. destruct Z' as [Z'| ->]; [assumption|]. apply (Zv x w Ew Hz).
  - destruct (is_live e x) eqn:L; [|discriminate]. destruct (get e y) as [v|] eqn:Gy; [|discriminate]. injection M as <-.
    destruct (is_live_get _ _ L) as (vx & Gx). destruct (rel_get _ _ _ _ _ R Gx) as (w & Ew & -> & _). cbn [bind].
    destruct (rel_get _ _ _ _ _ R Gy) as (u & Eu & -> & ->). cbn [bind].
    destruct (rel_live _ _ _ _ _ R Ew) as (_ & Gw & Iw & _). destruct (rel_live _ _ _ _ _ R Eu) as (_ & Gu & _ & _).
    assert (Hin : In u (w :: refs (setnth (env s) x None))).
    { destruct (Nat.eq_dec x y) as [<-|Hxy]; [left; congruence|right; apply (refs_other _ _ _ _ Hxy Eu)]. }
    destruct (offset_done _ _ u i Iw Hin Gu) as (h1 & t & -> & I1 & S1 & G1 & T1). cbn [bind].
    assert (I1' : Inv h1 (w :: t :: refs (setnth (env s) x None))) by (eapply Inv_perm; [apply perm_swap|exact I1]).
    destruct (assign_done h1 w _ t I1' (or_introl eq_refl) G1 (pgood_same _ _ _ S1 Gw)) as (h2 & w2 & -> & I2 & S2 & G2 & T2 & ->). cbn [bind].
    destruct (unlink_inv h2 t _ I2) as (h3 & -> & I3 & S3 & _). cbn [bind set]. eexists. split; [reflexivity|].
    eapply rel_update; [exact R|exact Ew|exact I3| | | |].
    + apply keep_same. eapply same_trans; [exact S1|eapply same_trans; eassumption].
    + eapply pgood_same; eassumption.
    + rewrite (txt_same_good _ _ _ S3 G2), T2. exact T1.
    + intros ->. cbn in Ha. discriminate.
  - destruct (get e x) as [[t|]|] eqn:Gx; try discriminate. destruct (Nat.ltb_spec i (length t)) as [Hi|Hi]; [|discriminate]. injection M as <-.
    destruct (rel_get _ _ _ _ _ R Gx) as (w & Ew & -> & Tw). cbn [bind]. destruct (rel_live _ _ _ _ _ R Ew) as (_ & Gw & Iw & _).
    destruct (poke_done _ w _ i c t Iw Gw (eq_sym Tw) Hi) as (h' & w' & E' & I' & K' & G' & T' & Z').
    destruct (unique (hp s) w) as [[h1 w1]| |]; try discriminate. cbn [bind] in E' |- *. destruct (wstr w1) as [|b o|]; try discriminate.
    destruct (write_data h1 b (o + i) [c]) as [h2| |]; try discriminate. cbn [bind set] in E' |- *. injection E' as -> ->.
    eexists. split; [reflexivity|]. eapply rel_update; [exact R|exact Ew|exact I'|assumption|assumption|exact T'|].
    intros Hz. destruct Z' as [Z'| ->]; [assumption|]. apply (Zv x w Ew Hz).
  - destruct (Nat.leb_spec (length t) n) as [Hn|Hn]; [|discriminate]. destruct (is_live e x) eqn:L; [|discriminate]. injection M as <-.
    destruct (is_live_get _ _ L) as (vx & Gx). destruct (rel_get _ _ _ _ _ R Gx) as (w & Ew & -> & _). cbn [bind].
    destruct (rel_live _ _ _ _ _ R Ew) as (_ & Gw & Iw & _).
    destruct (fill_done _ w _ n t Iw Hc Hn) as (h' & w' & E' & I' & S' & G' & T' & Z').
    destruct (setsize (hp s) w n) as [[h1 w1]| |]; try discriminate. cbn [bind] in E' |- *.
    destruct (unique h1 w1) as [[h2 w2]| |]; try discriminate. cbn [bind] in E' |- *. destruct (wstr w2) as [|b o|]; try discriminate.
    destruct (write_data h2 b o (t ++ [nul])) as [h3| |]; try discriminate. cbn [bind set] in E' |- *. injection E' as -> ->.
    eexists. split; [reflexivity|]. eapply rel_update; [exact R|exact Ew|exact I'|apply keep_same; assumption|assumption|exact T'|intros _; assumption].
  - destruct (get e x) as [u|] eqn:Gx; [|discriminate]. destruct (get e y) as [v|] eqn:Gy; [|destruct u; discriminate].
    destruct (rel_get _ _ _ _ _ R Gx) as (w & Ew & -> & Tw). cbn [bind].
    destruct (rel_get _ _ _ _ _ R Gy) as (u' & Eu & -> & Tv). cbn [bind].
    destruct (rel_live _ _ _ _ _ R Ew) as (_ & Gw & Iw & _). destruct (rel_live _ _ _ _ _ R Eu) as (_ & Gu & _ & _).
    assert (Hin : In u' (w :: refs (setnth (env s) x None))).
    { destruct (Nat.eq_dec x y) as [<-|Hxy]; [left; congruence|right; apply (refs_other _ _ _ _ Hxy Eu)]. }
    destruct v as [t|].
    + destruct u as [u|].
      * injection M as <-. destruct (append_done _ w _ u' u t Iw Gw Hin Gu (eq_sym Tw) (eq_sym Tv)) as (h' & w' & -> & I' & S' & G' & T' & Z').
        eexists. split; [reflexivity|]. eapply rel_update; [exact R|exact Ew|exact I'|apply keep_same; assumption|assumption|exact T'|intros _; assumption].
      * injection M as <-. unfold append.
        rewrite (string_at_ok (hp s) _ _ Iw (pgood_pok (hp s) (w :: refs (setnth (env s) x None)) u' Hin Gu)). cbn [bind]. rewrite <- Tv.
        rewrite (string_at_ok (hp s) _ _ Iw (pgood_pok (hp s) (w :: refs (setnth (env s) x None)) w (or_introl eq_refl) Gw)). cbn [bind]. rewrite <- Tw.
        assert (Hxy : x <> y) by (intros <-; congruence).
        destruct (assign_done _ _ _ u' Iw (refs_other _ _ _ _ Hxy Eu) Gu Gw) as (h' & w' & -> & I' & S' & G' & T' & ->).
        eexists. split; [reflexivity|]. eapply rel_update; [exact R|exact Ew|exact I'|apply keep_same; assumption|assumption|congruence|apply (Zv y u' Eu)].
    + assert (e' = put e x u) as -> by (destruct u; injection M as <-; reflexivity).
      unfold append. rewrite (string_at_ok (hp s) _ _ Iw (pgood_pok (hp s) (w :: refs (setnth (env s) x None)) u' Hin Gu)). cbn [bind]. rewrite <- Tv.
      eexists. split; [reflexivity|]. eapply rel_update; [exact R|exact Ew|exact Iw|apply keep_refl|assumption|congruence|apply (Zv x w Ew)].
Qed.

Lemma run_ok z : forall ops s e e', Rel z s e -> Forall c_string ops -> Forall far ops -> Forall (allowed z) ops ->
  meanings e ops = Some e' -> exists s', run s ops = Ok s' /\ Rel z s' e'.
Proof.
  induction ops as [|o ops IH]; intros s e e' R Hc Hf Ha M; cbn [meanings run] in *.
  - injection M as <-. exists s. split; [reflexivity|assumption].
  - destruct (meaning e o) as [e1|] eqn:E; [|discriminate].
    destruct (step_ok z s e o e1 R (Forall_inv Hc) (Forall_inv Hf) (Forall_inv Ha) E) as (s1 & -> & R1). cbn [bind].
    apply (IH s1 e1 e' R1 (Forall_inv_tail Hc) (Forall_inv_tail Hf) (Forall_inv_tail Ha) M).
Qed.

Lemma rel_text z s e x : Rel z s e -> match get e x with Some v => text s x = Ok v | None => var s x = Fault end.
Proof.
  intros R. destruct (get e x) as [v|] eqn:G.
  - destruct (rel_get _ _ _ _ _ R G) as (w & Ew & Ev & ->). destruct (rel_live _ _ _ _ _ R Ew) as (_ & Gw & _ & Hin).
    unfold text. rewrite Ev. cbn [bind]. eapply string_at_ok; [exact (rel_inv _ _ _ R)|]. apply pgood_pok; assumption.
  - unfold var. destruct (nth_error (env s) x) as [[w|]|] eqn:E; try reflexivity. exfalso.
    pose proof (rel_val _ _ _ R x _ E) as H. unfold get in G. rewrite H in G. discriminate.
Qed.

Lemma cow_ok k ops e' : Forall c_string ops -> Forall far ops ->
  (Forall (fun o => uses_offset o = false) ops \/ Forall (fun o => own_tail o = false) ops) ->
  meanings (repeat None k) ops = Some e' ->
  exists s, run (init k) ops = Ok s /\ forall x v, get e' x = Some v -> text s x = Ok v.
Proof.
  intros Hc Hf [Ha|Ha] M.
  - destruct (run_ok true ops (init k) _ e' (rel_init true k) Hc Hf Ha M) as (s & E & R). exists s. split; [assumption|].
    intros x v G. pose proof (rel_text _ _ _ x R) as T. rewrite G in T. exact T.
  - destruct (run_ok false ops (init k) _ e' (rel_init false k) Hc Hf Ha M) as (s & E & R). exists s. split; [assumption|].
    intros x v G. pose proof (rel_text _ _ _ x R) as T. rewrite G in T. exact T.
Qed.

(** ** No leaks: a buffer nobody counts has been freed *)
Definition tidy (n : option nat) (h : heap) : Prop :=
  forall b c, nth_error h b = Some c -> alive c = true -> n = Some b \/ 0 < links c.
Lemma tidy_set n h b c : tidy n h -> (alive c = true -> n = Some b \/ 0 < links c) -> tidy n (setnth h b c).
Proof.
  intros T Hc b1 c1 E A. destruct (Nat.eq_dec b b1) as [<-|Hn].
  - destruct (nth_error h b) as [c0|] eqn:E0.
    + rewrite (setnth_same _ _ _ _ E0) in E. injection E as <-. apply Hc. assumption.
    + apply nth_error_None in E0. assert (nth_error (setnth h b c) b = None) by (apply nth_error_None; rewrite setnth_length; lia). congruence.
  - rewrite setnth_other in E by assumption. eapply T; eassumption.
Qed.
Lemma getcell_some h b c : getcell h b = Ok c -> nth_error h b = Some c /\ alive c = true.
Proof. unfold getcell. destruct (nth_error h b) as [c0|]; [|discriminate]. destruct (alive c0) eqn:A; [|discriminate]. intros [= <-]. split; [reflexivity|assumption]. Qed.
Lemma unlink_tidy n h w h' : tidy n h -> unlink h w = Ok h' -> tidy n h'.
Proof.
  intros T. unfold unlink. destruct (wbuf w) as [b|]; [|solve [intros [= <-]; assumption | intros [= <- <-]; assumption | congruence | injection H as <- <-; assumption]]. destruct (getcell h b) as [c| |] eqn:E; try discriminate. cbn [bind].
  destruct ((b =? nullbuf) && (links c =? 1)); [discriminate|]. intros [= <-]. apply tidy_set; [assumption|]. cbn. intros H. right.
  destruct (Nat.eqb_spec (links c - 1) 0); [discriminate|lia].
Qed.
Lemma link_tidy n h b p h' w' : tidy n h -> link h b p = Ok (h', w') -> tidy n h'.
Proof.
  intros T. unfold link. destruct b as [b|]; [|solve [intros [= <-]; assumption | intros [= <- <-]; assumption | congruence | injection H as <- <-; assumption]]. destruct (getcell h b) as [c| |] eqn:E; try discriminate. cbn [bind].
  intros [= <- <-]. apply tidy_set; [assumption|]. cbn. lia.
Qed.
Lemma link_tidy_new h b p h' w' : tidy (Some b) h -> link h (Some b) p = Ok (h', w') -> tidy None h'.
Proof.
  intros T. unfold link. destruct (getcell h b) as [c| |] eqn:E; try discriminate. cbn [bind]. apply getcell_some in E. destruct E as [E _].
  intros [= <- <-]. intros b1 c1 E1 A. right. destruct (Nat.eq_dec b b1) as [<-|Hn].
  - rewrite (setnth_same _ _ _ _ E) in E1. injection E1 as <-. cbn. lia.
  - rewrite setnth_other in E1 by assumption. destruct (T _ _ E1 A); [congruence|assumption].
Qed.
Lemma write_tidy n h b o s h' : tidy n h -> write_data h b o s = Ok h' -> tidy n h'.
Proof.
  intros T. unfold write_data. destruct (getcell h b) as [c| |] eqn:E; try discriminate. cbn [bind]. apply getcell_some in E. destruct E as [E A].
  destruct (store_seq (data c) o s); [|discriminate]. cbn [of_opt bind]. intros [= <-]. apply tidy_set; [assumption|]. intros _. cbn. eapply T; eassumption.
Qed.
Lemma alloc_tidy h n : tidy None h -> tidy (Some (length h)) (fst (alloc h n)).
Proof.
  intros T b c E A. cbn [fst alloc] in E. destruct (Nat.lt_ge_cases b (length h)) as [Hb|Hb].
  - rewrite nth_error_app1 in E by assumption. destruct (T _ _ E A); [discriminate|right; assumption].
  - left. f_equal. assert (b < length (h ++ [{| data := calloc (room n); links := 0; alive := true |}])) by (apply nth_error_Some; congruence).
    rewrite app_length in *. cbn in *. lia.
Qed.
Lemma newbuf_tidy h n : tidy None h -> tidy None (fst (newbuf h n)).
Proof.
  intros T b c E A. cbn [fst newbuf] in E. right. destruct (Nat.lt_ge_cases b (length h)) as [Hb|Hb].
  - rewrite nth_error_app1 in E by assumption. destruct (T _ _ E A); [discriminate|assumption].
  - rewrite nth_error_app2 in E by assumption. destruct (b - length h) as [|[|]]; try discriminate. injection E as <-. cbn. lia.
Qed.
Ltac dres H E :=
  match type of H with (bind ?m _) = _ => destruct m as [?r| |] eqn:E; try discriminate; cbn [bind] in H end.
Lemma unique_tidy h w h' w' : tidy None h -> unique h w = Ok (h', w') -> tidy None h'.
Proof.
  intros T. unfold unique. destruct (wbuf w); [|discriminate]. intros H. dres H E1. destruct (links r <=? 1); [solve [intros [= <-]; assumption | intros [= <- <-]; assumption | congruence | injection H as <- <-; assumption]|].
  dres H E2. destruct r0 as [t|]; [|solve [intros [= <-]; assumption | intros [= <- <-]; assumption | congruence | injection H as <- <-; assumption]]. destruct (alloc h (length t)) as [h1 m] eqn:Ea.
  pose proof (alloc_tidy h (length t) T) as T1. rewrite Ea in T1. cbn [fst] in T1. assert (m = length h) as -> by (unfold alloc in Ea; congruence).
  dres H E3. dres H E4. eapply link_tidy_new; [|exact H]. eapply unlink_tidy; [|exact E4]. eapply write_tidy; [|exact E3]. assumption.
Qed.
Lemma assign_tidy h w v h' w' : tidy None h -> assign h w v = Ok (h', w') -> tidy None h'.
Proof.
  intros T H. unfold assign in H.
  assert (C : forall p, (let! h := unlink h w in let! (h, w) := link h (Some nullbuf) p in unique h w) = Ok (h', w') -> tidy None h').
  { clear H. intros p H. dres H E1. dres H E2. destruct r0 as [h2 w2]. cbn [bind] in H. eapply unique_tidy; [|exact H]. eapply link_tidy; [|exact E2].
    eapply unlink_tidy; eassumption. }
  destruct (ptr_eqb (wstr v) (wstr w) && _); [solve [intros [= <-]; assumption | intros [= <- <-]; assumption | congruence | injection H as <- <-; assumption]|].
  destruct (wbuf v) as [b|].
  - dres H E1. eapply link_tidy; [|exact H]. eapply unlink_tidy; eassumption.
  - destruct (wbuf w) as [b|]; [|apply (C _ H)]. destruct (wstr w); try apply (C _ H). dres H E1.
    destruct ((links r =? 1) && _); [|apply (C _ H)]. dres H E2. destruct r0 as [t|]; [|discriminate]. dres H E3.
    injection H as <- <-. eapply write_tidy; eassumption.
Qed.
Lemma assign_in_tidy h w p n h' w' : tidy None h -> assign_in h w p n = Ok (h', w') -> tidy None h'.
Proof.
  intros T. unfold assign_in. destruct (overlaps_other w p); [destruct n|]; try (apply assign_tidy; assumption).
  intros H. dres H E. eapply assign_tidy; eassumption.
Qed.
Lemma new_default_tidy h h' w' : tidy None h -> new_default h = Ok (h', w') -> tidy None h'.
Proof. intros T. apply link_tidy. assumption. Qed.
Lemma new_cstr_tidy h p h' w' : tidy None h -> new_cstr h p = Ok (h', w') -> tidy None h'.
Proof.
  intros T H. unfold new_cstr in H. dres H E1. destruct r as [h1 w1]. dres H E2. dres H E3. destruct r0 as [h3 w3].
  eapply unique_tidy; [|exact H]. eapply link_tidy; [|exact E3]. eapply unlink_tidy; [|exact E2]. eapply new_default_tidy; eassumption.
Qed.
Lemma copy_construct_tidy h v h' w' : tidy None h -> copy_construct h v = Ok (h', w') -> tidy None h'.
Proof.
  intros T H. unfold copy_construct in H. dres H E1. destruct r as [h1 w1]. dres H E2.
  assert (T2 : tidy None r) by (eapply unlink_tidy; [|exact E2]; eapply new_default_tidy; eassumption).
  destruct (wbuf v); [eapply link_tidy; eassumption|]. dres H E3. destruct r0 as [h3 w3]. eapply unique_tidy; [|exact H]. eapply link_tidy; eassumption.
Qed.
Lemma offset_tidy h v i h' w' : tidy None h -> offset h v i = Ok (h', w') -> tidy None h'.
Proof. intros T H. unfold offset in H. dres H E1. destruct r as [h1 w1]. dres H E2. injection H as <- <-. eapply link_tidy; eassumption. Qed.
Lemma append_tidy h w v h' w' : tidy None h -> append h w v = Ok (h', w') -> tidy None h'.
Proof.
  intros T H. unfold append in H. dres H E1. destruct r as [t|]; [|solve [intros [= <-]; assumption | intros [= <- <-]; assumption | congruence | injection H as <- <-; assumption]]. dres H E2. destruct r as [u|]; [|eapply assign_tidy; eassumption].
  pose proof (newbuf_tidy h (length (u ++ t)) T) as T1. unfold newbuf in H, T1. cbn [fst wbuf] in H, T1. dres H E3. dres H E4.
  destruct r0 as [h4 w4]. dres H E5. injection H as <- <-. eapply unlink_tidy; [|exact E5]. eapply assign_tidy; [|exact E4]. eapply write_tidy; eassumption.
Qed.
Lemma step_tidy s o s' : tidy None (hp s) -> step s o = Ok s' -> tidy None (hp s').
Proof.
  intros T H. destruct o; cbn [step] in H; unfold set in H;
    repeat (first [ progress (cbn [bind] in H)
      | match type of H with (bind ?m _) = _ =>
          let E := fresh "E" in let r := fresh "r" in destruct m as [r| |] eqn:E; try discriminate; try (match type of r with prod _ _ => destruct r as [? ?] end); cbn [bind] in H end
      | match type of H with (match ?m with PNull => _ | _ => _ end) = _ => destruct m; try discriminate end ]);
    repeat match goal with
      | E : (let! _ := _ in _) = Ok _ |- _ => idtac
      end;
    injection H as <-; cbn [hp];
    repeat match goal with
      | T : tidy None ?h, E : new_default ?h = Ok (?k, _) |- _ => lazymatch goal with _ : tidy None k |- _ => fail | _ => pose proof (new_default_tidy _ _ _ T E) end
      | T : tidy None ?h, E : new_cstr ?h _ = Ok (?k, _) |- _ => lazymatch goal with _ : tidy None k |- _ => fail | _ => pose proof (new_cstr_tidy _ _ _ _ T E) end
      | T : tidy None ?h, E : copy_construct ?h _ = Ok (?k, _) |- _ => lazymatch goal with _ : tidy None k |- _ => fail | _ => pose proof (copy_construct_tidy _ _ _ _ T E) end
      | T : tidy None ?h, E : offset ?h _ _ = Ok (?k, _) |- _ => lazymatch goal with _ : tidy None k |- _ => fail | _ => pose proof (offset_tidy _ _ _ _ _ T E) end
      | T : tidy None ?h, E : unlink ?h _ = Ok ?k |- _ => lazymatch goal with _ : tidy None k |- _ => fail | _ => pose proof (unlink_tidy _ _ _ _ T E) end
      | T : tidy None ?h, E : assign ?h _ _ = Ok (?k, _) |- _ => lazymatch goal with _ : tidy None k |- _ => fail | _ => pose proof (assign_tidy _ _ _ _ _ T E) end
      | T : tidy None ?h, E : assign_in ?h _ _ _ = Ok (?k, _) |- _ => lazymatch goal with _ : tidy None k |- _ => fail | _ => pose proof (assign_in_tidy _ _ _ _ _ _ T E) end
      | T : tidy None ?h, E : unique ?h _ = Ok (?k, _) |- _ => lazymatch goal with _ : tidy None k |- _ => fail | _ => pose proof (unique_tidy _ _ _ _ T E) end
      | T : tidy None ?h, E : write_data ?h _ _ _ = Ok ?k |- _ => lazymatch goal with _ : tidy None k |- _ => fail | _ => pose proof (write_tidy _ _ _ _ _ _ T E) end
      | T : tidy None ?h, E : append ?h _ _ = Ok (?k, _) |- _ => lazymatch goal with _ : tidy None k |- _ => fail | _ => pose proof (append_tidy _ _ _ _ _ T E) end
      | T : tidy None ?h, E : setsize ?h _ _ = Ok (?k, _) |- _ => lazymatch goal with _ : tidy None k |- _ => fail | _ => assert (tidy None k) by (unfold setsize in E; dres E E9; injection E as <- _; eapply (newbuf_tidy _ _ (unlink_tidy _ _ _ _ T E9))) end
      end; try assumption.
Qed.
Lemma run_tidy : forall ops s s', tidy None (hp s) -> run s ops = Ok s' -> tidy None (hp s').
Proof.
  induction ops as [|o ops IH]; intros s s' T H; cbn [run] in H; [injection H as <-; assumption|]. dres H E. eapply IH; [|exact H]. eapply step_tidy; eassumption.
Qed.

(** when every string is gone every buffer has been freed *)
Lemma no_leak z s e : Rel z s e -> (forall x, get e x = None) -> tidy None (hp s) ->
  forall b c, nth_error (hp s) b = Some c -> b <> 0 -> alive c = false.
Proof.
  intros R He T b c E Hb. destruct (alive c) eqn:Ha; [exfalso|reflexivity]. destruct (T b c E Ha) as [X|X]; [discriminate|]. revert X. apply Nat.le_ngt. apply Nat.eq_le_incl. destruct (inv_links _ _ (rel_inv _ _ _ R) b c E) as (Hl & _).
  destruct (Nat.eqb_spec b 0); [contradiction|]. rewrite Hl, Nat.add_0_r.
  assert (H0 : refs (env s) = []).
  { destruct (refs (env s)) as [|w l] eqn:Er; [reflexivity|]. exfalso.
    destruct (in_refs (env s) w) as (x & Ex); [rewrite Er; left; reflexivity|].
    specialize (He x). unfold get in He. rewrite (rel_val _ _ _ R x _ Ex) in He. discriminate. }
  rewrite H0. reflexivity.
Qed.

Lemma cow_no_leak k ops e' : Forall c_string ops -> Forall far ops ->
  (Forall (fun o => uses_offset o = false) ops \/ Forall (fun o => own_tail o = false) ops) ->
  meanings (repeat None k) ops = Some e' -> (forall x, get e' x = None) ->
  exists s, run (init k) ops = Ok s /\ forall b c, b <> nullbuf -> nth_error (hp s) b = Some c -> alive c = false.
Proof.
  intros Hc Hf Ha M He.
  assert (T0 : tidy None (hp (init k))).
  { intros [|[|b]] c E A; cbn in E; try discriminate. injection E as <-. right. cbn. lia. }
  destruct Ha as [Ha|Ha].
  - destruct (run_ok true ops (init k) _ e' (rel_init true k) Hc Hf Ha M) as (s & E & R). exists s. split; [assumption|].
    intros b c Hb Eb. eapply (no_leak _ _ _ R He (run_tidy _ _ _ T0 E)); eassumption.
  - destruct (run_ok false ops (init k) _ e' (rel_init false k) Hc Hf Ha M) as (s & E & R). exists s. split; [assumption|].
    intros b c Hb Eb. eapply (no_leak _ _ _ R He (run_tidy _ _ _ T0 E)); eassumption.
Qed.
