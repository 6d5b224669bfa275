(** Proofs about keys as values. *)
From Coq Require Import ZifyBool ZifyNat.
From Verif Require Import Base BaseFacts Ctype SplitModel SplitSpec SplitProofs KeyModel KeySpec.
Local Open Scope nat_scope.

(* ---- parsing *)

Lemma chunks_ne s : chunks s <> [].
Proof. destruct s as [|c s]; cbn; [discriminate|]. destruct (Ascii.eqb c "/"); [discriminate|]. destruct (chunks s); discriminate. Qed.

Lemma chunks_cons_slash r : chunks (slash :: r) = [] :: chunks r.
Proof. reflexivity. Qed.

Lemma chunks_free : forall s, Forall (free_of [slash]) (chunks s).
Proof.
  induction s as [|c s IH]; cbn [chunks].
  - constructor; [intros x []|constructor].
  - destruct (Ascii.eqb_spec c "/") as [->|N].
    + constructor; [intros x []|exact IH].
    + pose proof (chunks_ne s) as Ne. destruct (chunks s) as [|h t]; [congruence|]. inversion IH as [|? ? Fh Ft]; subst.
      constructor; [|exact Ft]. intros x [<-|Hx]; [intros [E|[]]; apply N; symmetry; exact E|auto].
Qed.

Lemma chunks_text : forall s, interleaved (chunks s) (repeat [slash] (length (chunks s) - 1)) = s.
Proof.
  induction s as [|c s IH]; cbn [chunks]; [reflexivity|].
  destruct (Ascii.eqb_spec c "/") as [->|N].
  - pose proof (chunks_ne s) as Ne. destruct (chunks s) as [|h t]; [congruence|].
    cbn [length Nat.sub] in IH |- *. rewrite Nat.sub_0_r in IH. cbn [repeat].
    change (interleaved ([] :: h :: t) ([slash] :: repeat [slash] (length t))) with (slash :: interleaved (h :: t) (repeat [slash] (length t))).
    rewrite IH. reflexivity.
  - pose proof (chunks_ne s) as Ne. destruct (chunks s) as [|h t]; [congruence|].
    cbn [length Nat.sub] in IH |- *. rewrite Nat.sub_0_r in *.
    destruct t as [|h2 t]; cbn [length repeat interleaved app] in *; rewrite IH; reflexivity.
Qed.

Lemma Forall_removelast {A} (P : A -> Prop) l : Forall P l -> Forall P (List.removelast l).
Proof. induction 1 as [|x l Hx Hl IH]; cbn; [constructor|]. destruct l; [constructor|constructor; assumption]. Qed.
Lemma Forall_last {A} (P : A -> Prop) l d : l <> [] -> Forall P l -> P (last l d).
Proof.
  intros Ne F. destruct (exists_last Ne) as (l' & x & ->). rewrite last_last.
  rewrite Forall_app in F. destruct F as [_ F]. inversion F; assumption.
Qed.

Lemma chunks_strict s limit : (limit <= 0)%Z -> strict_fields [slash] limit s (chunks s).
Proof.
  intros Hl. pose proof (chunks_ne s) as Ne. repeat split; auto.
  - intros ?; lia.
  - exists (repeat [slash] (length (chunks s) - 1)). split; [|split].
    + rewrite repeat_length. destruct (chunks s); [congruence|cbn; lia].
    + symmetry. apply chunks_text.
    + apply Forall_forall. intros d Hd. apply repeat_spec in Hd. exists slash. split; [exact Hd|left; reflexivity].
  - apply Forall_removelast, chunks_free.
  - left. apply Forall_last; [exact Ne|apply chunks_free].
Qed.

Lemma split_chunks s : nul_free s -> split [] (Some s) [slash] 0 = Ok (kept (chunks s)).
Proof.
  intros Hn. destruct (split_ok [] s [slash] 0 Hn) as (l & E & F). rewrite E. cbn [app]. f_equal.
  apply (run_unique [slash] _ _ 0 s F). apply kept_ok; [lia|]. apply chunks_strict. lia.
Qed.

Lemma filter_filter {A} (f : A -> bool) l : filter f (filter f l) = filter f l.
Proof. induction l as [|x l IH]; cbn; [reflexivity|]. destruct (f x) eqn:E; cbn; rewrite ?E, IH; reflexivity. Qed.

Lemma filter_kept f : filter not_empty (kept f) = filter not_empty f.
Proof.
  destruct f as [|p [|q r]]; try reflexivity.
  change (kept (p :: q :: r)) with (p :: filter not_empty (List.removelast (q :: r)) ++ [last (q :: r) []]).
  cbn [filter]. rewrite filter_app, filter_filter, <- filter_app.
  rewrite <- (app_removelast_last [] (l := q :: r)) by discriminate. reflexivity.
Qed.

Lemma last_kept f : f <> [] -> last (kept f) [] = last f [].
Proof.
  intros Ne. destruct f as [|p [|q r]]; try reflexivity.
  change (kept (p :: q :: r)) with ((p :: filter not_empty (List.removelast (q :: r))) ++ [last (q :: r) []]).
  rewrite last_last. reflexivity.
Qed.

Lemma kept_ne f : f <> [] -> kept f <> [].
Proof. destruct f as [|p [|q r]]; [congruence|discriminate..]. Qed.

Lemma last_chunk : forall s, Ascii.eqb (last s nul) "/" = true -> last (chunks s) [] = [].
Proof.
  induction s as [|c s IH]; cbn [chunks]; intros H; [reflexivity|].
  pose proof (chunks_ne s) as Ne.
  destruct s as [|d s].
  - cbn in H. rewrite H. reflexivity.
  - rewrite last_cons in H by discriminate. specialize (IH H).
    destruct (Ascii.eqb c "/"); [rewrite last_cons by exact Ne; exact IH|].
    destruct (chunks (d :: s)) as [|h t] eqn:E; [congruence|].
    destruct t as [|h2 t]; [|rewrite last_cons in IH |- * by discriminate; exact IH].
    cbn [last] in IH. subst h. exfalso.
    assert (In slash (d :: s)).
    { clear - H. assert (L : In (last (d :: s) nul) (d :: s)).
      { destruct (exists_last (l := d :: s)) as (l' & x & E); [discriminate|]. rewrite E, last_last, in_app_iff. right; left; reflexivity. }
      apply Ascii.eqb_eq in H. rewrite H in L. exact L. }
    pose proof (chunks_text (d :: s)) as T. rewrite E in T. cbn in T. discriminate T.
Qed.

Lemma put_all_ok : forall parts vec used, used <= length vec ->
  used + length (filter not_empty parts) <= length vec ->
  exists vec', put_all vec used parts = Ok (vec', used + length (filter not_empty parts)) /\
    length vec' = length vec /\
    firstn (used + length (filter not_empty parts)) vec' = firstn used vec ++ filter not_empty parts.
Proof.
  induction parts as [|p parts IH]; intros vec used Hu Hl; cbn [put_all filter] in *.
  - exists vec. rewrite Nat.add_0_r, app_nil_r. auto.
  - destruct p as [|c p]; cbn [isnil not_empty] in *; [apply IH; assumption|].
    unfold put. destruct (Nat.ltb_spec used (length vec)); [|cbn [length] in Hl; lia]. cbn [bind].
    set (v := firstn used vec ++ (c :: p) :: skipn (S used) vec).
    assert (Lv : length v = length vec).
    { unfold v. rewrite app_length, firstn_length. cbn [length]. rewrite skipn_length. lia. }
    destruct (IH v (S used)) as (vec' & E & L & F); [lia|cbn [length] in Hl; lia|].
    exists vec'. cbn [length]. rewrite <- plus_n_Sm. cbn [Nat.add] in E, F. rewrite E. split; [reflexivity|]. split; [lia|].
    rewrite F. change ((c :: p) :: filter not_empty parts) with ([c :: p] ++ filter not_empty parts).
    rewrite app_assoc. f_equal. unfold v. change (S used) with (1 + used) at 1. 
    replace (1 + used) with (length (firstn used vec ++ [c :: p])) by (rewrite app_length, firstn_length; cbn [length]; lia).
    replace (firstn used vec ++ (c :: p) :: skipn (S used) vec) with ((firstn used vec ++ [c :: p]) ++ skipn (S used) vec) by (rewrite <- app_assoc; reflexivity).
    apply firstn_app_len. reflexivity.
Qed.

Lemma filter_length_lt {A} (f : A -> bool) l d : l <> [] -> f (last l d) = false -> length (filter f l) < length l.
Proof.
  intros Ne H. destruct (exists_last Ne) as (l' & x & ->). rewrite last_last in H.
  rewrite filter_app, !app_length. cbn [filter length]. rewrite H.
  assert (length (filter f l') <= length l') by (clear; induction l' as [|y l IH]; cbn; [lia|destruct (f y); cbn; lia]).
  cbn [length]. lia.
Qed.
Lemma filter_length_le {A} (f : A -> bool) l : length (filter f l) <= length l.
Proof. induction l as [|y l IH]; cbn; [lia|destruct (f y); cbn; lia]. Qed.

Lemma make_store_ok size s : nul_free s ->
  exists vec used, make_store size (Some s) = Ok (vec, used) /\ firstn used vec = path_key s /\
    used = length (path_key s) /\ size <= length vec /\ used <= length vec.
Proof.
  intros Hn. destruct s as [|c s].
  - exists (repeat [] size), 0. rewrite repeat_length. repeat split; cbn; auto; lia.
  - unfold make_store. rewrite split_chunks by exact Hn. cbn [bind].
    set (parts := kept (chunks (c :: s))).
    assert (Ep : filter not_empty parts = segments (c :: s)) by apply filter_kept.
    destruct (put_all_ok parts (repeat [] (Nat.max size (length parts))) 0) as (vec & E & L & F).
    { lia. } { rewrite repeat_length. pose proof (filter_length_le not_empty parts). lia. }
    rewrite E. cbn [bind]. rewrite repeat_length in L. rewrite Ep in *. cbn [Nat.add] in *. cbn [firstn app] in F.
    set (n := length (segments (c :: s))) in *.
    pose proof (filter_length_le not_empty parts) as Hle. rewrite Ep in Hle. fold n in Hle.
    unfold path_key. change slash with "/"%char.
    replace (0 <? n) with (negb (length (segments (c :: s)) =? 0)) by (fold n; destruct n; reflexivity).
    destruct (Ascii.eqb (last (c :: s) nul) "/" && negb (length (segments (c :: s)) =? 0)) eqn:Et.
    + apply andb_prop in Et. destruct Et as [Et1 Et2].
      assert (Hlt : n < length parts).
      { unfold n. rewrite <- Ep. apply (filter_length_lt _ _ []); [apply kept_ne, chunks_ne|].
        unfold parts. rewrite last_kept by apply chunks_ne. rewrite last_chunk by exact Et1. reflexivity. }
      unfold put. destruct (Nat.ltb_spec n (length vec)); [|lia]. cbn [bind].
      eexists _, _. split; [reflexivity|].
      assert (E2 : firstn n vec ++ [] :: skipn (S n) vec = (segments (c :: s) ++ [[]]) ++ skipn (S n) vec).
      { rewrite F, <- app_assoc. reflexivity. }
      rewrite E2. split; [apply firstn_app_len; rewrite app_length; cbn [length]; unfold n; lia|].
      split; [rewrite app_length; cbn [length]; fold n; lia|].
      rewrite !app_length, skipn_length. cbn [length]. fold n. lia.
    + eexists _, _. split; [reflexivity|]. split; [exact F|]. split; [reflexivity|]. lia.
Qed.

Lemma parse_ok s : nul_free s -> parse (Some s) = Ok (path_key s).
Proof.
  intros Hn. unfold parse. destruct (make_store_ok 4 s Hn) as (vec & used & -> & F & _). cbn [bind]. rewrite F. reflexivity.
Qed.

Lemma chunks_nul s : nul_free s -> Forall nul_free (chunks s).
Proof.
  intros Hn. eapply pieces_nul_free; [|symmetry; apply chunks_text|exact Hn].
  rewrite repeat_length. pose proof (chunks_ne s). destruct (chunks s); [congruence|cbn; lia].
Qed.

Lemma segments_plain s : nul_free s -> Forall plain (segments s).
Proof.
  intros Hn. apply Forall_forall. intros p Hp. unfold segments in Hp. apply filter_In in Hp. destruct Hp as [Hp Hq].
  pose proof (chunks_free s) as F. rewrite Forall_forall in F. specialize (F p Hp).
  pose proof (chunks_nul s Hn) as G. rewrite Forall_forall in G. specialize (G p Hp).
  split; [destruct p; [discriminate|discriminate]|]. split; [|exact G].
  intros H. apply (F "/"%char H). left; reflexivity.
Qed.

Lemma path_key_canonical s : nul_free s -> canonical (path_key s).
Proof.
  intros Hn. pose proof (segments_plain s Hn) as F. unfold path_key.
  destruct (Ascii.eqb (last s nul) "/" && negb (length (segments s) =? 0)) eqn:E; [|left; exact F].
  right. exists (segments s). split; [|split; [exact F|reflexivity]].
  intros H. rewrite H in E. rewrite andb_false_r in E. discriminate.
Qed.

(* ---- printing and parsing back *)

Lemma chunks_plain_app p r : ~ In "/"%char p ->
  chunks (p ++ r) = match chunks r with h :: t => (p ++ h) :: t | [] => [p] end.
Proof.
  induction p as [|c p IH]; intros H; cbn [app chunks].
  - pose proof (chunks_ne r). destruct (chunks r); [congruence|reflexivity].
  - destruct (Ascii.eqb_spec c "/") as [->|N]; [exfalso; apply H; left; reflexivity|].
    rewrite IH by (intros Hx; apply H; right; exact Hx). destruct (chunks r); reflexivity.
Qed.

Lemma chunks_print : forall k, k <> [] -> Forall (fun p => ~ In "/"%char p) k -> chunks (print_loop k) = k.
Proof.
  induction k as [|p k IH]; intros Ne F; [congruence|]. inversion F as [|? ? Hp Fk]; subst.
  destruct k as [|q k].
  - cbn [print_loop]. rewrite <- (app_nil_r p) at 1. rewrite chunks_plain_app by exact Hp. cbn. rewrite app_nil_r. reflexivity.
  - change (print_loop (p :: q :: k)) with (p ++ [slash] ++ print_loop (q :: k)).
    rewrite chunks_plain_app by exact Hp. cbn [app]. rewrite chunks_cons_slash. rewrite app_nil_r. f_equal.
    apply IH; [discriminate|exact Fk].
Qed.

Lemma printable_loop k : printable k = print_loop k.
Proof. destruct k as [|p [|q k]]; reflexivity. Qed.

Lemma filter_plain k : Forall plain k -> filter not_empty k = k.
Proof.
  induction 1 as [|p k (Hp & _) Hk IH]; [reflexivity|]. cbn. destruct p; [congruence|]. cbn. rewrite IH. reflexivity.
Qed.

Lemma print_last : forall k, k <> [] -> last k [] <> [] -> last (print_loop k) nul = last (last k []) nul.
Proof.
  induction k as [|p k IH]; intros Ne H; [congruence|]. destruct k as [|q k]; [reflexivity|].
  rewrite last_cons in * by discriminate.
  change (print_loop (p :: q :: k)) with (p ++ [slash] ++ print_loop (q :: k)).
  rewrite <- IH by (auto; discriminate).
  assert (N : print_loop (q :: k) <> []).
  { intros E. destruct k as [|r k]; cbn in E, H; [contradiction|]. destruct q; discriminate E. }
  rewrite app_assoc. destruct (exists_last N) as (l & x & ->). rewrite app_assoc, !last_last. reflexivity.
Qed.

Lemma last_in {A} (l : list A) d : l <> [] -> In (last l d) l.
Proof.
  intros Ne. destruct (exists_last Ne) as (l' & x & ->). rewrite last_last, in_app_iff. right; left; reflexivity.
Qed.

Lemma plain_last k : k <> [] -> Forall plain k -> last k [] <> [] /\ Ascii.eqb (last (last k []) nul) "/" = false.
Proof.
  intros Ne F. pose proof (Forall_last _ _ [] Ne F) as (H1 & H2 & _). split; [exact H1|].
  apply Ascii.eqb_neq. intros E. apply H2. rewrite <- E. apply last_in, H1.
Qed.

Lemma print_nul k : Forall nul_free k -> nul_free (print_loop k).
Proof.
  induction 1 as [|p k Hp Hk IH]; [intros []|]. destruct k as [|q k]; [exact Hp|].
  change (print_loop (p :: q :: k)) with (p ++ [slash] ++ print_loop (q :: k)).
  rewrite !nul_free_app. repeat split; auto. unfold nul_free; cbn. intuition discriminate.
Qed.

Lemma canonical_nul k : canonical k -> Forall nul_free k.
Proof.
  assert (P : forall k, Forall plain k -> Forall nul_free k) by (intros k' H; eapply Forall_impl; [|exact H]; intros p (_ & _ & Hp); exact Hp).
  intros [F|(k' & _ & F & ->)]; [auto|]. rewrite Forall_app. split; [auto|]. constructor; [intros []|constructor].
Qed.

Lemma print_trailing : forall k, k <> [] -> print_loop (k ++ [[]]) = print_loop k ++ [slash].
Proof.
  induction k as [|p k IH]; intros Ne; [congruence|]. destruct k as [|q k]; [cbn; rewrite ?app_nil_r; reflexivity|].
  change ((p :: q :: k) ++ [[]]) with (p :: (q :: k) ++ [[]]).
  change (print_loop (p :: (q :: k) ++ [[]])) with (p ++ [slash] ++ print_loop ((q :: k) ++ [[]])).
  rewrite IH by discriminate. change (print_loop (p :: q :: k)) with (p ++ [slash] ++ print_loop (q :: k)).
  rewrite <- !app_assoc. reflexivity.
Qed.

Lemma path_key_print k : canonical k -> path_key (printable k) = k.
Proof.
  intros C. rewrite printable_loop. destruct C as [F|(k' & Ne & F & ->)].
  - destruct k as [|p k]; [reflexivity|]. unfold path_key, segments.
    rewrite chunks_print; [|discriminate|eapply Forall_impl; [|exact F]; intros q (_ & H & _); exact H].
    rewrite (filter_plain _ F). destruct (plain_last (p :: k) ltac:(discriminate) F) as [L1 L2].
    rewrite print_last by (auto; discriminate). rewrite L2. reflexivity.
  - assert (Fs : Forall (fun p => ~ In "/"%char p) (k' ++ [[]])).
    { rewrite Forall_app. split; [eapply Forall_impl; [|exact F]; intros q (_ & H & _); exact H|].
      constructor; [intros []|constructor]. }
    unfold path_key, segments. rewrite chunks_print; [|destruct k'; discriminate|exact Fs].
    rewrite filter_app, (filter_plain _ F). cbn [filter not_empty]. rewrite app_nil_r.
    rewrite print_trailing by exact Ne. rewrite last_last. change (Ascii.eqb slash "/") with true.
    destruct k' as [|p k']; [congruence|]. reflexivity.
Qed.

Lemma parse_print k : canonical k -> parse (Some (printable k)) = Ok k.
Proof.
  intros C. rewrite parse_ok; [rewrite path_key_print by exact C; reflexivity|].
  rewrite printable_loop. apply print_nul, canonical_nul, C.
Qed.

(* ---- slashes *)

Lemma segments_slash s : segments (slash :: s) = segments s.
Proof. reflexivity. Qed.

Lemma chunks_app_slash a b : chunks (a ++ slash :: b) = chunks a ++ chunks b.
Proof.
  induction a as [|c a IH]; cbn [app chunks]; [reflexivity|].
  rewrite IH. destruct (Ascii.eqb c "/"); [reflexivity|].
  pose proof (chunks_ne a). destruct (chunks a); [congruence|reflexivity].
Qed.

Lemma segments_app_slash a b : segments (a ++ slash :: b) = segments a ++ segments b.
Proof. unfold segments. rewrite chunks_app_slash, filter_app. reflexivity. Qed.

Lemma last_cons_ne {A} (x : A) l d : l <> [] -> last (x :: l) d = last l d.
Proof. destruct l; [congruence|reflexivity]. Qed.

Lemma path_key_leading s : path_key (slash :: s) = path_key s.
Proof.
  unfold path_key. rewrite segments_slash. destruct s as [|c s]; [reflexivity|].
  rewrite last_cons_ne by discriminate. reflexivity.
Qed.

Lemma last_app_ne {A} (a b : list A) d : b <> [] -> last (a ++ b) d = last b d.
Proof. intros Ne. destruct (exists_last Ne) as (l & x & ->). rewrite app_assoc, !last_last. reflexivity. Qed.

Lemma path_key_doubled a b : path_key (a ++ slash :: slash :: b) = path_key (a ++ slash :: b).
Proof.
  unfold path_key. rewrite !segments_app_slash, segments_slash.
  rewrite !(last_app_ne a) by discriminate.
  replace (last (slash :: slash :: b) nul) with (last (slash :: b) nul) by (destruct b; reflexivity). reflexivity.
Qed.

(* ---- order *)

Lemma cc_inj c d : cc c = cc d -> c = d.
Proof. unfold cc. intros H. rewrite <- (ascii_nat_embedding c), H. apply ascii_nat_embedding. Qed.

Lemma tolower_nul c : cc (tolower c) = 0 -> c = nul.
Proof.
  intros H. assert (P : (if cc (tolower c) =? 0 then Ascii.eqb c nul else true) = true).
  { apply (byte_sweep (fun c => if cc (tolower c) =? 0 then Ascii.eqb c nul else true)). vm_compute. reflexivity. }
  rewrite H in P. apply Ascii.eqb_eq. exact P.
Qed.

Lemma casecmp_eq : forall a b, nul_free a -> nul_free b -> strcasecmp a b = 0%Z <-> same_text a b.
Proof.
  unfold same_text. induction a as [|c a IH]; intros [|d b] Ha Hb; cbn [strcasecmp map].
  - tauto.
  - split; [|discriminate]. intros H. exfalso. apply Hb. left. apply tolower_nul. lia.
  - split; [|discriminate]. intros H. exfalso. apply Ha. left. apply tolower_nul. lia.
  - assert (Na : nul_free a) by (intros H; apply Ha; right; exact H).
    assert (Nb : nul_free b) by (intros H; apply Hb; right; exact H).
    destruct (Z.eqb_spec (Z.of_nat (cc (tolower c)) - Z.of_nat (cc (tolower d))) 0) as [E|E].
    + rewrite IH by assumption. assert (E2 : tolower c = tolower d) by (apply cc_inj; lia).
      rewrite E2. split; [intros ->; reflexivity|intros [= H]; exact H].
    + split; [intros H; contradiction|]. intros [= H _]. rewrite H in E. lia.
Qed.

Lemma casecmp_lt : forall a b, nul_free a -> nul_free b -> (strcasecmp a b < 0)%Z <-> text_less a b.
Proof.
  unfold text_less. induction a as [|c a IH]; intros [|d b] Ha Hb; cbn [strcasecmp].
  - split; [lia|]. inversion 1.
  - split; [constructor|]. intros _. destruct (cc (tolower d)) eqn:E; [|lia].
    exfalso. apply Hb. left. apply tolower_nul. exact E.
  - split; [lia|]. inversion 1.
  - assert (Na : nul_free a) by (intros H; apply Ha; right; exact H).
    assert (Nb : nul_free b) by (intros H; apply Hb; right; exact H).
    destruct (Z.eqb_spec (Z.of_nat (cc (tolower c)) - Z.of_nat (cc (tolower d))) 0) as [E|E].
    + rewrite IH by assumption. split.
      * intros H. apply lex_next; [apply cc_inj; lia|exact H].
      * intros H. inversion H; subst; [lia|assumption].
    + split.
      * intros H. apply lex_here. lia.
      * intros H. inversion H as [|? ? ? ? L|? ? ? ? S0]; subst; [lia|]. rewrite S0 in E. lia.
Qed.

Lemma casecmp_sgn : forall a b, nul_free a -> nul_free b -> Z.sgn (strcasecmp a b) = (- Z.sgn (strcasecmp b a))%Z.
Proof.
  induction a as [|c a IH]; intros [|d b] Ha Hb; cbn [strcasecmp]; try reflexivity.
  - lia.
  - lia.
  - destruct (Z.eqb_spec (Z.of_nat (cc (tolower c)) - Z.of_nat (cc (tolower d))) 0),
             (Z.eqb_spec (Z.of_nat (cc (tolower d)) - Z.of_nat (cc (tolower c))) 0); try lia.
    apply IH; intros H; [apply Ha|apply Hb]; right; exact H.
Qed.

Lemma compareto_eq : forall a b, Forall nul_free a -> Forall nul_free b -> compareto a b = 0%Z <-> same_key a b.
Proof.
  unfold same_key. induction a as [|s a IH]; intros [|t b] Ha Hb; cbn [compareto].
  - split; [constructor|reflexivity].
  - split; [discriminate|inversion 1].
  - split; [discriminate|inversion 1].
  - inversion Ha; inversion Hb; subst.
    pose proof (casecmp_eq s t) as C. destruct (Z.eqb_spec (strcasecmp s t) 0) as [E|E]; cbn [negb].
    + rewrite IH by assumption. split; [intros H; constructor; [apply C; assumption|exact H]|inversion 1; assumption].
    + split; [intros H; contradiction|]. inversion 1; subst. exfalso. apply E. apply C; assumption.
Qed.

Lemma compareto_lt : forall a b, Forall nul_free a -> Forall nul_free b -> (compareto a b < 0)%Z <-> key_less a b.
Proof.
  unfold key_less. induction a as [|s a IH]; intros [|t b] Ha Hb; cbn [compareto].
  - split; [lia|inversion 1].
  - split; [constructor|lia].
  - split; [lia|inversion 1].
  - inversion Ha; inversion Hb; subst.
    pose proof (casecmp_eq s t) as C. pose proof (casecmp_lt s t) as D.
    destruct (Z.eqb_spec (strcasecmp s t) 0) as [E|E]; cbn [negb].
    + rewrite IH by assumption. split; [intros H; apply lex_next; [apply C; assumption|exact H]|].
      intros HL. inversion HL as [|? ? ? ? L0|]; subst; [|assumption]. exfalso. apply D in L0; [lia|assumption..].
    + rewrite D by assumption. split; [apply lex_here|]. inversion 1; subst; [assumption|].
      exfalso. apply E. apply C; assumption.
Qed.

Lemma compareto_sgn : forall a b, Forall nul_free a -> Forall nul_free b ->
  Z.sgn (compareto a b) = (- Z.sgn (compareto b a))%Z.
Proof.
  induction a as [|s a IH]; intros [|t b] Ha Hb; cbn [compareto]; try reflexivity.
  inversion Ha; inversion Hb; subst. pose proof (casecmp_sgn s t ltac:(assumption) ltac:(assumption)) as S0.
  destruct (Z.eqb_spec (strcasecmp s t) 0), (Z.eqb_spec (strcasecmp t s) 0); cbn [negb]; try lia. apply IH; assumption.
Qed.

Lemma lex_trans {A} (less same : A -> A -> Prop) :
  (forall x y z, less x y -> less y z -> less x z) -> (forall x y z, same x y -> less y z -> less x z) ->
  (forall x y z, less x y -> same y z -> less x z) -> (forall x y z, same x y -> same y z -> same x z) ->
  forall a b c, lex less same a b -> lex less same b c -> lex less same a c.
Proof.
  intros T1 T2 T3 T4 a b c H. revert c. induction H as [y m|x y l m L|x y l m S0 H IH]; intros c Hc; inversion Hc; subst.
  - constructor.
  - constructor.
  - apply lex_here. eauto.
  - apply lex_here. eauto.
  - apply lex_here. eauto.
  - apply lex_next; eauto.
Qed.
Lemma lex_same_l {A} (less same : A -> A -> Prop) :
  (forall x y z, same x y -> less y z -> less x z) -> (forall x y z, same x y -> same y z -> same x z) ->
  forall a b, Forall2 same a b -> forall c, lex less same b c -> lex less same a c.
Proof.
  intros T1 T2 a b H. induction H as [|x y a b S0 F IH]; intros c Hc; [exact Hc|].
  inversion Hc; subst; [apply lex_here; eauto|apply lex_next; eauto].
Qed.
Lemma lex_same_r {A} (less same : A -> A -> Prop) :
  (forall x y z, less x y -> same y z -> less x z) -> (forall x y z, same x y -> same y z -> same x z) ->
  forall b c, Forall2 same b c -> forall a, lex less same a b -> lex less same a c.
Proof.
  intros T1 T2 b c H. induction H as [|x y b c S0 F IH]; intros a Ha; [exact Ha|].
  inversion Ha; subst; [constructor|apply lex_here; eauto|apply lex_next; eauto].
Qed.

Lemma same_text_F2 a b : same_text a b <-> Forall2 (fun c d => tolower c = tolower d) a b.
Proof.
  unfold same_text. revert b; induction a as [|c a IH]; intros [|d b]; cbn; split; intros H; try discriminate; try constructor;
    try (inversion H; fail).
  - congruence.
  - apply IH. congruence.
  - inversion H; subst. f_equal; [assumption|apply IH; assumption].
Qed.

Lemma text_less_trans a b c : text_less a b -> text_less b c -> text_less a c.
Proof.
  apply lex_trans; intros x y z H1 H2; cbv beta in *; first [congruence | lia | rewrite H1; exact H2 | rewrite <- H2; exact H1].
Qed.
Lemma text_same_less a b c : same_text a b -> text_less b c -> text_less a c.
Proof. rewrite same_text_F2. intros H. apply lex_same_l; [..|exact H]; intros x y z H1 H2; cbv beta in *; first [congruence | rewrite H1; exact H2]. Qed.
Lemma text_less_same a b c : text_less a b -> same_text b c -> text_less a c.
Proof. rewrite same_text_F2. intros H F. eapply lex_same_r; [..|exact F|exact H]; intros x y z H1 H2; cbv beta in *; first [congruence | rewrite <- H2; exact H1]. Qed.
Lemma same_text_trans a b c : same_text a b -> same_text b c -> same_text a c.
Proof. unfold same_text. congruence. Qed.

Lemma key_less_trans a b c : key_less a b -> key_less b c -> key_less a c.
Proof.
  apply lex_trans; eauto using text_less_trans, text_same_less, text_less_same, same_text_trans.
Qed.
Lemma key_same_less a b c : same_key a b -> key_less b c -> key_less a c.
Proof. intros H. apply lex_same_l; [..|exact H]; eauto using text_same_less, same_text_trans. Qed.
Lemma key_less_same a b c : key_less a b -> same_key b c -> key_less a c.
Proof. intros H F. eapply lex_same_r; [..|exact F|exact H]; eauto using text_less_same, same_text_trans. Qed.

(* ---- hashing *)

Lemma hash_byte c d : tolower c = tolower d -> Z.land (Z.of_nat (cc c)) 31 = Z.land (Z.of_nat (cc d)) 31.
Proof.
  assert (P : forall c, (Z.land (Z.of_nat (cc c)) 31 =? Z.land (Z.of_nat (cc (tolower c))) 31)%Z = true).
  { apply byte_sweep. vm_compute. reflexivity. }
  intros E. pose proof (P c) as P1. pose proof (P d) as P2. rewrite <- E in P2. lia.
Qed.

Lemma hash_loop_same : forall a b h, same_text a b -> hash_loop a h = hash_loop b h.
Proof.
  unfold same_text. induction a as [|c a IH]; intros [|d b] h H; try discriminate; [reflexivity|].
  cbn [map] in H. injection H as H1 H2. cbn [hash_loop]. rewrite (hash_byte c d H1). apply IH. exact H2.
Qed.

Lemma F2_last a b : same_key a b -> same_text (last a []) (last b []).
Proof.
  induction 1 as [|x y a b S0 F IH]; [reflexivity|].
  destruct F as [|x2 y2 a b S2 F]; [exact S0|]. exact IH.
Qed.

Lemma F2_length {A} (R : A -> A -> Prop) a b : Forall2 R a b -> length a = length b.
Proof. induction 1; cbn; congruence. Qed.

Lemma hash_key_same a b : same_key a b -> hash_key a = hash_key b.
Proof.
  intros H. pose proof (F2_last a b H) as L. pose proof (F2_length _ _ _ H) as N.
  inversion H as [|x y a' b' S0 F]; subst; [reflexivity|]. inversion F as [|x2 y2 a2 b2 S2 F2]; subst.
  - cbn. apply hash_loop_same. exact S0.
  - unfold hash_key, hash_string. rewrite (hash_loop_same _ _ 0 S0), (hash_loop_same _ _ 0 L), N. reflexivity.
Qed.

(* ---- ranges of well-formed keys *)

Lemma collapse_id k : k <> [[]] -> collapse k = k.
Proof. destruct k as [|[|] [|]]; cbn; congruence. Qed.

Lemma Forall_firstn {A} (P : A -> Prop) n l : Forall P l -> Forall P (firstn n l).
Proof. intros H. rewrite <- (firstn_skipn n l) in H. apply Forall_app in H. apply H. Qed.
Lemma Forall_skipn {A} (P : A -> Prop) n l : Forall P l -> Forall P (skipn n l).
Proof. intros H. rewrite <- (firstn_skipn n l) in H. apply Forall_app in H. apply H. Qed.

Lemma canonical_cons p k : canonical (p :: k) -> plain p /\ (canonical k \/ k = [[]]).
Proof.
  intros [F|(k' & Ne & F & E)].
  - inversion F; subst. split; [assumption|left; left; assumption].
  - destruct k' as [|q k']; [congruence|]. injection E as -> ->. inversion F; subst. split; [assumption|].
    destruct k' as [|r k']; [right; reflexivity|left; right]. exists (r :: k'). repeat split; auto. discriminate.
Qed.

Lemma canonical_skipn n k : canonical k -> canonical (collapse (skipn n k)).
Proof.
  revert k; induction n as [|n IH]; intros k C; cbn [skipn].
  - destruct (list_eq_dec (list_eq_dec ascii_dec) k [[]]) as [->|N]; [left; constructor|rewrite collapse_id by exact N; exact C].
  - destruct k as [|p k]; [left; constructor|]. apply canonical_cons in C. destruct C as [_ [C | ->]]; [apply IH, C|].
    destruct n; [left; constructor|]. cbn. rewrite skipn_nil. left; constructor.
Qed.

Lemma canonical_firstn n k : canonical k -> canonical (firstn n k).
Proof.
  intros [F|(k' & Ne & F & ->)]; [left; apply Forall_firstn, F|].
  rewrite firstn_app. destruct (Nat.le_gt_cases n (length k')).
  - replace (n - length k') with 0 by lia. cbn. rewrite app_nil_r. left. apply Forall_firstn, F.
  - rewrite firstn_all2 by lia. destruct (n - length k') as [|m] eqn:E; [lia|]. cbn. rewrite firstn_nil.
    right. exists k'. auto.
Qed.

Lemma canonical_not_nilseg k : canonical k -> k <> [[]].
Proof.
  intros [F|(k' & Ne & F & ->)] E.
  - rewrite E in F. inversion F as [|? ? (H & _) _]. congruence.
  - destruct k' as [|a [|b k']]; [congruence|discriminate|discriminate].
Qed.


Lemma removefirst_eq k n : short k -> (0 <= n)%Z -> removefirst k n = collapse (skipn (Z.to_nat n) k).
Proof.
  unfold short, removefirst, range. fold int_max. intros S0 Hn.
  destruct (Z.ltb_spec (Z.of_nat (length k)) int_max).
  - destruct (Z.ltb_spec n 0); [lia|]. destruct (Z.ltb_spec (Z.of_nat (length k)) n).
    + rewrite Z.sub_diag. cbn [Z.to_nat firstn]. rewrite skipn_all2 by lia. reflexivity.
    + f_equal. apply firstn_all2. rewrite skipn_length. lia.
  - destruct (Z.ltb_spec n 0); [lia|]. destruct (Z.ltb_spec int_max n).
    + rewrite Z.sub_diag. cbn [Z.to_nat firstn]. rewrite skipn_all2 by lia. reflexivity.
    + f_equal. apply firstn_all2. rewrite skipn_length. lia.
Qed.

Lemma kfirst_eq k n : (0 <= n)%Z -> kfirst k n = collapse (firstn (Z.to_nat n) k).
Proof.
  unfold kfirst, range. intros Hn. destruct (Z.ltb_spec (Z.of_nat (length k)) n).
  - destruct (Z.ltb_spec 0 0); [lia|]. destruct (Z.ltb_spec (Z.of_nat (length k)) 0); [lia|].
    cbn [skipn Z.to_nat]. rewrite Z.sub_0_r, Nat2Z.id, firstn_all, firstn_all2 by lia. reflexivity.
  - destruct (Z.ltb_spec 0 0); [lia|]. destruct (Z.ltb_spec n 0); [lia|].
    cbn [skipn Z.to_nat]. rewrite Z.sub_0_r. reflexivity.
Qed.

(* ---- containment *)

(** The segments a key names: without the empty one of a trailing slash. *)
Definition stem (k : key) : key := if hastrailingslash k then List.removelast k else k.

Lemma hasts_app k : k <> [] -> Forall plain k -> hastrailingslash k = false /\ hastrailingslash (k ++ [[]]) = true.
Proof.
  intros Ne F. unfold hastrailingslash. rewrite last_last. split.
  - pose proof (Forall_last _ _ [] Ne F) as (H & _). destruct (last k []); [congruence|]. cbn. apply andb_false_r.
  - destruct k; [congruence|reflexivity].
Qed.

Lemma stem_plain k : canonical k -> Forall plain (stem k).
Proof.
  unfold stem. intros [F|(k' & Ne & F & ->)].
  - destruct k as [|p k]; [constructor|]. rewrite (proj1 (hasts_app (p :: k) ltac:(discriminate) F)). exact F.
  - rewrite (proj2 (hasts_app k' Ne F)). rewrite removelast_last. exact F.
Qed.

Lemma stem_eq k : canonical k -> collapse (firstn (length (stem k)) k) = stem k /\
  Z.of_nat (length (stem k)) = (if hastrailingslash k then Z.of_nat (length k) - 1 else Z.of_nat (length k))%Z.
Proof.
  intros C. assert (Hn : stem k <> [[]]).
  { intros E. pose proof (stem_plain k C) as P. rewrite E in P. inversion P as [|? ? (H & _) _]. congruence. }
  unfold stem in *. destruct C as [F|(k' & Ne & F & ->)].
  - destruct k as [|p k]; [split; reflexivity|]. rewrite (proj1 (hasts_app (p :: k) ltac:(discriminate) F)) in *.
    rewrite firstn_all. split; [apply collapse_id; exact Hn|reflexivity].
  - rewrite (proj2 (hasts_app k' Ne F)) in *. rewrite removelast_last in *.
    rewrite firstn_app_len by reflexivity. split; [apply collapse_id; exact Hn|].
    rewrite app_length. cbn [length]. lia.
Qed.

Lemma F2_firstn_split {A} (R : A -> A -> Prop) a b : Forall2 R (firstn (length a) b) a <->
  exists c d, b = c ++ d /\ Forall2 R c a.
Proof.
  split.
  - intros H. exists (firstn (length a) b), (skipn (length a) b). rewrite firstn_skipn. auto.
  - intros (c & d & -> & H). rewrite (firstn_app_len c d); [exact H|symmetry; apply (F2_length _ _ _ H)].
Qed.

Lemma suborsame_ok this k : canonical this -> canonical k -> short k ->
  (forall r, suborsame this k = Some r -> exists c d, k = c ++ d /\ same_key c (stem this) /\ r = collapse d) /\ (suborsame this k = None -> forall c d, k = c ++ d -> ~ same_key c (stem this)).
Proof.
  intros Ct Ck Sk. unfold suborsame. destruct (stem_eq this Ct) as [E1 E2].
  rewrite <- E2. set (n := Z.of_nat (length (stem this))) in *.
  rewrite !kfirst_eq by lia. unfold n. rewrite Nat2Z.id. rewrite E1.
  rewrite (collapse_id (firstn (length (stem this)) k))
    by (apply canonical_not_nilseg, canonical_firstn, Ck).
  assert (Q : key_eq (firstn (length (stem this)) k) (stem this) = true <-> same_key (firstn (length (stem this)) k) (stem this)).
  { unfold key_eq. rewrite Z.eqb_eq. apply compareto_eq.
    - apply canonical_nul, canonical_firstn, Ck.
    - eapply Forall_impl; [|apply stem_plain, Ct]. intros p (_ & _ & H); exact H. }
  destruct (key_eq _ _).
  - split; [|discriminate]. intros r [= <-]. exists (firstn (length (stem this)) k), (skipn (length (stem this)) k).
    split; [symmetry; apply firstn_skipn|]. split; [apply Q; reflexivity|].
    rewrite removefirst_eq by (auto; lia). rewrite Nat2Z.id. reflexivity.
  - split; [discriminate|]. intros _ c d -> H. assert (P : same_key (firstn (length (stem this)) (c ++ d)) (stem this)).
    { apply F2_firstn_split. exists c, d. auto. } apply Q in P. discriminate.
Qed.

(* ---- patterns *)

Lemma same_key_refl k : same_key k k.
Proof. induction k; constructor; [reflexivity|assumption]. Qed.

Lemma eq_Matches : forall pat k, same_key k pat -> Matches pat k.
Proof.
  intros pat k H. induction H as [|s p ks ps S0 F IH]; [constructor|].
  destruct (list_eq_dec ascii_dec p star) as [->|N1]; [apply M_star; exact IH|].
  destruct (list_eq_dec ascii_dec p dots) as [->|N2]; [apply (M_dots [s]); exact IH|].
  apply M_lit; [split; assumption|exact S0|exact IH].
Qed.

Lemma literal_Matches pat k : Forall literal pat -> Matches pat k -> same_key k pat.
Proof.
  intros F M. induction M as [|p s ps ks L S0 M IH|s ps ks M IH|sk ps ks M IH].
  - constructor.
  - inversion F; subst. constructor; [exact S0|apply IH; assumption].
  - inversion F as [|? ? [L _] _]; subst. congruence.
  - inversion F as [|? ? [_ L] _]; subst. congruence.
Qed.

Lemma tolower_star c : tolower c = "*"%char -> c = "*"%char.
Proof.
  intros H. assert (P : (if Ascii.eqb (tolower c) "*" then Ascii.eqb c "*" else true) = true).
  { apply (byte_sweep (fun c => if Ascii.eqb (tolower c) "*" then Ascii.eqb c "*" else true)). vm_compute. reflexivity. }
  rewrite H in P. apply Ascii.eqb_eq. exact P.
Qed.
Lemma tolower_dot c : tolower c = "."%char -> c = "."%char.
Proof.
  intros H. assert (P : (if Ascii.eqb (tolower c) "." then Ascii.eqb c "." else true) = true).
  { apply (byte_sweep (fun c => if Ascii.eqb (tolower c) "." then Ascii.eqb c "." else true)). vm_compute. reflexivity. }
  rewrite H in P. apply Ascii.eqb_eq. exact P.
Qed.

Lemma same_star p : same_text p star -> p = star.
Proof.
  unfold same_text, star. cbn. intros H. destruct p as [|c [|d p]]; cbn in H; try discriminate.
  injection H as H. apply tolower_star in H. subst. reflexivity.
Qed.
Lemma same_dots p : same_text p dots -> p = dots.
Proof.
  unfold same_text, dots. cbn. intros H. destruct p as [|c [|d [|e [|f p]]]]; cbn in H; try discriminate.
  injection H as H1 H2 H3. apply tolower_dot in H1, H2, H3. subst. reflexivity.
Qed.

Lemma plain_nul k : Forall plain k -> Forall nul_free k.
Proof. intros H; eapply Forall_impl; [|exact H]; intros p (_ & _ & Hp); exact Hp. Qed.

Lemma key_eq_spec a b : Forall nul_free a -> Forall nul_free b -> key_eq a b = true <-> same_key a b.
Proof. intros Ha Hb. unfold key_eq. rewrite Z.eqb_eq. apply compareto_eq; assumption. Qed.

Lemma plain_collapse k : Forall plain k -> collapse k = k.
Proof. intros F. apply collapse_id. intros ->. inversion F as [|? ? (H & _) _]. congruence. Qed.

Lemma nul_ANY : Forall nul_free ANY.
Proof. constructor; [unfold nul_free; cbn; intuition discriminate|constructor]. Qed.
Lemma nul_RANY : Forall nul_free RECURSIVE_ANY.
Proof. constructor; [unfold nul_free; cbn; intuition discriminate|constructor]. Qed.

Lemma head_ANY p ps : Forall plain (p :: ps) -> key_eq (kfirst (p :: ps) 1) ANY = true <-> p = star.
Proof.
  intros F. rewrite kfirst_eq by lia. cbn [Z.to_nat Pos.to_nat Pos.iter_op firstn].
  change (firstn (Pos.to_nat 1) (p :: ps)) with [p].
  assert (F1 : Forall plain [p]) by (inversion F; subst; constructor; [assumption|constructor]).
  rewrite plain_collapse by exact F1. rewrite key_eq_spec by (auto using plain_nul, nul_ANY).
  split; [intros H; inversion H; subst; apply same_star; assumption|intros ->; apply same_key_refl].
Qed.
Lemma head_RANY p ps : Forall plain (p :: ps) -> key_eq (kfirst (p :: ps) 1) RECURSIVE_ANY = true <-> p = dots.
Proof.
  intros F. rewrite kfirst_eq by lia.
  change (firstn (Z.to_nat 1) (p :: ps)) with [p].
  assert (F1 : Forall plain [p]) by (inversion F; subst; constructor; [assumption|constructor]).
  rewrite plain_collapse by exact F1. rewrite key_eq_spec by (auto using plain_nul, nul_RANY).
  split; [intros H; inversion H; subst; apply same_dots; assumption|intros ->; apply same_key_refl].
Qed.

Lemma removefirst_plain k n : Forall plain k -> short k -> removefirst k (Z.of_nat n) = skipn n k.
Proof.
  intros F S0. rewrite removefirst_eq by (auto; lia). rewrite Nat2Z.id. apply plain_collapse, Forall_skipn, F.
Qed.

Lemma short_skipn n k : short k -> short (skipn n k).
Proof. unfold short. rewrite skipn_length. lia. Qed.

Lemma star_inv ps k : Matches (star :: ps) k -> exists s ks, k = s :: ks /\ Matches ps ks.
Proof.
  intros M. inversion M as [|p s ps' ks [L _] S0 M'|s ps' ks M'|sk ps' ks M' E]; subst.
  - congruence.
  - eauto.
Qed.
Lemma dots_inv ps k : Matches (dots :: ps) k -> exists i, i <= length k /\ Matches ps (skipn i k).
Proof.
  intros M. inversion M as [|p s ps' ks [_ L] S0 M'|s ps' ks M'|sk ps' ks M' E]; subst.
  - congruence.
  - exists (length sk). split; [rewrite app_length; lia|]. rewrite (skipn_app_len sk ks _ 0) by lia. exact M'.
Qed.

Lemma wild_star ps : wild_first (star :: ps) -> wild_first ps.
Proof. intros W. inversion W as [? F| |]; subst; [|assumption]. inversion F as [|? ? [L _] _]; congruence. Qed.
Lemma wild_dots ps : wild_first (dots :: ps) -> wild_first ps.
Proof. intros W. inversion W as [? F| |]; subst; [|assumption]. inversion F as [|? ? [_ L] _]; congruence. Qed.
Lemma wild_literal p ps : wild_first (p :: ps) -> p <> star -> p <> dots -> Forall literal (p :: ps).
Proof. intros W N1 N2. inversion W; subst; [assumption|congruence|congruence]. Qed.

Lemma matches_ok : forall fuel pat k, length pat < fuel ->
  Forall plain pat -> Forall plain k -> short pat -> short k ->
  exists b, matches_fuel fuel k pat = Ok b /\ (b = true -> Matches pat k) /\
            (wild_first pat -> Matches pat k -> b = true).
Proof.
  induction fuel as [|fuel IH]; intros pat k Hf Fp Fk Sp Sk; [lia|].
  cbn [matches_fuel].
  destruct (key_eq k pat) eqn:Eq.
  { exists true. split; [reflexivity|]. split; [|reflexivity]. intros _. apply eq_Matches.
    apply key_eq_spec in Eq; auto using plain_nul. }
  assert (Neq : ~ same_key k pat).
  { intros H. apply key_eq_spec in H; auto using plain_nul. congruence. }
  destruct pat as [|p ps].
  { exists false. split; [reflexivity|]. split; [discriminate|]. intros _ M. inversion M; subst. exfalso. apply Neq. constructor. }
  inversion Fp as [|? ? Pp Fps]; subst. cbn [length] in Hf.
  assert (Sps : short ps) by (unfold short in *; cbn [length] in Sp; lia).
  assert (Rp : removefirst (p :: ps) 1 = ps) by (apply (removefirst_plain (p :: ps) 1); assumption).
  pose proof (head_ANY p ps Fp) as HA. pose proof (head_RANY p ps Fp) as HR.
  destruct (key_eq (kfirst (p :: ps) 1) ANY).
  - assert (p = star) by (apply HA; reflexivity). subst p.
    destruct k as [|s k]; cbn [isempty].
    + exists false. split; [reflexivity|]. split; [discriminate|]. intros _ M.
      apply star_inv in M. destruct M as (? & ? & E & _). discriminate.
    + inversion Fk as [|? ? Ps Fk']; subst.
      assert (Rk : removefirst (s :: k) 1 = k) by (apply (removefirst_plain (s :: k) 1); assumption).
      rewrite Rp, Rk. destruct (IH ps k) as (b & E & B1 & B2); auto; [lia|unfold short in *; cbn [length] in Sk; lia|].
      exists b. split; [exact E|]. split; [intros Hb; apply M_star; auto|].
      intros W M. apply star_inv in M. destruct M as (s' & k' & [= <- <-] & M). apply B2; [apply wild_star; exact W|exact M].
  - destruct (key_eq (kfirst (p :: ps) 1) RECURSIVE_ANY).
    + assert (p = dots) by (apply HR; reflexivity). subst p. rewrite Rp.
      destruct ps as [|q ps]; cbn [isempty].
      { exists true. split; [reflexivity|]. split; [|reflexivity]. intros _. rewrite <- (app_nil_r k). apply M_dots. constructor. }
      set (tail := q :: ps) in *.
      assert (Try : forall count n, n <= length k -> length k - n < count ->
        exists b, (fix try (count : nat) (n : Z) : res bool :=
               match count with
               | O => NoFuel
               | S count =>
                   let part := removefirst k n in
                   let! b := matches_fuel fuel part tail in
                   if b then Ok true
                   else if isempty part then Ok false
                   else try count (n + 1)%Z
               end) count (Z.of_nat n) = Ok b /\
          (b = true -> exists i, Matches tail (skipn i k)) /\
          (wild_first tail -> forall i, n <= i <= length k -> Matches tail (skipn i k) -> b = true)).
      { induction count as [|count IHc]; intros n Hn Hc; [lia|].
        rewrite removefirst_plain by assumption.
        destruct (IH tail (skipn n k)) as (b & E & B1 & B2); auto using Forall_skipn, short_skipn; [lia|].
        cbv zeta. rewrite E. cbn [bind]. destruct b.
        - exists true. split; [reflexivity|]. split; [intros _; exists n; auto|auto].
        - destruct (isempty (skipn n k)) eqn:Em.
          + exists false. split; [reflexivity|]. split; [discriminate|]. intros W i Hi M. apply B2; [exact W|].
            assert (Ln : length (skipn n k) = 0) by (destruct (skipn n k); [reflexivity|discriminate]).
            rewrite skipn_length in Ln. replace n with i by lia. exact M.
          + assert (Ln : length (skipn n k) <> 0) by (destruct (skipn n k); [discriminate|cbn; lia]).
            rewrite skipn_length in Ln.
            destruct (IHc (S n)) as (b & E' & C1 & C2); [lia|lia|].
            replace (Z.of_nat n + 1)%Z with (Z.of_nat (S n)) by lia. exists b. split; [exact E'|]. split; [exact C1|].
            intros W i Hi M. destruct (Nat.eq_dec i n) as [->|N]; [specialize (B2 W M); discriminate|].
            apply (C2 W i); [lia|exact M]. }
      destruct (Try (S (length k)) 0) as (b & E & B1 & B2); [lia|lia|]. cbn [Z.of_nat] in E.
      exists b. split; [exact E|]. split.
      * intros Hb. destruct (B1 Hb) as (i & M). rewrite <- (firstn_skipn i k). apply M_dots. exact M.
      * intros W M. apply dots_inv in M. destruct M as (i & Hi & M). apply (B2 (wild_dots _ W) i); [lia|exact M].
    + exists false. split; [reflexivity|]. split; [discriminate|]. intros W M.
      exfalso. apply Neq. apply literal_Matches; [|exact M]. apply wild_literal; [exact W|intros E; apply HA in E; discriminate|intros E; apply HR in E; discriminate].
Qed.

Lemma stem_named k : canonical k -> stem k = named k.
Proof.
  unfold stem, named. intros [F|(k' & Ne & F & ->)].
  - rewrite (filter_plain k F). destruct k as [|p k]; [reflexivity|].
    rewrite (proj1 (hasts_app (p :: k) ltac:(discriminate) F)). reflexivity.
  - rewrite (proj2 (hasts_app k' Ne F)), removelast_last, filter_app, (filter_plain k' F). cbn. rewrite app_nil_r. reflexivity.
Qed.
