(** Proofs about HrefModel. *)
From Verif Require Import Base BaseFacts Ctype UrlModel SplitModel IntFmtModel IntFmtProofs IniSpec IniProofs HrefModel HrefSpec.
Local Open Scope nat_scope.

Lemma split_some c s : forall l r, split_at c s = Some (l, r) <-> s = l ++ c :: r /\ ~ In c l.
Proof.
  induction s as [|d s IH]; intros l r; cbn [split_at].
  - split; [discriminate|]. intros (E & _). destruct l; discriminate.
  - destruct (Ascii.eqb_spec d c) as [->|N].
    + split; [intros E; injection E as <- <-; auto|]. intros (E & N). destruct l as [|x l]; [cbn in E; injection E as ->; reflexivity|]. injection E as -> _. elim N. left. reflexivity.
    + destruct (split_at c s) as [[l' r']|] eqn:E.
      * split; [intros X; injection X as <- <-; destruct (proj1 (IH l' r') eq_refl) as (-> & NI); split; [reflexivity|]; intros [X|X]; auto|].
        intros (X & NI). destruct l as [|x l]; [cbn in X; injection X as -> _; congruence|]. cbn in X. injection X as <- X. assert (Y : Some (l', r') = Some (l, r)) by (apply IH; split; [exact X|]; intros Z; apply NI; right; exact Z). injection Y as -> ->. reflexivity.
      * split; [discriminate|]. intros (X & NI). destruct l as [|x l]; [cbn in X; injection X as -> _; congruence|]. cbn in X. injection X as <- X. assert (Y : @None (bytes * bytes) = Some (l, r)) by (apply IH; split; [exact X|]; intros Z; apply NI; right; exact Z). discriminate.
Qed.
Lemma split_none c s : split_at c s = None <-> ~ In c s.
Proof.
  induction s as [|d s IH]; cbn [split_at].
  - split; [intros _ []|reflexivity].
  - destruct (Ascii.eqb_spec d c) as [->|N].
    + split; [discriminate|]. intros X. elim X. left. reflexivity.
    + destruct (split_at c s) as [[l r]|].
      * split; [discriminate|]. intros X. exfalso. assert (Y : Some (l, r) = None) by (apply IH; intros Z; apply X; right; exact Z). discriminate.
      * split; [intros _ [Z|Z]; [auto|revert Z; apply IH; reflexivity]|reflexivity].
Qed.
Lemma begins_app p s : begins p s = true <-> exists x, s = p ++ x.
Proof.
  revert s. induction p as [|a p IH]; intros s; cbn [begins].
  - split; [intros _; exists s; reflexivity|reflexivity].
  - destruct s as [|b s]; [split; [discriminate|intros (x & X); discriminate]|]. rewrite andb_true_iff, IH. split.
    + intros (E & x & ->). apply Ascii.eqb_eq in E. subst b. exists x. reflexivity.
    + intros (x & X). injection X as -> ->. split; [apply Ascii.eqb_refl|exists x; reflexivity].
Qed.
Lemma portmap_services n p s : In (n, p, s) portmap <-> In (n, (p, s)) services.
Proof.
  cbn [portmap services In]. split; intros H; repeat (destruct H as [H|H]; [injection H as <- <- <-; tauto|]); contradiction.
Qed.
Lemma names_unique n a b : In (n, a) services -> In (n, b) services -> a = b.
Proof.
  intros Ha Hb. cbn [services In] in Ha, Hb. repeat (destruct Ha as [Ha|Ha]; [injection Ha as <- <-; repeat (destruct Hb as [Hb|Hb]; [first [discriminate Hb|injection Hb as <-; reflexivity]|]); contradiction|]). contradiction.
Qed.
Lemma app_prefix {A} (a b x y : list A) : a ++ x = b ++ y -> length a <= length b -> exists z, b = a ++ z.
Proof.
  revert b. induction a as [|c a IH]; intros b E L; [exists b; reflexivity|]. destruct b as [|d b]; [cbn in L; lia|]. cbn in E. injection E as -> E. destruct (IH b E) as (z & ->); [cbn in L; lia|]. exists z. reflexivity.
Qed.
Fixpoint longer_first (l : list bytes) : bool :=
  match l with [] => true | n :: l => forallb (fun n' => negb (begins n n')) l && longer_first l end.
Lemma entry_known proto p s : (exists n, entry proto = Some (n, p, s)) <-> known proto p s.
Proof.
  assert (F : forall l e, longer_first (map (fun e : bytes * Z * bool => fst (fst e)) l) = true -> find (fun e : bytes * Z * bool => begins (fst (fst e)) proto) l = Some e ->
    In e l /\ begins (fst (fst e)) proto = true /\ forall e', In e' l -> begins (fst (fst e')) proto = true -> length (fst (fst e')) <= length (fst (fst e))).
  { induction l as [|x l IH]; intros e Lf Hf; [discriminate|]. cbn [map longer_first find] in *. apply andb_true_iff in Lf. destruct Lf as (L1 & L2). destruct (begins (fst (fst x)) proto) eqn:Ex.
    - injection Hf as <-. split; [left; reflexivity|]. split; [exact Ex|]. intros e' [<-|I] Hb; [lia|]. destruct (Nat.le_gt_cases (length (fst (fst e'))) (length (fst (fst x)))) as [|G]; [assumption|]. exfalso.
      apply begins_app in Ex, Hb. destruct Ex as (y & Ey), Hb as (z & Ez). rewrite Ey in Ez. destruct (app_prefix _ _ _ _ Ez) as (w & W); [lia|]. rewrite forallb_forall in L1. specialize (L1 (fst (fst e'))).
      assert (Y : begins (fst (fst x)) (fst (fst e')) = true) by (apply begins_app; exists w; exact W). rewrite Y in L1. discriminate L1. apply in_map_iff. exists e'. auto.
    - destruct (IH e L2 Hf) as (I & Hb & H). split; [right; exact I|]. split; [exact Hb|]. intros e' [<-|I'] Hb'; [congruence|]. apply H; assumption. }
  split.
  - intros (n & E). destruct (F portmap _ eq_refl E) as (I & Hb & H). cbn [fst snd] in *. apply begins_app in Hb. destruct Hb as (x & ->). exists n, x. split; [reflexivity|]. split; [apply portmap_services, I|].
    intros n' x' (p', s') En I'. apply portmap_services in I'. apply (H _ I'). cbn [fst]. apply begins_app. exists x'. exact En.
  - intros (n & x & -> & I & H). unfold entry. destruct (find _ portmap) as [[[n' p'] s']|] eqn:E.
    + destruct (F portmap _ eq_refl E) as (I' & Hb & H'). cbn [fst snd] in *. exists n'. assert (L1 : length n <= length n') by (apply (H' (n, p, s)); [apply portmap_services, I|apply begins_app; exists x; reflexivity]).
      apply begins_app in Hb. destruct Hb as (x' & Ex). pose proof (H n' x' _ Ex (proj1 (portmap_services _ _ _) I')) as L2. destruct (app_prefix _ _ _ _ Ex L1) as (z & Ez). destruct z as [|c z]; [|subst n'; rewrite app_length in L2; cbn in L2; lia]. rewrite app_nil_r in Ez. subst n'.
      apply portmap_services in I'. pose proof (names_unique _ _ _ I I') as U. congruence.
    + exfalso. apply portmap_services in I. pose proof (find_none _ _ E _ I) as N. cbn [fst] in N. assert (Y : begins n (n ++ x) = true) by (apply begins_app; exists x; reflexivity). congruence.
Qed.
Lemma entry_colon proto r : ~ In colon proto -> entry (proto ++ colon :: r) = entry proto.
Proof.
  intros N. unfold entry. assert (F : forall l, Forall (fun e : bytes * Z * bool => ~ In colon (fst (fst e))) l -> find (fun e : bytes * Z * bool => begins (fst (fst e)) (proto ++ colon :: r)) l = find (fun e : bytes * Z * bool => begins (fst (fst e)) proto) l).
  { induction l as [|e l IH]; intros H; [reflexivity|]. inversion H as [|? ? He Hl]; subst. cbn [find]. rewrite (IH Hl). assert (E : begins (fst (fst e)) (proto ++ colon :: r) = begins (fst (fst e)) proto); [|rewrite E; reflexivity].
    generalize dependent (fst (fst e)). clear. induction proto as [|c proto IH]; intros n He; destruct n as [|d n]; try reflexivity.
    - cbn. destruct (Ascii.eqb_spec d colon) as [->|]; [elim He; left; reflexivity|reflexivity].
    - cbn. rewrite IH by (intros X; apply He; right; exact X). reflexivity. }
  apply F. unfold portmap. repeat (constructor; [cbn; intros X; repeat (destruct X as [X|X]; [discriminate X|]); contradiction|]). constructor.
Qed.
(** ** Trimming *)
Lemma solid_trim a t b : blank a -> blank b -> solid t -> trim_string (a ++ t ++ b) = t /\ length (a ++ t ++ b) - length (rev (drop_space (rev (a ++ t ++ b)))) <= length (a ++ t ++ b).
Proof.
  intros Ha Hb Ht. split; [|lia]. assert (D : forall p q, blank p -> drop_space (p ++ q) = drop_space q).
  { intros p q Hp. induction Hp as [|c p Hc Hp IH]; [reflexivity|]. cbn. rewrite Hc. exact IH. }
  assert (Dt : forall q, solid q -> forall x, drop_space (q ++ x) = match q with [] => drop_space x | _ => q ++ x end).
  { intros q Hq x. destruct q as [|c q]; [reflexivity|]. inversion Hq as [|? ? (Hc & _) _]; subst. cbn. rewrite Hc. reflexivity. }
  unfold trim_string. rewrite !rev_app_distr, <- app_assoc. rewrite D by (apply Forall_rev, Hb). rewrite Dt by (apply Forall_rev, Ht). destruct t as [|c t].
  - cbn [rev]. replace (drop_space (rev a)) with (@nil byte); [reflexivity|]. symmetry. rewrite <- (app_nil_r (rev a)). rewrite D by (apply Forall_rev, Ha). reflexivity.
  - replace (rev (match rev (c :: t) with [] => drop_space (rev a) | _ :: _ => rev (c :: t) ++ rev a end)) with (a ++ c :: t); [rewrite D by exact Ha; apply (Dt (c :: t) Ht []) || (rewrite <- (app_nil_r (c :: t)); rewrite (Dt (c :: t) Ht []); reflexivity)|].
    destruct (rev (c :: t)) as [|y l] eqn:E; [apply (f_equal (@length byte)) in E; rewrite rev_length in E; discriminate|]. rewrite <- E, rev_app_distr, !rev_involutive. reflexivity.
Qed.
Lemma solid_cspn t : solid t -> strcspn t blanks = length t.
Proof.
  intros H. induction H as [|c t (Hs & _) _ IH]; [reflexivity|]. cbn [strcspn length]. rewrite IH. assert (E : existsb (Ascii.eqb c) blanks = false); [|rewrite E; reflexivity].
  destruct (existsb (Ascii.eqb c) blanks) eqn:X; [|reflexivity]. exfalso. apply existsb_exists in X. destruct X as (d & I & E). apply Ascii.eqb_eq in E. subst d. cbn [blanks In] in I. repeat (destruct I as [<-|I]; [vm_compute in Hs; discriminate|]). contradiction.
Qed.
(** The part of the constructor after the protocol *)
Definition rest (proto : bytes) (sl : bool) (w : bytes) : res parsed :=
  let '(user, password, w) :=
    match split_at at_sign w with
    | None => ([], [], w)
    | Some (c, w) => match split_at colon c with Some (u, d :: p) => (u, d :: p, w) | _ => (c, [], w) end
    end in
  let '(file, w) := match split_at slash w with None => (if sl then B "/" else [], w) | Some (w, f) => (slash :: f, w) end in
  let! (port, host) := match split_at colon w with None => Ok (default_port proto, w) | Some (w, p) => let! p := atoi p in Ok (p, w) end in
  Ok (Good (Url proto user password host port file)).
Lemma solid_cstr t x : solid t -> cstr (t ++ nul :: x) = t.
Proof. intros H. induction H as [|c t (_ & N) _ IH]; [reflexivity|]. cbn. destruct (Ascii.eqb_spec c nul) as [E|]; [contradiction|]. rewrite IH. reflexivity. Qed.
Lemma solid_app a b : solid (a ++ b) <-> solid a /\ solid b.
Proof. apply Forall_app. Qed.
Lemma nul_in x y : existsb (Ascii.eqb nul) (x ++ nul :: y) = true.
Proof. rewrite existsb_app. cbn. apply orb_true_r. Qed.
(** Parsing a solid text *)
Lemma parse_solid a t b : blank a -> blank b -> solid t ->
  (forall proto p s sl w, t = proto ++ colon :: sl ++ w -> ~ In colon proto -> known proto p s -> length sl = (if s then 2 else 0) -> parse (Some (a ++ t ++ b)) = rest proto s w) /\
  (forall u, parse (Some (a ++ t ++ b)) = Ok (Good u) -> exists proto p s w, t = proto ++ colon :: w /\ ~ In colon proto /\ known proto p s).
Proof.
  intros Ha Hb Ht. destruct (solid_trim a t b Ha Hb Ht) as (Et & _). unfold parse. rewrite Et. set (tr := _ - _). cbv zeta. rewrite (solid_cspn t Ht). rewrite firstn_all. split.
  - intros proto p s sl w -> Np K Ls. destruct (proj2 (entry_known _ _ _) K) as (n & En).
    assert (Pp : (0 <= p)%Z) by (destruct K as (nm & x & _ & I & _); cbn [services In] in I; repeat (destruct I as [I|I]; [injection I as <- <- <-; lia|]); contradiction).
    assert (Ed : default_port (proto ++ colon :: sl ++ w) = p) by (unfold default_port; rewrite entry_colon, En by exact Np; reflexivity). rewrite Ed. destruct (Z.ltb_spec p 0); [lia|].
    rewrite (proj2 (split_some colon _ proto (sl ++ w)) (conj eq_refl Np)). assert (Es : uses_slashes proto = s) by (unfold uses_slashes; rewrite En; reflexivity). rewrite Es.
    match goal with |- context[skipn (length proto + ?k) ?m] => assert (Em : skipn (length proto + k) m = w ++ nul :: skipn (S (length (proto ++ colon :: sl ++ w))) ((proto ++ colon :: sl ++ w) ++ repeat nul (S tr))) end.
    { replace ((proto ++ colon :: sl ++ w) ++ nul :: skipn (S (length (proto ++ colon :: sl ++ w))) ((proto ++ colon :: sl ++ w) ++ repeat nul (S tr))) with ((proto ++ colon :: sl) ++ (w ++ nul :: skipn (S (length (proto ++ colon :: sl ++ w))) ((proto ++ colon :: sl ++ w) ++ repeat nul (S tr)))) by (rewrite <- !app_assoc; cbn [app]; rewrite <- !app_assoc; reflexivity).
      replace (length proto + (if s then 3 else 1)) with (length (proto ++ colon :: sl)) by (rewrite app_length; cbn [length]; destruct s; lia). rewrite skipn_app, skipn_all, Nat.sub_diag. reflexivity. }
    rewrite Em. rewrite nul_in. cbn [negb]. rewrite solid_cstr; [reflexivity|]. apply solid_app in Ht. destruct Ht as (_ & Ht). inversion Ht as [|? ? _ Hw]; subst. apply solid_app in Hw. apply Hw.
  - intros u. destruct (Z.ltb_spec (default_port t) 0) as [|G]; [discriminate|]. destruct (split_at colon t) as [[proto r]|] eqn:E; [|discriminate]. intros _. apply split_some in E. destruct E as (-> & Np). unfold default_port in G. rewrite entry_colon in G by exact Np.
    destruct (entry proto) as [[[n p] s]|] eqn:En; [|lia]. exists proto, p, s, r. split; [reflexivity|]. split; [exact Np|]. apply entry_known. exists n. exact En.
Qed.
(** What follows the protocol *)
Lemma rest_says proto p s (sl : bytes) w u : known proto p s -> ~ In colon proto -> length sl = (if s then 2 else 0) ->
  rest proto s w = Ok (Good u) <-> exists cred host portt path, w = cred ++ host ++ portt ++ path /\
    u_proto u = proto /\ (credentials cred (u_user u) (u_password u) \/ cred = [] /\ u_user u = [] /\ u_password u = [] /\ ~ In at_sign (host ++ portt ++ path)) /\
    u_host u = host /\ ~ In slash host /\ ~ In colon host /\
    (portt = [] /\ u_port u = p \/ exists d, portt = colon :: d /\ ~ In slash d /\ atoi d = Ok (u_port u)) /\
    (path = [] /\ u_file u = (if s then B "/" else []) \/ exists f, path = slash :: f /\ u_file u = path).
Proof.
  intros K Np Ls. destruct (proj2 (entry_known _ _ _) K) as (n & En). assert (Ed : default_port proto = p) by (unfold default_port; rewrite En; reflexivity). unfold rest. rewrite Ed.
  assert (T : forall user pw w1 cred, w = cred ++ w1 -> (credentials cred user pw \/ cred = [] /\ user = [] /\ pw = [] /\ ~ In at_sign w1) ->
    (let '(file, w) := match split_at slash w1 with None => (if s then B "/" else [], w1) | Some (w, f) => (slash :: f, w) end in
     let! (port, host) := match split_at colon w with None => Ok (p, w) | Some (w, p) => let! p := atoi p in Ok (p, w) end in
     Ok (Good (Url proto user pw host port file))) = Ok (Good u) <->
    exists host portt path, w1 = host ++ portt ++ path /\ u_proto u = proto /\ u_user u = user /\ u_password u = pw /\ u_host u = host /\ ~ In slash host /\ ~ In colon host /\
    (portt = [] /\ u_port u = p \/ exists d, portt = colon :: d /\ ~ In slash d /\ atoi d = Ok (u_port u)) /\
    (path = [] /\ u_file u = (if s then B "/" else []) \/ exists f, path = slash :: f /\ u_file u = path)).
  { intros user pw w1 cred _ _. destruct (split_at slash w1) as [[w2 f]|] eqn:E1.
    - apply split_some in E1. destruct E1 as (-> & N1). destruct (split_at colon w2) as [[h d]|] eqn:E2.
      + apply split_some in E2. destruct E2 as (-> & N2). split.
        * destruct (atoi d) as [z| |] eqn:Ea; [|discriminate|discriminate]. cbn [bind]. intros X. injection X as <-. exists h, (colon :: d), (slash :: f). cbn. rewrite <- app_assoc. repeat split; auto.
          -- intros X. apply N1, in_or_app. left. exact X.
          -- right. exists d. repeat split; auto. intros X. apply N1, in_or_app. right. right. exact X.
          -- right. exists f. auto.
        * intros (host & portt & path & Ew & E1 & E2 & E3 & E4 & H1 & H2 & H3 & H4). 
          assert (Q : host = h /\ portt = colon :: d /\ path = slash :: f).
          { destruct H4 as [(-> & _)|(f' & -> & _)].
            - exfalso. assert (X : In slash (host ++ portt)) by (rewrite <- (app_nil_r portt), <- Ew; apply in_or_app; right; left; reflexivity). apply in_app_or in X. destruct X as [X|X]; [auto|]. destruct H3 as [(-> & _)|(d' & -> & Nd & _)]; [contradiction|]. destruct X as [X|X]; [discriminate|auto].
            - assert (X : split_at slash ((h ++ colon :: d) ++ slash :: f) = Some (host ++ portt, f')).
              { apply split_some. split; [rewrite Ew, <- app_assoc; reflexivity|]. intros X. apply in_app_or in X. destruct X as [X|X]; [auto|]. destruct H3 as [(-> & _)|(d' & -> & Nd & _)]; [contradiction|]. destruct X as [X|X]; [discriminate|auto]. }
              rewrite (proj2 (split_some slash _ _ f) (conj eq_refl N1)) in X. injection X as X ->. destruct H3 as [(-> & _)|(d' & -> & _)].
              + exfalso. apply H2. rewrite app_nil_r in X. rewrite <- X. apply in_or_app. right. left. reflexivity.
              + assert (Y : split_at colon (h ++ colon :: d) = Some (host, d')) by (apply split_some; auto). rewrite (proj2 (split_some colon _ h d) (conj eq_refl N2)) in Y. injection Y as -> ->. auto. }
          destruct Q as (-> & -> & ->). destruct H3 as [(X & _)|(d' & X & _ & Ea)]; [discriminate|]. injection X as <-. rewrite Ea. cbn [bind]. destruct H4 as [(X & _)|(f' & _ & Ef)]; [discriminate|]. destruct u; cbn in *; subst. reflexivity.
      + apply split_none in E2. cbn [bind]. split.
        * intros X. injection X as <-. exists w2, [], (slash :: f). cbn. repeat split; auto. right. exists f. auto.
        * intros (host & portt & path & Ew & E1 & E3 & E4 & E5 & H1 & H2 & H3 & H4).
          assert (Q : host = w2 /\ portt = [] /\ path = slash :: f).
          { destruct H4 as [(-> & _)|(f' & -> & _)].
            - exfalso. assert (X : In slash (host ++ portt)) by (rewrite <- (app_nil_r portt), <- Ew; apply in_or_app; right; left; reflexivity). apply in_app_or in X. destruct X as [X|X]; [auto|]. destruct H3 as [(-> & _)|(d' & -> & Nd & _)]; [contradiction|]. destruct X as [X|X]; [discriminate|auto].
            - assert (X : split_at slash (w2 ++ slash :: f) = Some (host ++ portt, f')).
              { apply split_some. split; [rewrite Ew, <- app_assoc; reflexivity|]. intros X. apply in_app_or in X. destruct X as [X|X]; [auto|]. destruct H3 as [(-> & _)|(d' & -> & Nd & _)]; [contradiction|]. destruct X as [X|X]; [discriminate|auto]. }
              rewrite (proj2 (split_some slash _ _ f) (conj eq_refl N1)) in X. injection X as X ->. destruct H3 as [(-> & _)|(d' & -> & _)].
              + rewrite app_nil_r in X. auto.
              + exfalso. apply E2. rewrite X. apply in_or_app. right. left. reflexivity. }
          destruct Q as (-> & -> & ->). destruct H3 as [(_ & Ep)|(d' & X & _)]; [|discriminate]. destruct H4 as [(X & _)|(f' & _ & Ef)]; [discriminate|]. destruct u; cbn in *; subst. reflexivity.
    - apply split_none in E1. destruct (split_at colon w1) as [[h d]|] eqn:E2.
      + apply split_some in E2. destruct E2 as (-> & N2). split.
        * destruct (atoi d) as [z| |] eqn:Ea; [|discriminate|discriminate]. cbn [bind]. intros X. injection X as <-. exists h, (colon :: d), []. cbn. rewrite app_nil_r. repeat split; auto.
          -- intros X. apply E1, in_or_app. left. exact X.
          -- right. exists d. repeat split; auto. intros X. apply E1, in_or_app. right. right. exact X.
        * intros (host & portt & path & Ew & E0 & E3 & E4 & E5 & H1 & H2 & H3 & H4).
          assert (Q : host = h /\ portt = colon :: d /\ path = []).
          { destruct H4 as [(-> & _)|(f' & -> & _)]; [|exfalso; apply E1; rewrite Ew; apply in_or_app; right; apply in_or_app; right; left; reflexivity].
            rewrite app_nil_r in Ew. destruct H3 as [(-> & _)|(d' & -> & _)].
            - exfalso. apply H2. rewrite app_nil_r in Ew. rewrite <- Ew. apply in_or_app. right. left. reflexivity.
            - assert (Y : split_at colon (h ++ colon :: d) = Some (host, d')) by (apply split_some; auto). rewrite (proj2 (split_some colon _ h d) (conj eq_refl N2)) in Y. injection Y as -> ->. auto. }
          destruct Q as (-> & -> & ->). destruct H3 as [(X & _)|(d' & X & _ & Ea)]; [discriminate|]. injection X as <-. rewrite Ea. cbn [bind]. destruct H4 as [(_ & Ef)|(f' & X & _)]; [|discriminate]. destruct u; cbn in *; subst. reflexivity.
      + apply split_none in E2. cbn [bind]. split.
        * intros X. injection X as <-. exists w1, [], []. cbn. rewrite !app_nil_r. repeat split; auto.
        * intros (host & portt & path & Ew & E0 & E3 & E4 & E5 & H1 & H2 & H3 & H4).
          assert (Q : host = w1 /\ portt = [] /\ path = []).
          { destruct H4 as [(-> & _)|(f' & -> & _)]; [|exfalso; apply E1; rewrite Ew; apply in_or_app; right; apply in_or_app; right; left; reflexivity].
            rewrite app_nil_r in Ew. destruct H3 as [(-> & _)|(d' & -> & _)]; [rewrite app_nil_r in Ew; auto|]. exfalso. apply E2. rewrite Ew. apply in_or_app. right. left. reflexivity. }
          destruct Q as (-> & -> & ->). destruct H3 as [(_ & Ep)|(d' & X & _)]; [|discriminate]. destruct H4 as [(_ & Ef)|(f' & X & _)]; [|discriminate]. destruct u; cbn in *; subst. reflexivity. }
  (* the credentials *)
  destruct (split_at at_sign w) as [[c w1]|] eqn:Ew.
  - apply split_some in Ew. destruct Ew as (Ew & Nc).
    assert (C : forall user pw, credentials (c ++ B "@") user pw <-> (match split_at colon c with Some (u, d :: q) => (u, d :: q) | _ => (c, []) end) = (user, pw)).
    { intros user pw. split.
      - intros H. remember (c ++ B "@") as cc eqn:Ec. destruct H as [x Nx Hx|x y Nx Ny Nxc Ny0].
        + apply app_inj_tail in Ec. destruct Ec as (-> & _). destruct (split_at colon c) as [[u0 [|d q]]|] eqn:E; try reflexivity. apply split_some in E. destruct E as (E & N0). pose proof (Hx u0 (d :: q) E N0). discriminate.
        + assert (Ec' : (x ++ B ":" ++ y) ++ B "@" = c ++ B "@") by (rewrite <- app_assoc; cbn [app] in *; rewrite <- Ec; rewrite <- !app_assoc; reflexivity). apply app_inj_tail in Ec'. destruct Ec' as (<- & _). change (B ":" ++ y) with (colon :: y). rewrite (proj2 (split_some colon _ x y) (conj eq_refl Nxc)). destruct y; [contradiction|reflexivity].
      - destruct (split_at colon c) as [[u0 [|d q]]|] eqn:E; intros X; injection X as <- <-.
        + apply Cr_user; [exact Nc|]. intros a b Ea Na. apply split_some in E. assert (Y : split_at colon c = Some (a, b)) by (apply split_some; auto). rewrite (proj2 (split_some colon _ u0 []) E) in Y. injection Y as _ <-. reflexivity.
        + apply split_some in E. destruct E as (-> & N0). assert (Y : (u0 ++ colon :: d :: q) ++ B "@" = u0 ++ B ":" ++ (d :: q) ++ B "@") by (rewrite <- app_assoc; reflexivity). rewrite Y. apply Cr_both; [intros X; apply Nc, in_or_app; left; exact X|intros X; apply Nc, in_or_app; right; right; exact X|exact N0|discriminate].
        + apply split_none in E. apply Cr_user; [exact Nc|]. intros a b -> _. elim E. apply in_or_app. right. left. reflexivity. }
    destruct (match split_at colon c with Some (u, d :: q) => (u, d :: q) | _ => (c, []) end) as [user pw] eqn:Em.
    replace (match split_at colon c with Some (u0, d :: p0) => (u0, d :: p0, w1) | _ => (c, [], w1) end) with (user, pw, w1) by (destruct (split_at colon c) as [[u0 [|d q]]|]; injection Em as <- <-; reflexivity).
    assert (Cu : credentials (c ++ B "@") user pw) by (apply C; reflexivity).
    assert (Ew' : w = (c ++ B "@") ++ w1) by (rewrite Ew, <- app_assoc; reflexivity).
    rewrite (T user pw w1 (c ++ B "@") Ew' (or_introl Cu)). split.
    + intros (host & portt & path & -> & Hp & Hu & Hpw & H). exists (c ++ B "@"), host, portt, path. rewrite Hu, Hpw. tauto.
    + intros (cred & host & portt & path & E & Hp & Hc & H). destruct Hc as [Hc|(-> & _ & _ & N)].
      * assert (Q : cred = c ++ B "@" /\ host ++ portt ++ path = w1).
        { assert (X : exists c', cred = c' ++ B "@" /\ ~ In at_sign c') by (destruct Hc as [x Nx _|x y Nx Ny _ _]; [exists x; auto|]; exists (x ++ B ":" ++ y); split; [rewrite <- !app_assoc; reflexivity|]; intros X; apply in_app_or in X; destruct X as [X|[X|X]]; auto; discriminate).
          destruct X as (c' & -> & Nc'). assert (Y : split_at at_sign w = Some (c', host ++ portt ++ path)) by (apply split_some; split; [rewrite E, <- app_assoc; reflexivity|exact Nc']).
          rewrite (proj2 (split_some at_sign _ c w1) (conj Ew Nc)) in Y. injection Y as -> <-. auto. }
        destruct Q as (-> & <-). apply C in Hc. injection Hc as <- <-. exists host, portt, path. tauto.
      * exfalso. apply N. cbn [app] in E. rewrite <- E, Ew. apply in_or_app. right. left. reflexivity.
  - apply split_none in Ew. assert (Cn : (credentials [] [] [] \/ @nil byte = [] /\ @nil byte = [] /\ @nil byte = [] /\ ~ In at_sign w)) by (right; auto). rewrite (T [] [] w [] eq_refl Cn). split.
    + intros (host & portt & path & -> & Hp & Hu & Hpw & H). exists [], host, portt, path. rewrite Hu, Hpw. split; [reflexivity|]. split; [exact Hp|]. split; [right; auto|exact H].
    + intros (cred & host & portt & path & E & Hp & Hc & H). destruct Hc as [Hc|(-> & Hu & Hpw & N)].
      * exfalso. apply Ew. rewrite E. apply in_or_app. left. destruct Hc; [apply in_or_app; right; left; reflexivity|]. rewrite !in_app_iff. right. right. right. left. reflexivity.
      * exists host, portt, path. tauto.
Qed.
