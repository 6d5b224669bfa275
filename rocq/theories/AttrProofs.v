(** Proofs about WvAttrs. *)
From Verif Require Import Base AttrSpec AttrModel.

Ltac norm_app := repeat (first [rewrite <- app_assoc | progress cbn [app]]); reflexivity.

Definition rec (p : bytes * bytes) : bytes := fst p ++ nul :: snd p ++ [nul].
Definition recs (l : list (bytes * bytes)) : bytes := concat (map rec l).

Definition okp (p : bytes * bytes) : Prop := nul_free (fst p) /\ nul_free (snd p) /\ fst p <> [] /\ snd p <> [].

Definition inv (l : list (bytes * bytes)) (a : attrs) : Prop :=
  Forall okp l /\ NoDup (map fst l) /\ attrlen a = length (recs l) /\
  (attrlist a = Some (map Some (recs l ++ [nul])) \/ (l = [] /\ attrlist a = None)).

Lemma recs_app l1 l2 : recs (l1 ++ l2) = recs l1 ++ recs l2.
Proof. unfold recs. rewrite map_app, concat_app. reflexivity. Qed.

Lemma recs_cons p l : recs (p :: l) = fst p ++ nul :: snd p ++ nul :: recs l.
Proof. unfold recs, rec. cbn. norm_app. Qed.

Lemma skipn_len {A} (a b : list A) : skipn (length a) (a ++ b) = b.
Proof. rewrite skipn_app, Nat.sub_diag, skipn_all2 by lia. reflexivity. Qed.

Lemma firstn_len {A} (a b : list A) : firstn (length a) (a ++ b) = a.
Proof. rewrite firstn_app, Nat.sub_diag, firstn_O, app_nil_r. apply firstn_all. Qed.

Lemma cread_ok s b : nul_free s -> cread (map Some (s ++ nul :: b)) = Ok s.
Proof.
  induction s as [|c s IH]; intros F; cbn.
  - reflexivity.
  - destruct (Ascii.eqb_spec c nul) as [->|_]; [exfalso; apply F; left; reflexivity|].
    rewrite IH; [reflexivity|]. intros I. apply F. right. exact I.
Qed.

Lemma cstr_at_ok a s b i : nul_free s -> i = length a -> cstr_at (map Some (a ++ s ++ nul :: b)) i = Ok s.
Proof.
  intros F ->. unfold cstr_at. rewrite map_app. rewrite <- (map_length Some a) at 1. rewrite skipn_len. apply cread_ok. exact F.
Qed.

Lemma peek_at a c b : peek (map Some (a ++ c :: b)) (length a) = Ok c.
Proof.
  unfold peek. rewrite map_app, nth_error_app2 by (rewrite map_length; lia). rewrite map_length, Nat.sub_diag. reflexivity.
Qed.

Fixpoint pos_of (l : list (bytes * bytes)) (name : bytes) : option nat :=
  match l with
  | [] => None
  | (k, v) :: l => if list_eq_dec Ascii.ascii_dec k name then Some (length k + 1)
                   else match pos_of l name with Some p => Some (length (rec (k, v)) + p) | None => None end
  end.

Lemma rec_length k v : length (rec (k, v)) = length k + length v + 2.
Proof. unfold rec. cbn. rewrite app_length. cbn. rewrite app_length. cbn. lia. Qed.

Lemma find_ok name l : Forall okp l -> forall n pre, length l <= n ->
  find n (map Some (pre ++ recs l ++ [nul])) (length pre) (Some name) =
  Ok (match pos_of l name with Some p => Some (length pre + p) | None => None end).
Proof.
  induction 1 as [|[k v] l (O1 & O2 & O3 & O4) F IH]; intros n pre L.
  - cbn [recs map concat app pos_of]. destruct n; cbn [find]; rewrite peek_at; reflexivity.
  - cbn [fst snd] in *. rewrite recs_cons. cbn [fst snd pos_of]. cbn [length] in L. destruct n as [|n]; [lia|].
    rewrite <- !app_assoc. cbn [app find].
    assert (P : peek (map Some (pre ++ k ++ nul :: (v ++ nul :: recs l) ++ [nul])) (length pre) = Ok (hd nul k) /\ hd nul k <> nul).
    { destruct k as [|c k]; [congruence|]. split; [apply (peek_at pre c)|]. cbn. intros ->. apply O1. left. reflexivity. }
    destruct P as [P1 P2]. rewrite P1. cbn [bind]. destruct (Ascii.eqb_spec (hd nul k) nul); [contradiction|].
    rewrite (cstr_at_ok pre k ((v ++ nul :: recs l) ++ [nul]) (length pre) O1 eq_refl). cbn [bind].
    destruct (list_eq_dec Ascii.ascii_dec k name); [do 2 f_equal; lia|].
    replace (pre ++ k ++ nul :: (v ++ nul :: recs l) ++ [nul]) with ((pre ++ k ++ [nul]) ++ v ++ nul :: (recs l ++ [nul]))
      by (norm_app).
    rewrite (cstr_at_ok (pre ++ k ++ [nul]) v (recs l ++ [nul]) _ O2) by (rewrite !app_length; cbn; lia). cbn [bind].
    replace ((pre ++ k ++ [nul]) ++ v ++ nul :: (recs l ++ [nul])) with ((pre ++ rec (k, v)) ++ recs l ++ [nul])
      by (unfold rec; cbn [fst snd]; norm_app).
    replace (length pre + length k + 1 + length v + 1) with (length (pre ++ rec (k, v))) by (rewrite app_length, rec_length; lia).
    rewrite IH by lia. destruct (pos_of l name); [|reflexivity]. do 2 f_equal. rewrite app_length. lia.
Qed.

Lemma pos_none l name : pos_of l name = None <-> ~ In name (map fst l).
Proof.
  induction l as [|[k v] l IH]; cbn; [tauto|]. destruct (list_eq_dec Ascii.ascii_dec k name) as [->|N].
  - split; [discriminate|]. intros H. exfalso. apply H. left. reflexivity.
  - destruct (pos_of l name); split; intros H; try discriminate; try reflexivity.
    + exfalso. apply H. right. destruct (in_dec (list_eq_dec Ascii.ascii_dec) name (map fst l)) as [I|I]; [exact I|]. apply IH in I. discriminate.
    + intros [E|I]; [congruence|]. apply IH in I; auto.
Qed.

Lemma pos_some l name p : pos_of l name = Some p -> exists l1 v l2, l = l1 ++ (name, v) :: l2 /\ p = length (recs l1) + length name + 1.
Proof.
  revert p. induction l as [|[k v] l IH]; cbn [pos_of]; intros p H; [discriminate|].
  destruct (list_eq_dec Ascii.ascii_dec k name) as [->|N].
  - injection H as <-. exists [], v, l. split; [reflexivity|]. cbn. lia.
  - destruct (pos_of l name) as [q|]; [|discriminate]. injection H as <-. destruct (IH q eq_refl) as (l1 & w & l2 & E & P).
    exists ((k, v) :: l1), w, l2. split; [cbn; rewrite E; reflexivity|]. rewrite P, recs_cons. cbn [fst snd]. rewrite rec_length.
    rewrite !app_length. cbn. rewrite app_length. cbn. lia.
Qed.

Fixpoint look (l : list (bytes * bytes)) (name : bytes) : option bytes :=
  match l with
  | [] => None
  | (k, v) :: l => if list_eq_dec Ascii.ascii_dec k name then Some v else look l name
  end.

Lemma look_mid l1 name v l2 : ~ In name (map fst l1) -> look (l1 ++ (name, v) :: l2) name = Some v.
Proof.
  induction l1 as [|[k w] l1 IH]; cbn; intros H.
  - destruct (list_eq_dec Ascii.ascii_dec name name); congruence.
  - destruct (list_eq_dec Ascii.ascii_dec k name) as [->|N]; [exfalso; apply H; left; reflexivity|]. apply IH. tauto.
Qed.

Lemma look_none l name : ~ In name (map fst l) -> look l name = None.
Proof.
  induction l as [|[k w] l IH]; cbn; intros H; [reflexivity|].
  destruct (list_eq_dec Ascii.ascii_dec k name) as [->|N]; [exfalso; apply H; left; reflexivity|]. apply IH. tauto.
Qed.

Lemma look_app l1 l2 name : look (l1 ++ l2) name = match look l1 name with Some v => Some v | None => look l2 name end.
Proof. induction l1 as [|[k w] l1 IH]; cbn; [reflexivity|]. destruct (list_eq_dec Ascii.ascii_dec k name); [reflexivity|exact IH]. Qed.

Lemma recs_count l : length l <= length (recs l).
Proof. induction l as [|p l IH]; [cbn; lia|]. rewrite recs_cons, !app_length. cbn. rewrite app_length. cbn. lia. Qed.

Lemma get_pos_ok l a name : inv l a -> get_pos a (Some name) = Ok (pos_of l name).
Proof.
  intros (F & N & L & [E|[-> E]]); unfold get_pos; rewrite E; [|reflexivity].
  pose proof (find_ok name l F (length (map Some (recs l ++ [nul]))) []) as X. cbn [app length] in X. rewrite X.
  - destruct (pos_of l name); reflexivity.
  - rewrite map_length, app_length. cbn. pose proof (recs_count l). lia.
Qed.

Lemma mid_split l1 name v l2 : recs (l1 ++ (name, v) :: l2) ++ [nul] =
  (recs l1 ++ name ++ [nul]) ++ v ++ nul :: (recs l2 ++ [nul]).
Proof. rewrite recs_app, recs_cons. cbn [fst snd]. norm_app. Qed.

Lemma get_ok l a name : inv l a -> get a (Some name) = Ok (look l name).
Proof.
  intros I. unfold get. rewrite (get_pos_ok l a name I). cbn [bind]. destruct I as (F & N & L & E).
  destruct (pos_of l name) as [p|] eqn:P.
  - apply pos_some in P. destruct P as (l1 & v & l2 & -> & ->). destruct E as [E|[E _]]; [|destruct l1; discriminate].
    rewrite E, mid_split. apply Forall_app in F. destruct F as [_ F]. inversion F as [|? ? (O1 & O2 & _) _]; subst. cbn [snd] in O2.
    rewrite cstr_at_ok; [|exact O2|rewrite !app_length; cbn; lia]. cbn [bind]. rewrite look_mid; [reflexivity|].
    rewrite map_app in N. cbn in N. apply NoDup_remove_2 in N. intros H. apply N. apply in_or_app. left. exact H.
  - apply pos_none in P. rewrite look_none by exact P. destruct (attrlist a); reflexivity.
Qed.

Lemma put_ok (a old b l : block) i : length l = length old -> i = length a -> put (a ++ old ++ b) i l = Ok (a ++ l ++ b).
Proof.
  intros L ->. unfold put. rewrite !app_length. destruct (Nat.leb_spec (length a + length l) (length a + (length old + length b))); [|lia].
  rewrite firstn_len. do 3 f_equal. rewrite app_assoc, L. rewrite <- app_length. apply skipn_len.
Qed.

Lemma remove_ok l1 name v l2 a : inv (l1 ++ (name, v) :: l2) a ->
  exists a', remove a name (length (recs l1) + length name + 1) = Ok a' /\ inv (l1 ++ l2) a'.
Proof.
  intros (F & N & L & E). destruct E as [E|[E _]]; [|destruct l1; discriminate].
  assert (F' := F). apply Forall_app in F. destruct F as [F1 F]. inversion F as [|? ? (O1 & O2 & _) F2]; subst. cbn [fst snd] in *.
  unfold remove. rewrite E. cbv iota.
  assert (CA : cstr_at (map Some (recs (l1 ++ (name, v) :: l2) ++ [nul])) (length (recs l1) + length name + 1) = Ok v).
  { rewrite mid_split. apply cstr_at_ok; [exact O2|rewrite !app_length; cbn; lia]. }
  rewrite CA. cbn [bind].
  replace (length (recs l1) + length name + 1 - (length name + 1)) with (length (recs l1)) by lia.
  assert (LA : attrlen a = length (recs l1) + (length name + length v + 2) + length (recs l2)).
  { rewrite L, recs_app, recs_cons, !app_length. cbn. rewrite app_length. cbn. lia. }
  replace (attrlen a - length (recs l1) - (length name + length v + 2) + 1) with (length (recs l2 ++ [nul])) by (rewrite app_length; cbn; lia).
  assert (SP : recs (l1 ++ (name, v) :: l2) ++ [nul] = recs l1 ++ rec (name, v) ++ (recs l2 ++ [nul])).
  { rewrite mid_split. unfold rec. cbn [fst snd]. norm_app. }
  rewrite SP. unfold memmove.
  assert (S1 : skipn (length (recs l1) + (length name + length v + 2)) (map Some (recs l1 ++ rec (name, v) ++ recs l2 ++ [nul])) = map Some (recs l2 ++ [nul])).
  { rewrite app_assoc, map_app. replace (length (recs l1) + (length name + length v + 2)) with (length (map (@Some Ascii.ascii) (recs l1 ++ rec (name, v))))
      by (rewrite map_length, app_length, rec_length; lia). apply skipn_len. }
  rewrite S1. rewrite map_length.
  destruct (Nat.leb_spec (length (recs l1) + (length name + length v + 2) + length (recs l2 ++ [nul])) (length (recs l1 ++ rec (name, v) ++ recs l2 ++ [nul]))) as [Q|Q];
    [|rewrite !app_length, rec_length in Q; lia].
  rewrite (firstn_all2 (map Some (recs l2 ++ [nul]))) by (rewrite map_length; lia).
  set (Y := map (@Some Ascii.ascii) (recs l2 ++ [nul])). set (X := rec (name, v) ++ recs l2 ++ [nul]).
  assert (XL : length X = length name + length v + 2 + length Y) by (unfold X, Y; rewrite app_length, map_length, rec_length; lia).
  assert (PO : put (map Some (recs l1 ++ X)) (length (recs l1)) Y = Ok (map Some (recs l1) ++ Y ++ skipn (length Y) (map Some X))).
  { rewrite map_app. rewrite <- (firstn_skipn (length Y) (map Some X)) at 1. apply put_ok; [|rewrite map_length; reflexivity].
    rewrite firstn_length, map_length. lia. }
  rewrite PO. cbn [bind]. eexists. split; [reflexivity|].
  assert (YL : length Y = length (recs l2) + 1) by (unfold Y; rewrite map_length, app_length; cbn; lia).
  split; [apply Forall_app; split; assumption|]. split.
  { rewrite map_app in *. cbn in N. apply NoDup_remove_1 in N. exact N. }
  cbn [attrlen attrlist]. split; [rewrite recs_app, app_length; lia|]. left. f_equal. unfold realloc.
  replace (attrlen a - (length name + length v + 2) + 1) with (length (map (@Some Ascii.ascii) (recs l1) ++ Y)) by (rewrite app_length, map_length; lia).
  rewrite app_assoc, firstn_len. match goal with |- context [repeat None ?k] => replace k with 0 by (rewrite !app_length, skipn_length; lia) end.
  cbn [repeat]. rewrite app_nil_r. unfold Y. rewrite recs_app, <- app_assoc. symmetry. apply map_app.
Qed.

Lemma append_ok l a n v : inv l a -> nul_free n -> nul_free v -> n <> [] -> v <> [] -> ~ In n (map fst l) ->
  exists a',
    (let total := length n + length v + 2 in
     let m := realloc (match attrlist a with Some m => m | None => [] end) (attrlen a + total + 1) in
     let! m := strcpy m (attrlen a) n in
     let! m := strcpy m (attrlen a + length n + 1) v in
     let len := attrlen a + total in
     let! m := put m len [Some nul] in
     Ok (Attrs (Some m) len)) = Ok a' /\ inv (l ++ [(n, v)]) a'.
Proof.
  intros (F & N & L & E) N1 N2 N3 N4 NI. cbn zeta.
  assert (R : exists x, realloc (match attrlist a with Some m => m | None => [] end) (attrlen a + (length n + length v + 2) + 1)
     = map Some (recs l) ++ x /\ length x = length n + length v + 3).
  { destruct E as [E|[-> E]]; rewrite E; unfold realloc.
    - exists (Some nul :: repeat None (length n + length v + 2)). rewrite map_length, app_length. cbn [length].
      rewrite firstn_all2 by (rewrite map_length, app_length; cbn; lia). rewrite map_app, <- app_assoc. cbn [map app]. split.
      + do 3 f_equal. lia.
      + rewrite repeat_length. lia.
    - cbn in L. exists (repeat None (length n + length v + 3)). rewrite firstn_nil. cbn. split; [f_equal; lia|apply repeat_length]. }
  destruct R as (x & R & XL). rewrite R. unfold strcpy.
  assert (P1 : put (map Some (recs l) ++ x) (attrlen a) (map Some (n ++ [nul])) = Ok (map Some (recs l) ++ map Some (n ++ [nul]) ++ skipn (length n + 1) x)).
  { rewrite <- (firstn_skipn (length n + 1) x) at 1. apply put_ok; [rewrite firstn_length, map_length, app_length; cbn; lia|rewrite map_length; exact L]. }
  rewrite P1. cbn [bind]. set (y := skipn (length n + 1) x). assert (YL : length y = length v + 2) by (unfold y; rewrite skipn_length; lia).
  assert (P2 : put (map Some (recs l) ++ map Some (n ++ [nul]) ++ y) (attrlen a + length n + 1) (map Some (v ++ [nul])) =
     Ok ((map Some (recs l) ++ map Some (n ++ [nul])) ++ map Some (v ++ [nul]) ++ skipn (length v + 1) y)).
  { rewrite app_assoc. rewrite <- (firstn_skipn (length v + 1) y) at 1.
    apply put_ok; [rewrite firstn_length, map_length, app_length; cbn; lia|rewrite app_length, !map_length, app_length; cbn; lia]. }
  rewrite P2. cbn [bind]. set (z := skipn (length v + 1) y). assert (ZL : length z = 1) by (unfold z; rewrite skipn_length; lia).
  assert (P3 : put ((map Some (recs l) ++ map Some (n ++ [nul])) ++ map Some (v ++ [nul]) ++ z) (attrlen a + (length n + length v + 2)) [Some nul] =
     Ok (((map Some (recs l) ++ map Some (n ++ [nul])) ++ map Some (v ++ [nul])) ++ [Some nul] ++ [])).
  { rewrite app_assoc. rewrite <- (app_nil_r z). apply put_ok; [cbn; lia|rewrite !app_length, !map_length, !app_length; cbn; lia]. }
  rewrite P3. cbn [bind]. eexists. split; [reflexivity|]. unfold inv. cbn [attrlen attrlist].
  split; [apply Forall_app; split; [exact F|constructor; [|constructor]; repeat split; assumption]|]. split.
  { rewrite map_app. cbn [map fst]. clear - N NI. induction (map fst l) as [|q w IH]; cbn; [repeat constructor; intros []|].
    inversion N; subst. constructor.
    - intros I. apply in_app_or in I. destruct I as [I|[->|[]]]; [contradiction|]. apply NI. left. reflexivity.
    - apply IH; [assumption|]. intros I. apply NI. right. exact I. }
  assert (RR : recs (l ++ [(n, v)]) = recs l ++ (n ++ [nul]) ++ v ++ [nul]).
  { rewrite recs_app, recs_cons. cbn [fst snd]. change (recs []) with (@nil Ascii.ascii). norm_app. }
  split; [rewrite RR, !app_length; cbn; lia|]. left. f_equal. rewrite RR, !map_app. cbn [map]. norm_app.
Qed.

Lemma set_ok l a n v : inv l a -> cs n -> cs v -> exists l' a', set a n v = Ok a' /\ inv l' a' /\
  forall name, look l' name = assigned name (look l name) (n, v).
Proof.
  intros I CN CV. destruct n as [[|c n]|]; [exists l, a; split; [reflexivity|split; [exact I|reflexivity]]| |exists l, a; split; [reflexivity|split; [exact I|reflexivity]]].
  set (k := c :: n) in *. assert (KN : k <> []) by discriminate.
  assert (AS : forall name cur v, assigned name cur (Some k, v) = if list_eq_dec Ascii.ascii_dec k name then (if blank v then None else v) else cur) by reflexivity.
  assert (SE : set a (Some k) v = let! p := get_pos a (Some k) in let! a := match p with Some p => remove a k p | None => Ok a end in
    match v with
    | None | Some [] => Ok a
    | Some v =>
      let total := length k + length v + 2 in
      let m := realloc (match attrlist a with Some m => m | None => [] end) (attrlen a + total + 1) in
      let! m := strcpy m (attrlen a) k in
      let! m := strcpy m (attrlen a + length k + 1) v in
      let len := attrlen a + total in
      let! m := put m len [Some nul] in
      Ok (Attrs (Some m) len)
    end) by reflexivity.
  clearbody k. rewrite SE. clear SE.
  assert (ST : exists l1 a1, (let! p := get_pos a (Some k) in match p with Some p => remove a k p | None => Ok a end) = Ok a1 /\ inv l1 a1 /\
     ~ In k (map fst l1) /\ forall name, look l1 name = if list_eq_dec Ascii.ascii_dec k name then None else look l name).
  { rewrite (get_pos_ok l a k I). cbn [bind]. destruct (pos_of l k) as [p|] eqn:P.
    - apply pos_some in P. destruct P as (l1 & w & l2 & -> & ->). destruct (remove_ok l1 k w l2 a I) as (a1 & R & I1).
      exists (l1 ++ l2), a1. split; [exact R|]. split; [exact I1|].
      assert (NI : ~ In k (map fst (l1 ++ l2))).
      { destruct I as (_ & N & _). rewrite map_app in *. cbn in N. apply NoDup_remove_2 in N. exact N. }
      split; [exact NI|]. intros name. destruct (list_eq_dec Ascii.ascii_dec k name) as [<-|D]; [apply look_none; exact NI|].
      rewrite !look_app. cbn. destruct (list_eq_dec Ascii.ascii_dec k name); [contradiction|]. reflexivity.
    - apply pos_none in P. exists l, a. split; [reflexivity|]. split; [exact I|]. split; [exact P|]. intros name.
      destruct (list_eq_dec Ascii.ascii_dec k name) as [<-|D]; [apply look_none; exact P|reflexivity]. }
  destruct ST as (l1 & a1 & S1 & I1 & NI & LK). 
  destruct (get_pos a (Some k)) as [p| |]; cbn [bind] in S1 |- *; try discriminate. rewrite S1. cbn [bind].
  destruct v as [[|d v]|].
  - exists l1, a1. split; [reflexivity|]. split; [exact I1|]. intros name. rewrite LK, AS. reflexivity.
  - destruct (append_ok l1 a1 k (d :: v) I1 CN CV KN ltac:(discriminate) NI) as (a' & A & I').
    exists (l1 ++ [(k, d :: v)]), a'. split; [exact A|]. split; [exact I'|]. intros name. rewrite look_app, LK, AS. cbn [look blank].
    destruct (list_eq_dec Ascii.ascii_dec k name); [reflexivity|]. destruct (look l name); reflexivity.
  - exists l1, a1. split; [reflexivity|]. split; [exact I1|]. intros name. rewrite LK, AS. reflexivity.
Qed.

Lemma sets_ok h : forall l a, Forall (fun p => cs (fst p) /\ cs (snd p)) h -> inv l a -> exists l' a', sets a h = Ok a' /\ inv l' a' /\
  forall name, look l' name = fold_left (assigned name) h (look l name).
Proof.
  induction h as [|[n v] h IH]; intros l a F I; cbn [sets fold_left]; [exists l, a; auto|].
  inversion F as [|? ? [C1 C2] F']; subst. destruct (set_ok l a n v I C1 C2) as (l1 & a1 & S & I1 & L1). rewrite S. cbn [bind].
  destruct (IH l1 a1 F' I1) as (l2 & a2 & S2 & I2 & L2). exists l2, a2. split; [exact S2|]. split; [exact I2|].
  intros name. rewrite L2, L1. reflexivity.
Qed.

Lemma inv_create : inv [] create.
Proof. split; [constructor|]. split; [constructor|]. split; [reflexivity|]. right. auto. Qed.

Lemma copy_ok l a : inv l a -> exists a', copy a = Ok a' /\ inv l a'.
Proof.
  intros (F & N & L & E). unfold copy. destruct (Nat.eqb_spec (attrlen a) 0) as [Z|Z].
  - exists (Attrs None 0). split; [reflexivity|]. assert (l = []) by (destruct l; [reflexivity|]; rewrite Z in L; pose proof (recs_count (p :: l)); cbn in *; lia).
    subst l. apply inv_create.
  - destruct E as [E|[-> E]]; [|cbn in L; lia]. rewrite E. rewrite map_length, app_length. cbn [length].
    destruct (Nat.leb_spec (attrlen a + 1) (length (recs l) + 1)); [|lia]. eexists. split; [reflexivity|].
    split; [exact F|]. split; [exact N|]. split; [exact L|]. left. cbn [attrlist]. f_equal. apply firstn_all2. rewrite map_length, app_length. cbn. lia.
Qed.
