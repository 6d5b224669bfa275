(** C33, C34: generators that restrict access. *)
From Verif Require Import Base Ctype KeyModel KeySpec KeyProofs TempModel TempSpec TreeProofs TempProofs StrIntModel MountSpec MountProps PermModel PermSpec PermProofs.
Local Open Scope nat_scope.

(** Through a read-only generator, whatever is called but a bulk set, the inner
    generator only sees the refreshes and commits. *)
Definition refresh_or_commit (c : call) : bool := match c with CRefresh | CCommit => true | _ => false end.
Theorem C33_readonly_partial {S} (gset : S -> list bytes -> option bytes -> S) grefresh gcommit gflush cs s :
  forallb not_bulk cs = true ->
  fold_left (ro_call gset grefresh gcommit gflush) cs s =
  fold_left (fun s c => match c with CRefresh => grefresh s | CCommit => gcommit s | _ => s end) (filter refresh_or_commit cs) s.
Proof.
  revert s. induction cs as [|c cs IH]; intros s H; cbn [fold_left filter]; [reflexivity|]. cbn in H. apply andb_true_iff in H. destruct H as [H1 H2]. destruct c; cbn [refresh_or_commit fold_left ro_call filter_call]; try apply IH, H2. discriminate.
Qed.
Theorem C33_readonly_refuted : exists (g : gen) c, tget g [B "a"] = Some (B "old") /\
  tget (ro_call tset' (fun g => g) (fun g => g) (fun g => g) g c) [B "a"] = Some (B "new").
Proof. exists (tset' tinit [B "a"] (Some (B "old"))), (CSetv [([B "a"], Some (B "new"))]). vm_compute. split; reflexivity. Qed.

(** Through a subtree generator one sees, and sets, the part of the inner generator
    under its key; outside of it nothing changes, but that missing keys above the
    subtree come to exist. *)
Theorem C33_subtree_get {S} (gget : S -> list bytes -> option bytes) sub k s : Forall plain sub -> Forall plain k ->
  sub_get gget sub s k = gget s (sub ++ k).
Proof. intros P Q. unfold sub_get, filter_get. rewrite keymap_plain by assumption. reflexivity. Qed.
Theorem C33_subtree_set {S} ok (gget : S -> list bytes -> option bytes) gset grefresh gcommit gflush sub k v s :
  lawful ok gget gset -> Forall plain sub -> Forall plain k -> ok s ->
  let s' := sub_call gset grefresh gcommit gflush sub s (CSet k v) in
  (forall q, Forall plain q -> sub_get gget sub s' q = set_spec (sub_get gget sub s) k v q) /\
  (forall q, Forall plain q -> under sub q = false -> gget s' q = gget s q \/ (gget s q = None /\ gget s' q = Some [] /\ under q sub = true)).
Proof. intros L P Q O. destruct (sub_set gget gset grefresh gcommit gflush ok L sub k v s P Q O) as (_ & H). exact H. Qed.
(** The same for any sequence of calls other than bulk sets, refreshes and commits. *)
Theorem C33_subtree_partial {S} ok (gget : S -> list bytes -> option bytes) gset grefresh gcommit sub cs s :
  lawful ok gget gset -> Forall plain sub -> ok s ->
  Forall (fun c => not_bulk c = true /\ refresh_or_commit c = false /\ match c with CSet k _ => Forall plain k | _ => True end) cs ->
  let s' := fold_left (sub_call gset grefresh gcommit (fun s => s) sub) cs s in
  forall q, Forall plain q -> under sub q = false -> gget s' q = gget s q \/ (gget s q = None /\ gget s' q = Some [] /\ under q sub = true).
Proof.
  intros L P. revert s. induction cs as [|c cs IH]; intros s O F; cbn [fold_left]; cbn zeta; [auto|]. intros q Pq U. destruct (Forall_inv F) as (Nb & Nr & Kc).
  assert (X : ok (sub_call gset grefresh gcommit (fun s => s) sub s c) /\ (gget (sub_call gset grefresh gcommit (fun s => s) sub s c) q = gget s q \/
    (gget s q = None /\ gget (sub_call gset grefresh gcommit (fun s => s) sub s c) q = Some [] /\ under q sub = true))).
  { destruct c; try discriminate; try (split; [exact O|left; reflexivity]). destruct (sub_set gget gset grefresh gcommit (fun s => s) ok L sub k v s P Kc O) as (O' & _ & H). split; [exact O'|apply H; assumption]. }
  destruct X as [O' X]. destruct (IH _ O' (Forall_inv_tail F) q Pq U) as [Y|(Y1 & Y2 & Y3)], X as [X|(X1 & X2 & X3)].
  - left. congruence.
  - right. split; [exact X1|]. split; congruence.
  - right. split; [congruence|]. auto.
  - congruence.
Qed.
Theorem C33_subtree_refuted : exists (g : gen) c sub, Forall plain sub /\ under sub [B "x"] = false /\ tget g [B "x"] = Some (B "old") /\
  tget (sub_call tset' (fun g => g) (fun g => g) (fun g => g) sub g c) [B "x"] = Some (B "new").
Proof.
  exists (tset' tinit [B "x"] (Some (B "old"))), (CSetv [([B "x"], Some (B "new"))]), [B "sub"]. split; [|vm_compute; repeat split]. apply (Forall_cons (P := plain)); [plain_seg|constructor].
Qed.
(** A change below the subtree, and no other, is passed on, at its place in it. *)
Theorem C33_subtree_notify sub k v : Forall plain sub -> Forall plain k -> short k ->
  (under sub k = false -> sub_notify sub (k, v) = []) /\
  (under sub k = true -> exists k', sub_notify sub (k, v) = [(k', v)] /\ same k (sub ++ k') = true).
Proof.
  intros P Q Sh. destruct (reverse_plain sub k P Q Sh) as [A Bb]. unfold sub_notify. cbn [fst snd]. split; intros U.
  - rewrite (Bb U). reflexivity.
  - rewrite (A U). eexists. split; [reflexivity|]. apply same_lows. apply MountProofs.under_firstn in U. rewrite lows_app, <- U, <- lows_app, firstn_skipn. reflexivity.
Qed.

(** ** Secure generators *)
(** A set is passed on if it is granted, and otherwise nothing happens. *)
Theorem C33_secure_set {S P} (gset : S -> list bytes -> option bytes -> S) grefresh gcommit gflush (pget : P -> list bytes -> option bytes) prefresh pcommit g k v :
  good_key k -> exists g', sec_call gset grefresh gcommit gflush pget prefresh pcommit g (CSet k v) = Ok g' /\
  perms g' = perms g /\ cred g' = cred g /\
  (granted (pget (perms g)) (cred g) (named k) WRITE -> inner g' = gset (inner g) k v) /\
  (~ granted (pget (perms g)) (cred g) (named k) WRITE -> inner g' = inner g).
Proof.
  intros K. cbn [sec_call]. unfold may. destruct (findperm_ok (pget (perms g)) k (cred g) WRITE K) as (b & -> & H). cbn [bind]. eexists. split; [reflexivity|].
  destruct b; (split; [reflexivity|]); (split; [reflexivity|]); (split; [intros Q|intros Q]); try reflexivity; [elim Q; apply H; reflexivity|]. apply H in Q. discriminate.
Qed.
(** In any sequence of calls without bulk sets, refreshes and commits the inner
    generator sees exactly the sets that are granted, in order. *)
Definition call_key (c : call) : list bytes := match c with CSet k _ => k | _ => [] end.
Theorem C33_secure_partial {S P} (gset : S -> list bytes -> option bytes -> S) grefresh gcommit gflush (pget : P -> list bytes -> option bytes) prefresh pcommit cs g :
  Forall (fun c => not_bulk c = true /\ refresh_or_commit c = false /\ good_key (call_key c)) cs ->
  exists g' sets, fold_left (fun r c => let! g := r in sec_call gset grefresh gcommit gflush pget prefresh pcommit g c) cs (Ok g) = Ok g' /\
    perms g' = perms g /\ cred g' = cred g /\ inner g' = fold_left (fun s p => gset s (fst p) (snd p)) sets (inner g) /\
    (forall k v, In (k, v) sets -> In (CSet k v) cs /\ granted (pget (perms g)) (cred g) (named k) WRITE) /\
    (forall k v, In (CSet k v) cs -> granted (pget (perms g)) (cred g) (named k) WRITE -> In (k, v) sets).
Proof.
  revert g. induction cs as [|c cs IH]; intros g F; cbn [fold_left].
  - exists g, []. split; [reflexivity|]. split; [reflexivity|]. split; [reflexivity|]. split; [reflexivity|]. split; intros ? ? [].
  - destruct (Forall_inv F) as (Nb & Nr & K). cbn [bind].
    assert (X : exists g1, sec_call gset grefresh gcommit gflush pget prefresh pcommit g c = Ok g1 /\ perms g1 = perms g /\ cred g1 = cred g /\
      (inner g1 = inner g /\ (forall k v, c = CSet k v -> ~ granted (pget (perms g)) (cred g) (named k) WRITE) \/
       exists k v, c = CSet k v /\ granted (pget (perms g)) (cred g) (named k) WRITE /\ inner g1 = gset (inner g) k v)).
    { destruct c; try discriminate; try (exists g; split; [destruct g; reflexivity|]; split; [reflexivity|]; split; [reflexivity|]; left; split; [reflexivity|]; discriminate).
      cbn [sec_call]. unfold may. destruct (findperm_ok (pget (perms g)) k (cred g) WRITE K) as (b & -> & H). cbn [bind]. eexists. split; [reflexivity|]. destruct b.
      - split; [reflexivity|]. split; [reflexivity|]. right. exists k, v. split; [reflexivity|]. split; [apply H; reflexivity|reflexivity].
      - split; [reflexivity|]. split; [reflexivity|]. left. split; [reflexivity|]. intros k' v' E Q. injection E as <- <-. apply H in Q. discriminate. }
    destruct X as (g1 & -> & Ep & Ec & X). destruct (IH g1 (Forall_inv_tail F)) as (g' & sets & Ef & Ep' & Ec' & Ei & A & Bb). rewrite Ep, Ec in *. destruct X as [[X1 X2]|(k & v & -> & G & X1)].
    + exists g', sets. rewrite X1 in Ei. split; [exact Ef|]. split; [exact Ep'|]. split; [exact Ec'|]. split; [exact Ei|]. split.
      * intros k v H. destruct (A k v H). split; [right; assumption|assumption].
      * intros k v [H|H] G; [elim (X2 k v H G)|apply Bb; assumption].
    + exists g', ((k, v) :: sets). rewrite X1 in Ei. split; [exact Ef|]. split; [exact Ep'|]. split; [exact Ec'|]. split; [exact Ei|]. split.
      * intros k' v' [H|H]; [injection H as <- <-; split; [left; reflexivity|exact G]|]. destruct (A k' v' H). split; [right; assumption|assumption].
      * intros k' v' [H|H] G'; [injection H as <- <-; left; reflexivity|right; apply Bb; assumption].
Qed.
(** A bulk set goes through without any permission. *)
Theorem C33_secure_refuted : exists (g : secure gen gen) c g', (forall k, ~ granted (tget (perms g)) (cred g) k WRITE) /\ tget (inner g) [B "a"] = None /\
  sec_call tset' (fun g => g) (fun g => g) (fun g => g) tget (fun g => g) (fun g => g) g c = Ok g' /\ tget (inner g') [B "a"] = Some (B "evil").
Proof.
  exists {| inner := tinit; perms := tinit; cred := {| user := Some (B "eve"); groups := [] |} |}, (CSetv [([B "a"], Some (B "evil"))]). eexists.
  split; [|split; [reflexivity|split; [reflexivity|vm_compute; reflexivity]]].
  intros k [_ (l & _ & (a & b & _ & H & _))]. unfold perm_at in H. cbn [perms tget tinit root] in H. discriminate.
Qed.

(** ** What permissions mean *)
(** The check always ends, and grants a right exactly if every key above the one
    asked for grants exec and the key itself, or the nearest above it that has the
    permission set, grants the right, at the level of the caller there. *)
Theorem C34_findperm get k c t : good_key k -> exists b, findperm get k c t = Ok b /\ (b = true <-> granted get c (named k) t).
Proof. apply findperm_ok. Qed.
(** Each caller is at exactly one level for each key. *)
Theorem C34_level get c p : exists l, at_level get c p l /\ forall l', at_level get c p l' -> l' = l.
Proof. exists (level_of get c p). split; [apply level_of_ok; reflexivity|]. intros l. apply level_of_ok. Qed.
(** An inherited value is unique. *)
Theorem C34_inherited {A} (f : list bytes -> option A) p : exists r, inherited f p r /\ forall r', inherited f p r' -> r' = r.
Proof. exists (nearest f p). split; [apply nearest_inherited|]. intros r' H. apply inherited_iff in H. congruence. Qed.
(** With no permission set anywhere, everything is denied. *)
Theorem C34_default get c : (forall p l t, perm_at get l t p = None) -> forall k t, good_key k -> findperm get k c t = Ok false.
Proof.
  intros H k t K. destruct (findperm_ok get k c t K) as (b & E & Q). destruct b; [|exact E]. destruct Q as [Q _]. destruct (Q eq_refl) as (_ & l & _ & (a & b & _ & E' & _)). rewrite H in E'. discriminate.
Qed.
(** Reading through a secure generator: values only with read permission, existence
    only with exec permission on the key above, children with exec permission. *)
Theorem C34_reading {S P} (gget : S -> list bytes -> option bytes) gexists ghaschildren (pget : P -> list bytes -> option bytes) g k :
  let may p t := granted (pget (perms g)) (cred g) p t in good_key k -> Forall plain k ->
  (exists v, sec_get gget pget g k = Ok v /\ (may k READ -> v = gget (inner g) k) /\ (~ may k READ -> v = None)) /\
  (exists b, sec_exists gexists pget g k = Ok b /\ (may (List.removelast k) EXEC -> b = gexists (inner g) k) /\ (~ may (List.removelast k) EXEC -> b = false)) /\
  (exists b, sec_haschildren ghaschildren pget g k = Ok b /\ (may k EXEC -> b = ghaschildren (inner g) k) /\ (~ may k EXEC -> b = false)).
Proof.
  cbn zeta. intros K Pk. pose proof K as [_ Sh]. unfold sec_get, sec_exists, sec_haschildren, may. split; [|split].
  - destruct (findperm_ok (pget (perms g)) k (cred g) READ K) as (b & -> & H). rewrite named_id in H by exact Pk. cbn [bind]. eexists. split; [reflexivity|]. destruct b; split; intros Q; try reflexivity; [elim Q; apply H; reflexivity|]. apply H in Q. discriminate.
  - assert (R : removelast k 1 = List.removelast k /\ good_key (List.removelast k) /\ Forall plain (List.removelast k)).
    { destruct k as [|y k0]; [split; [reflexivity|split; [exact K|exact Pk]]|]. destruct (exists_last (l := y :: k0) ltac:(discriminate)) as (k' & x & E). rewrite E in *. rewrite removelast_last. apply Forall_app in Pk. destruct Pk as [Pk _].
      split; [apply remove_snoc, Pk|]. split; [|exact Pk]. split; [left; exact Pk|]. unfold short in *. rewrite app_length in Sh. lia. }
    destruct R as (-> & Kr & Pr). destruct (findperm_ok (pget (perms g)) (List.removelast k) (cred g) EXEC Kr) as (b & -> & H). rewrite named_id in H by exact Pr. cbn [bind]. eexists. split; [reflexivity|]. destruct b; split; intros Q; try reflexivity; [elim Q; apply H; reflexivity|]. apply H in Q. discriminate.
  - destruct (findperm_ok (pget (perms g)) k (cred g) EXEC K) as (b & -> & H). rewrite named_id in H by exact Pk. cbn [bind]. eexists. split; [reflexivity|]. destruct b; split; intros Q; try reflexivity; [elim Q; apply H; reflexivity|]. apply H in Q. discriminate.
Qed.
(** Notifications are passed on exactly for keys that may be read. *)
Theorem C34_notify {S P} (pget : P -> list bytes -> option bytes) (g : secure S P) k v : good_key k ->
  exists n, sec_notify pget g (k, v) = Ok n /\
    (granted (pget (perms g)) (cred g) (named k) READ -> n = [(k, v)]) /\ (~ granted (pget (perms g)) (cred g) (named k) READ -> n = []).
Proof.
  intros K. unfold sec_notify, may. cbn [fst]. destruct (findperm_ok (pget (perms g)) k (cred g) READ K) as (b & -> & H). cbn [bind]. eexists. split; [reflexivity|]. destruct b; split; intros Q; try reflexivity; [elim Q; apply H; reflexivity|]. apply H in Q. discriminate.
Qed.
(** Iterating needs exec permission, shows every name, and each value only if it
    may be read; the inner generator has to have an iterator for the key. *)
Theorem C34_iterator_partial {S P} (gget : S -> list bytes -> option bytes) giter (pget : P -> list bytes -> option bytes) (g : secure S P) k names :
  Forall plain k -> Forall plain names -> (Z.of_nat (length k) < 2 ^ 31 - 1)%Z -> giter (inner g) k = Some names ->
  exists r, sec_iter gget giter pget g k = Ok r /\
    (~ granted (pget (perms g)) (cred g) k EXEC -> r = None) /\
    (granted (pget (perms g)) (cred g) k EXEC -> exists l, r = Some l /\ map fst l = names /\
       forall n v, In (n, v) l ->
         (granted (pget (perms g)) (cred g) (k ++ [n]) READ -> v = gget (inner g) (k ++ [n])) /\
         (~ granted (pget (perms g)) (cred g) (k ++ [n]) READ -> v = None)).
Proof.
  intros Pk Pn Sh Ei. assert (K : good_key k) by (split; [left; exact Pk|unfold short; lia]). unfold sec_iter. destruct (findperm_ok (pget (perms g)) k (cred g) EXEC K) as (b & E & H). unfold may at 1. rewrite E. rewrite named_id in H by exact Pk. cbn [bind]. destruct b.
  - rewrite Ei.
    assert (G : forall l, Forall plain l -> exists r, sec_walk gget pget g k l = Ok r /\ map fst r = l /\ forall n v, In (n, v) r ->
         (granted (pget (perms g)) (cred g) (k ++ [n]) READ -> v = gget (inner g) (k ++ [n])) /\ (~ granted (pget (perms g)) (cred g) (k ++ [n]) READ -> v = None)).
    { induction 1 as [|n l P1 _ IH]; [exists []; split; [reflexivity|split; [reflexivity|intros ? ? []]]|]. cbn [sec_walk]. destruct IH as (r & Er & Em & Q). 
      assert (Pn' : Forall plain (k ++ [n])) by (apply Forall_app; split; [exact Pk|constructor; [exact P1|constructor]]).
      assert (Ek : prependkey k [n] = k ++ [n]). { unfold prependkey. replace (filter not_nil k) with k; [apply plain_collapse, Pn'|]. rewrite <- (filter_plain k Pk) at 1. apply filter_ext. intros [|]; reflexivity. }
      rewrite Ek. assert (Kn : good_key (k ++ [n])) by (split; [left; exact Pn'|unfold short; rewrite app_length; cbn; lia]).
      unfold sec_get at 1, may. destruct (findperm_ok (pget (perms g)) (k ++ [n]) (cred g) READ Kn) as (b & -> & Hb). rewrite named_id in Hb by exact Pn'. cbn [bind]. rewrite Er. cbn [bind]. eexists. split; [reflexivity|]. split; [cbn; congruence|].
      intros m w [X|X]; [injection X as <- <-|apply Q, X]. destruct b; split; intros Y; try reflexivity; [elim Y; apply Hb; reflexivity|]. apply Hb in Y. discriminate. }
    destruct (G names Pn) as (r & Er & Em & Q). rewrite Er. cbn [bind]. exists (Some r). split; [reflexivity|]. split; [intros X; elim X; apply H; reflexivity|]. intros _. exists r. auto.
  - exists None. split; [reflexivity|]. split; [reflexivity|]. intros Q. apply H in Q. discriminate.
Qed.
(** chmod sets the nine permissions of a key to the bits of the mode and no other
    permission, owner or group. *)
Theorem C34_chmod {P} ok (pget : P -> list bytes -> option bytes) pset path m p : lawful ok pget pset -> canonical path -> ok p ->
  exists es, chmod path m = Ok es /\ let p' := fold_left (fun p e => pset p (fst e) (Some (snd e))) es p in
  (forall l t, perm_at (pget p') l t (named path) =
     Some (N.testbit m (match l with USER => 6 | GROUP => 3 | WORLD => 0 end + match t with READ => 2 | WRITE => 1 | EXEC => 0 end))) /\
  (forall q l t, Forall plain q -> same q (named path) = false -> perm_at (pget p') l t q = perm_at (pget p) l t q) /\
  (forall q n, Forall plain q -> In n [B "owner"; B "group"] -> name_at (pget p') n q = name_at (pget p) n q).
Proof. intros L C O. destruct (chmod_effect pget pset ok L path m p C O) as (es & E & _ & H). exists es. split; [exact E|exact H]. Qed.
(** Walking over an iterator for a key that is missing inside uses a null pointer. *)
Definition tnames (g : gen) (k : key) : option (list bytes) := match titer g k with Some l => Some (map fst l) | None => None end.
Definition ex_perms : gen := tset' (tset' tinit [B "world-exec"] (Some (B "1"))) [B "a"; B "world-read"] (Some (B "yes")).
Definition ex_sec : secure gen gen := {| inner := tset' (tset' tinit [B "a"] (Some (B "1"))) [B "b"] (Some (B "2")); perms := ex_perms; cred := {| user := Some (B "joe"); groups := [] |} |}.
Theorem C34_iterator_refuted : exists (g : secure gen gen) k, good_key k /\ findperm (tget (perms g)) k (cred g) EXEC = Ok true /\ sec_iter tget tnames tget g k = Fault.
Proof.
  exists ex_sec, [B "missing"]. split; [split; [left; apply (Forall_cons (P := plain)); [plain_seg|constructor]|unfold short; cbn; lia]|]. split; vm_compute; reflexivity.
Qed.
(** An entry of -1 is taken as not set. *)
Theorem C34_minus_one_refuted : exists v, str2int (Some v) 0 <> 0%Z /\ forall get c, (forall k, get k = Some v) -> forall k t, good_key k -> findperm get k c t = Ok false.
Proof.
  exists (B "-1"). split; [vm_compute; discriminate|]. intros get c H. apply C34_default. intros p l t. unfold perm_at. rewrite H. reflexivity.
Qed.

Example ex_read : sec_get tget tget ex_sec [B "a"] = Ok (Some (B "1")) /\ sec_get tget tget ex_sec [B "b"] = Ok None /\
  (sec_iter tget tnames tget ex_sec [] = Ok (Some [(B "a", Some (B "1")); (B "b", None)]) \/ sec_iter tget tnames tget ex_sec [] = Ok (Some [(B "b", None); (B "a", Some (B "1"))])).
Proof. vm_compute. tauto. Qed.
Example ex_granted : granted (tget ex_perms) (cred ex_sec) [B "a"] READ /\ ~ granted (tget ex_perms) (cred ex_sec) [B "b"] READ.
Proof.
  assert (K : forall s, plain s -> good_key [s]) by (intros s H; split; [left; constructor; [exact H|constructor]|unfold short; cbn; lia]).
  assert (Pa : plain (B "a")) by plain_seg. assert (Pb : plain (B "b")) by plain_seg.
  destruct (findperm_ok (tget ex_perms) [B "a"] (cred ex_sec) READ (K _ Pa)) as (x & Ex & Hx). destruct (findperm_ok (tget ex_perms) [B "b"] (cred ex_sec) READ (K _ Pb)) as (y & Ey & Hy).
  vm_compute in Ex. injection Ex as <-. vm_compute in Ey. injection Ey as <-. split; [apply Hx; reflexivity|]. intros Q. apply Hy in Q. discriminate.
Qed.
Example ex_chmod : match chmod [B "d"] 493 with Ok es => nth_error es 0 = Some ([B "d"; B "user-read"], B "1") /\ nth_error es 4 = Some ([B "d"; B "group-write"], B "0") | _ => False end.
Proof. vm_compute. auto. Qed.
Print Assumptions C33_subtree_partial.
Print Assumptions C33_secure_partial.
Print Assumptions C34_findperm.
Print Assumptions C34_chmod.
