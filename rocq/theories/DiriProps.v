(** C97: walking through directories. *)
From Verif Require Import Base BaseFacts StrModel DiriSpec DiriModel DiriProofs.
Local Open Scope nat_scope.

Lemma start_inv name l rec skip : proper_all l -> inv (start name (Some l) rec skip) [].
Proof. intros P. constructor; cbn; auto. Qed.
Lemma start_left name l rec skip : left_over (start name (Some l) rec skip) [] = listing (enters (start name (Some l) rec skip)) (drop_slash name) [] l.
Proof. unfold left_over. cbn [start dirs rem dirname todo]. apply app_nil_r. Qed.

Lemma start_placed name l rec skip : placed (drop_slash name) l (start name (Some l) rec skip).
Proof. intros p t (f & n & [<-|[]] & H & ->). apply At_here, H. Qed.

(** Any tree, read in any order: the entries are exactly those in it, each directory's
    right after it if the walk is recursive, with their full and relative names. *)
Theorem C97_walk name l rec : proper_all l -> forall fuel, length (listing (fun _ => rec) (drop_slash name) [] l) < fuel ->
  collect fuel (start name (Some l) rec false) = Ok (listing (fun _ => rec) (drop_slash name) [] l).
Proof.
  intros P fuel L. assert (E : listing (fun _ => rec) (drop_slash name) [] l = left_over (start name (Some l) rec false) []) by (rewrite start_left; destruct rec; reflexivity).
  rewrite E in *. eapply collect_ok; [apply start_inv, P|reflexivity|apply le_n|exact L].
Qed.
(** A directory that cannot be opened has no entries. *)
Theorem C97_closed name rec skip : collect 1 (start name None rec skip) = Ok [].
Proof. reflexivity. Qed.
(** Leaving out other file systems: what is entered is what is on the device of the first
    entry. *)
Theorem C97_mounts_partial name n t l : proper_all ((n, t) :: l) -> forall fuel, length (listing (fun d => Nat.eqb d (dev t)) (drop_slash name) [] ((n, t) :: l)) < fuel ->
  collect fuel (start name (Some ((n, t) :: l)) true true) = Ok (listing (fun d => Nat.eqb d (dev t)) (drop_slash name) [] ((n, t) :: l)).
Proof.
  intros P fuel L. assert (E : listing (fun d => Nat.eqb d (dev t)) (drop_slash name) [] ((n, t) :: l) = left_over (start name (Some ((n, t) :: l)) true true) []) by (rewrite start_left; reflexivity).
  rewrite E in *. eapply collect_ok; [apply start_inv, P|reflexivity|apply le_n|exact L].
Qed.

(** At the end it stays at the end; and rewind() there starts the same walk again. *)
Theorem C97_end name l rec s s' : proper_all l -> reached (start name (Some l) rec false) s -> next s = Ok (s', None) ->
  (exists s'', next s' = Ok (s'', None)) /\
  forall fuel, length (listing (fun _ => rec) (drop_slash name) [] l) < fuel -> collect fuel (rewind s') = Ok (listing (fun _ => rec) (drop_slash name) [] l).
Proof.
  intros P R E. destruct (reached_ok _ (start_inv name l rec false P) eq_refl s R) as (ns & I & G & SE & _). destruct (next_end s s' None E (proj1 SE) G) as [SE2 SN]. destruct (SN eq_refl) as (f & D).
  destruct (same_end_trans _ _ _ SE SE2) as (_ & R1 & R2 & A). destruct (A f) as [A1 A2]. rewrite D in A1, A2. cbn in A1, A2, R1, R2.
  destruct (next_ok s ns I G) as [(Z & s1 & ns1 & E1 & I1 & G1 & Z1)|(e & s1 & ns1 & t & c & E1 & _)]; rewrite E in E1; [|discriminate]. injection E1 as <-. split.
  - destruct (next_ok s' ns1 I1 G1) as [(_ & s2 & ns2 & E2 & _)|(e & s2 & ns2 & t & c & _ & _ & _ & LO & _)]; [eauto|congruence].
  - intros fuel L. destruct I1 as [L1 RP N1 _ T1]. rewrite D in L1. destruct ns1; [|discriminate L1]. cbn in RP.
    assert (RW : rewind s' = Iter [Frame l l (drop_slash name)] [] false rec false (topdev s')) by (unfold rewind; rewrite D; cbn [rev app]; rewrite A1, A2, RP, G1, R1, R2; reflexivity).
    assert (X : listing (fun _ => rec) (drop_slash name) [] l = left_over (rewind s') []) by (rewrite RW; unfold left_over; cbn [dirs rem dirname todo]; rewrite app_nil_r; destruct rec; reflexivity).
    rewrite X in *. eapply collect_ok; [rewrite RW; constructor; cbn; auto|rewrite RW; reflexivity|apply le_n|exact L].
Qed.

(** up() right after the entry of a directory: what comes next is what comes after that
    directory's contents; full names and kinds are right. *)
Theorem C97_up_partial name l s s1 e : proper_all l -> reached (start name (Some l) true false) s -> next s = Ok (s1, Some e) ->
  exists t c, is_at (drop_slash name) l (fullname e) t /\ folder e = is_folder t /\
    (forall fuel, length (below (fun _ => true) (fullname e) (relname e ++ B "/") t ++ c) < fuel -> collect fuel s1 = Ok (below (fun _ => true) (fullname e) (relname e ++ B "/") t ++ c)) /\
    forall d kids, t = Folder d true kids -> forall fuel, S (length c) < fuel -> exists r, collect fuel (up s1) = Ok r /\ map key r = map key c.
Proof.
  intros P R E. destruct (reached_ok _ (start_inv name l true false P) eq_refl s R) as (ns & I & G & SE & TD & EN). destruct SE as (Nd & R1 & R2 & _). cbn in R1, R2.
  destruct (next_ok s ns I G) as [(Z & s2 & ns2 & E1 & _)|(e1 & s2 & ns2 & t & c & E1 & I2 & G2 & LO & [F IF] & EN2 & BL & UP)]; rewrite E in E1; [discriminate|]. injection E1 as <- <-. exists t, c.
  assert (EA : enters s = fun d => (true && (negb false || Nat.eqb d (top0 s)))%bool) by (unfold enters; rewrite R1, R2; reflexivity). cbn in EA.
  split; [eapply reached_placed; [apply start_placed| |exact R|exact IF]; intros s3 R3; destruct (reached_ok _ (start_inv name l true false P) eq_refl s3 R3) as (n3 & _ & G3 & _); exact G3|].
  split; [exact F|]. rewrite EA in BL. split.
  - intros fuel L. rewrite <- BL in *. eapply collect_ok; [exact I2|exact G2|apply le_n|exact L].
  - intros d kids -> fuel L. destruct (UP d kids eq_refl) as (g & fs & D1 & Nf & C); [rewrite EA; reflexivity|].
    assert (TD2 : exists d0, topdev s1 = Some d0). { destruct I2 as [_ _ _ _ T2]. destruct (topdev s1); [eauto|]. specialize (T2 eq_refl). rewrite D1 in T2. destruct fs; [congruence|discriminate T2]. } destruct TD2 as (d0 & TD2).
    set (s3 := Iter fs (relpath s1) false (recurse s1) (skip_mounts s1) (topdev s1)).
    assert (NX : next (up s1) = next s3). { unfold next, up. cbn [dirs go_up relpath recurse skip_mounts topdev s3]. rewrite D1. destruct fs; [congruence|]. reflexivity. }
    assert (EN3 : enters s3 = enters s1) by (unfold enters, top0; cbn; rewrite TD2; reflexivity).
    assert (K : remk (enters s3) (dirs s3) = map key c) by (rewrite EN3, EN2, C; cbn [dirs s3]; symmetry; apply rem_key).
    assert (CO : collect fuel (up s1) = collect fuel s3) by (destruct fuel; [reflexivity|]; cbn [collect]; rewrite NX; reflexivity).
    rewrite CO. destruct (collect_keys (length c) s3 d0 eq_refl Nf TD2) with (fuel := fuel) as (r & Er & Mr); [rewrite K, map_length; lia|lia|]. exists r. split; [exact Er|]. rewrite Mr. exact K.
Qed.

Definition tip : list (bytes * tree) := [(B "a", Folder 1 true [(B "x", Leaf 1); (B "y", Leaf 1)]); (B "b", Leaf 1)].
Definition second (s : iter) : res iter := let! (s, _) := next s in Ok s.
Definition rels (r : res (list ent)) : list bytes := match r with Ok l => map relname l | _ => [] end.
(** After up() the relative names are wrong: b is called a/b. *)
Theorem C97_up_refuted : rels (let! s := second (start (B "/t") (Some tip) true false) in collect 9 (up s)) = [B "a/b"] /\
  rels (collect 9 (start (B "/t") (Some tip) true false)) = [B "a"; B "a/x"; B "a/y"; B "b"].
Proof. split; vm_compute; reflexivity. Qed.
(** After up() at a directory that cannot be opened the rest of its parent is left out, too. *)
Theorem C97_up_closed_refuted :
  let l := [(B "p", Folder 1 true [(B "i", Folder 1 false []); (B "f", Leaf 1)]); (B "b", Leaf 1)] in
  exists s s' e, reached (start (B "/t") (Some l) true false) s /\ next s = Ok (s', Some e) /\ fullname e = B "/t/p/i" /\ folder e = true /\
    rels (collect 9 s') = [B "p/f"; B "b"] /\ rels (collect 9 (up s')) = [B "p/b"].
Proof. cbv zeta. eexists _, _, _. split; [eapply R_next; [apply R_start|vm_compute; reflexivity]|]. split; [vm_compute; reflexivity|]. repeat split; vm_compute; reflexivity. Qed.
(** After rewind() in the middle of a walk likewise. *)
Theorem C97_rewind_refuted : rels (let! s := second (start (B "/t") (Some tip) true false) in collect 9 (rewind s)) = [B "a/a"; B "a/a/x"; B "a/a/y"; B "b"].
Proof. vm_compute. reflexivity. Qed.
(** If the first entry is the root of another file system, then that one is entered and the
    start's own directories are not. *)
Theorem C97_mounts_refuted :
  let l := [(B "mnt", Folder 2 true [(B "m", Leaf 2)]); (B "sub", Folder 1 true [(B "s", Leaf 1)])] in
  rels (collect 9 (start (B "/t") (Some l) true true)) = [B "mnt"; B "mnt/m"; B "sub"].
Proof. vm_compute. reflexivity. Qed.
(** up() at the level of the start: next() is false once, and then goes on. *)
Theorem C97_resumes_refuted : exists s s', next (up (start (B "/t") (Some tip) true false)) = Ok (s, None) /\ exists e, next s = Ok (s', Some e) /\ relname e = B "a".
Proof. eexists _, _. split; [vm_compute; reflexivity|]. eexists. split; vm_compute; reflexivity. Qed.

Definition deep : list (bytes * tree) := [(B "a", Folder 1 true [(B "b", Folder 1 true [(B "c", Folder 1 true [(B "f", Leaf 1)]); (B "g", Leaf 1)]); (B "h", Leaf 1)]); (B "i", Folder 1 false [(B "j", Leaf 1)])].
Example C97_ex_meets : proper_all deep /\ proper_all tip /\ exists s s' e, reached (start (B "/t/") (Some tip) true false) s /\ next s = Ok (s', Some e).
Proof.
  assert (N : forall n, In n [B "a"; B "b"; B "c"; B "f"; B "g"; B "h"; B "i"; B "j"; B "x"; B "y"] -> named n).
  { intros n H. cbn [In] in H. repeat (destruct H as [<-|H]; [split; [discriminate|intros [X|[]]; discriminate]|]). contradiction. }
  assert (X : forall l, (fix ok (t : tree) : Prop := match t with Leaf _ => True | Folder _ _ k => (fix all (l : list (bytes * tree)) : Prop := match l with [] => True | (n, t) :: l => named n /\ ok t /\ all l end) k end) (Folder 0 true l) -> proper_all l).
  { assert (Y : forall t, (fix ok (t : tree) : Prop := match t with Leaf _ => True | Folder _ _ k => (fix all (l : list (bytes * tree)) : Prop := match l with [] => True | (n, t) :: l => named n /\ ok t /\ all l end) k end) t -> proper t).
    { fix Y 1. intros [d|d r k]; [intros _; constructor|]. intros H. constructor. revert H. induction k as [|[n t] k IH]; intros H; [constructor|]. destruct H as (H1 & H2 & H3). constructor; [split; [exact H1|apply Y, H2]|apply IH, H3]. }
    intros l H. assert (Z := Y (Folder 0 true l) H). inversion Z; assumption. }
  split; [apply X; cbn; repeat split; apply N; cbn; auto 12|]. split; [apply X; cbn; repeat split; apply N; cbn; auto 12|]. eexists _, _, _. split; [apply R_start|vm_compute; reflexivity].
Qed.
Example C97_ex : rels (collect 20 (start (B "/t/") (Some deep) true false)) = [B "a"; B "a/b"; B "a/b/c"; B "a/b/c/f"; B "a/b/g"; B "a/h"; B "i"] /\
  (match collect 20 (start (B "/t/") (Some deep) true false) with Ok l => map fullname l | _ => [] end) = [B "/t/a"; B "/t/a/b"; B "/t/a/b/c"; B "/t/a/b/c/f"; B "/t/a/b/g"; B "/t/a/h"; B "/t/i"] /\
  rels (collect 20 (start (B "/t/") (Some deep) false false)) = [B "a"; B "i"].
Proof. repeat split; vm_compute; reflexivity. Qed.

Print Assumptions C97_walk.
Print Assumptions C97_closed.
Print Assumptions C97_mounts_partial.
Print Assumptions C97_end.
Print Assumptions C97_up_partial.
Print Assumptions C97_up_refuted.
Print Assumptions C97_up_closed_refuted.
Print Assumptions C97_rewind_refuted.
Print Assumptions C97_mounts_refuted.
Print Assumptions C97_resumes_refuted.
