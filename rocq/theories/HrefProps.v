(** C63: URLs are taken apart and printed. *)
From Verif Require Import Base BaseFacts Ctype DecSpec IntFmtModel IntFmtProofs HrefModel HrefSpec HrefProofs.
Local Open Scope nat_scope.

Definition number (d : bytes) (n : Z) : Prop := atoi d = Ok n.
(** Two characters for the slashes *)
Definition room (t : bytes) : Prop := forall proto r, t = proto ++ ":"%char :: r -> ~ In ":"%char proto -> 2 <= length r.
(** A text without white space inside is taken apart as it says, and nothing else is
    accepted. *)
Theorem C63_parse a t b u : blank a -> blank b -> solid t ->
  (says number t u -> parse (Some (a ++ t ++ b)) = Ok (Good u)) /\
  (room t -> parse (Some (a ++ t ++ b)) = Ok (Good u) -> says number t u).
Proof.
  intros Ha Hb Ht. destruct (parse_solid a t b Ha Hb Ht) as (P1 & P2). split.
  - intros H. destruct H as [proto dport s sl cred user password host portt port path file K Np Ls Hc Hh1 Hh2 Hp Hf]. rewrite (P1 proto dport s sl (cred ++ host ++ portt ++ path) eq_refl Np K Ls).
    apply (rest_says proto dport s sl _ _ K Np Ls). exists cred, host, portt, path. cbn. repeat (split; [auto; fail|]). auto.
  - intros R E. destruct (P2 u E) as (proto & p & s & w & -> & Np & K). specialize (R proto w eq_refl Np).
    set (sl := firstn (if s then 2 else 0) w). assert (Ls : length sl = (if s then 2 else 0)) by (unfold sl; rewrite firstn_length; destruct s; lia). set (w' := skipn (if s then 2 else 0) w).
    assert (Ew : w = sl ++ w') by (symmetry; apply firstn_skipn). rewrite Ew in *. rewrite (P1 proto p s sl w' eq_refl Np K Ls) in E. apply (rest_says proto p s sl _ _ K Np Ls) in E.
    destruct E as (cred & host & portt & path & E & Hp & Hc & <- & Hh1 & Hh2 & Hpt & Hf). rewrite E. destruct u as [pr us pw ho po fi]. cbn in *. subst pr. change (proto ++ colon :: sl ++ cred ++ ho ++ portt ++ path) with (proto ++ B ":" ++ sl ++ cred ++ ho ++ portt ++ path).
    apply Says with (dport := p) (slashes := s); auto.
Qed.
(** Undefined behaviour is left to ports beyond an int. *)
Theorem C63_safe a t b : blank a -> blank b -> solid t -> room t -> parse (Some (a ++ t ++ b)) = Fault -> exists x d y, t = x ++ ":"%char :: d ++ y /\ atoi d = Fault.
Proof.
  intros Ha Hb Ht R E. destruct (parse_solid a t b Ha Hb Ht) as (P1 & _). assert (D : exists proto p s w, t = proto ++ colon :: w /\ ~ In colon proto /\ known proto p s).
  { revert E. clear P1. destruct (solid_trim a t b Ha Hb Ht) as (Et & _). unfold parse. rewrite Et. cbv zeta. rewrite (solid_cspn t Ht), firstn_all.
    destruct (Z.ltb_spec (default_port t) 0) as [|G]; [discriminate|]. destruct (split_at colon t) as [[proto r]|] eqn:E; [|discriminate]. intros _. apply split_some in E. destruct E as (-> & Np). unfold default_port in G. rewrite entry_colon in G by exact Np.
    destruct (entry proto) as [[[n p] s]|] eqn:En; [|lia]. exists proto, p, s, r. split; [reflexivity|]. split; [exact Np|]. apply entry_known. exists n. exact En. }
  destruct D as (proto & p & s & w & -> & Np & K). specialize (R proto w eq_refl Np). set (sl := firstn (if s then 2 else 0) w). assert (Ls : length sl = (if s then 2 else 0)) by (unfold sl; rewrite firstn_length; destruct s; lia). set (w' := skipn (if s then 2 else 0) w).
  assert (Ew : w = sl ++ w') by (symmetry; apply firstn_skipn). rewrite Ew in *. rewrite (P1 proto p s sl w' eq_refl Np K Ls) in E. clear -E. unfold rest in E.
  assert (G : forall user pw w1 c, w' = c ++ w1 -> (let '(file, w) := match split_at slash w1 with None => (if s then B "/" else [], w1) | Some (w, f) => (slash :: f, w) end in
     let! (port, host) := match split_at colon w with None => Ok (default_port proto, w) | Some (w, p) => let! p := atoi p in Ok (p, w) end in
     Ok (Good (Url proto user pw host port file))) = Fault -> exists x d y, proto ++ colon :: sl ++ w' = x ++ colon :: d ++ y /\ atoi d = Fault).
  { clear E. intros user pw w1 c -> E. destruct (split_at slash w1) as [[w2 f]|] eqn:E1.
    - apply split_some in E1. destruct E1 as (-> & _). destruct (split_at colon w2) as [[h d]|] eqn:E2; [|discriminate]. apply split_some in E2. destruct E2 as (-> & _). destruct (atoi d) eqn:Ea; [discriminate| |discriminate]. exists (proto ++ colon :: sl ++ c ++ h), d, (slash :: f). split; [|exact Ea]. rewrite <- !app_assoc. cbn [app]. rewrite <- !app_assoc. reflexivity.
    - destruct (split_at colon w1) as [[h d]|] eqn:E2; [|discriminate]. apply split_some in E2. destruct E2 as (-> & _). destruct (atoi d) eqn:Ea; [discriminate| |discriminate]. exists (proto ++ colon :: sl ++ c ++ h), d, []. split; [|exact Ea]. rewrite app_nil_r, <- !app_assoc. cbn [app]. rewrite <- !app_assoc. reflexivity. }
  destruct (split_at at_sign w') as [[c w1]|] eqn:Ew; [|apply (G [] [] w' []); [reflexivity|exact E]]. apply split_some in Ew. destruct Ew as (Ew & _). assert (Ew' : w' = (c ++ B "@") ++ w1) by (rewrite <- app_assoc; exact Ew).
  destruct (split_at colon c) as [[u0 [|d q]]|]; eapply G; [exact Ew'|exact E|exact Ew'|exact E|exact Ew'|exact E].
Qed.
(** What is printed says the same, when there is a user, or neither a password nor an at
    sign further on. *)
Theorem C63_print t u : says number t u -> solid t -> u_port u <> 0%Z -> (- 2 ^ 31 < u_port u)%Z ->
  (u_user u <> [] \/ u_password u = [] /\ ~ In "@"%char (u_host u ++ u_file u)) ->
  exists t', print u = Ok t' /\ solid t' /\ says number t' u /\ parse (Some t') = Ok (Good u).
Proof.
  intros H Ht Hp0 Hp1 Hu.
  assert (X : exists t', print u = Ok t' /\ solid t' /\ says number t' u); [|destruct X as (t' & E1 & E2 & E3); exists t'; split; [exact E1|]; split; [exact E2|]; split; [exact E3|]; pose proof (proj1 (C63_parse [] t' [] u (Forall_nil _) (Forall_nil _) E2) E3) as P; rewrite app_nil_r in P; exact P].
  destruct H as [proto dport s sl cred user password host portt port path file K Np Ls Hc Hh1 Hh2 Hp Hf]. cbn [u_user u_password u_host u_port u_file u_proto] in *. unfold print. cbn [u_user u_password u_host u_port u_file u_proto].
  destruct (proj2 (entry_known _ _ _) K) as (n & En). assert (Ed : default_port proto = dport) by (unfold default_port; rewrite En; reflexivity). assert (Es : uses_slashes proto = s) by (unfold uses_slashes; rewrite En; reflexivity). rewrite Ed, Es.
  assert (Dp : (0 <= dport < 2 ^ 31)%Z) by (destruct K as (nm & x & _ & I & _); cbn [services In] in I; repeat (destruct I as [I|I]; [injection I as <- <- <-; lia|]); contradiction).
  assert (Rp : (int_min <= port <= int_max)%Z).
  { destruct Hp as [(_ & ->)|(d & _ & _ & Hd)]; [unfold int_min, int_max; lia|]. unfold number, atoi in Hd. cbv zeta in Hd. match type of Hd with (if in_int ?v then _ else _) = _ => destruct (in_int v) eqn:Ei; [|discriminate]; assert (Ev : v = port) by congruence; rewrite Ev in Ei end. unfold in_int in Ei. apply andb_true_iff in Ei. destruct Ei as (E1 & E2). apply Z.leb_le in E1, E2. auto. }
  assert (So : solid proto /\ solid cred /\ solid host /\ solid portt /\ solid path) by (rewrite !solid_app in Ht; tauto). destruct So as (S1 & S2 & S3 & S4 & S5).
  assert (Pt : exists pt, (if (port =? 0)%Z || (port =? dport)%Z then Ok [] else let! d := string_of_signed 32 port in Ok (colon :: d)) = Ok pt /\ solid pt /\ ~ In at_sign pt /\ (pt = [] /\ port = dport \/ exists d, pt = ":"%char :: d /\ ~ In "/"%char d /\ number d port)).
  { destruct (Z.eqb_spec port 0); [contradiction|]. destruct (Z.eqb_spec port dport) as [->|Ne]; cbn [orb].
    - exists []. split; [reflexivity|]. split; [constructor|]. split; [intros []|]. left. auto.
    - assert (E : string_of_signed 32 port = Ok (sdec port)) by (apply signed_ok; [lia|]; change (Z.of_nat 32 - 1)%Z with 31%Z; unfold int_min, int_max in Rp; lia). rewrite E. cbn [bind]. exists (colon :: sdec port).
      assert (F : Forall (fun c => isspace c = false /\ c <> nul /\ c <> at_sign /\ c <> slash) (sdec port)).
      { assert (Dg : forall z, (0 <= z < big)%Z -> Forall (fun c => isspace c = false /\ c <> nul /\ c <> at_sign /\ c <> slash) (dec z)).
        { intros z Hz. destruct (dec_is z Hz) as (_ & Hd & _). eapply Forall_impl; [|exact Hd]. intros c Hc0. split; [apply digit_not_space, Hc0|]. unfold digit in Hc0. repeat split; intros ->; vm_compute in Hc0; lia. }
        unfold int_min, int_max in Rp. unfold sdec. destruct (Z.ltb_spec port 0); [constructor; [split; [reflexivity|]; repeat split; discriminate|]; apply Dg; unfold big; lia|]. apply Dg. unfold big. lia. }
      split; [reflexivity|]. split; [constructor; [split; [reflexivity|discriminate]|]; eapply Forall_impl; [|exact F]; cbn; tauto|].
      split; [intros [X|X]; [discriminate|]; rewrite Forall_forall in F; destruct (F _ X) as (_ & _ & Y & _); auto|]. right. exists (sdec port). split; [reflexivity|]. split; [intros X; rewrite Forall_forall in F; destruct (F _ X) as (_ & _ & _ & Y); auto|].
      unfold number. rewrite <- (app_nil_r (sdec port)). apply atoi_signed; auto. }
  destruct Pt as (pt & -> & Spt & Npt & Hpt). cbn [bind].
  assert (Fi : (file = [] /\ file = (if s then B "/" else []) \/ exists f, file = "/"%char :: f /\ file = file)).
  { destruct Hf as [(-> & ->)|(f & -> & ->)]; [destruct s; [right; exists []; auto|left; auto]|]. right. exists f. auto. }
  assert (Sf : solid file) by (destruct Hf as [(-> & ->)|(f & -> & ->)]; [destruct s; repeat constructor; discriminate|exact S5]).
  set (cr := match user with [] => [] | _ :: _ => user ++ match password with [] => B "@" | _ :: _ => colon :: password ++ B "@" end end).
  assert (Cr : solid cr /\ (credentials cr user password \/ cr = [] /\ user = [] /\ password = [] /\ ~ In "@"%char (host ++ pt ++ file))).
  { destruct Hc as [Hc|(-> & -> & -> & N)].
    - destruct Hc as [x Nx Hx|x y Nx Ny Nxc Ny0].
      + destruct x as [|c x]; [destruct Hu as [Hu|(_ & Hu)]; [contradiction|]|].
        * split; [constructor|]. right. repeat (split; [reflexivity|]). rewrite !in_app_iff in *. intros [X|[X|X]]; auto.
        * split; [exact S2|]. left. apply Cr_user; assumption.
      + destruct x as [|c x]; [destruct Hu as [Hu|(Hu & _)]; contradiction|]. destruct y as [|d y]; [contradiction|]. split; [exact S2|]. left. exact (Cr_both (c :: x) (d :: y) Nx Ny Nxc Ny0).
    - split; [constructor|]. right. destruct Hu as [Hu|(_ & Hu)]; [contradiction|]. repeat (split; [reflexivity|]). rewrite !in_app_iff in *. intros [X|[X|X]]; auto. }
  destruct Cr as (Scr & Hcr). set (sl' := if s then B "//" else []).
  exists (proto ++ B ":" ++ sl' ++ cr ++ host ++ pt ++ file). split; [unfold sl'; destruct s; rewrite <- !app_assoc; reflexivity|]. split.
  - rewrite !solid_app. split; [exact S1|]. split; [repeat constructor; discriminate|]. split; [unfold sl'; destruct s; repeat constructor; discriminate|]. tauto.
  - apply Says with (dport := dport) (slashes := s); auto. unfold sl'. destruct s; reflexivity.
Qed.
(** An at sign anywhere makes what is before it the user, also in the path: the host is
    another one than browsers take. *)
Theorem C63_host_refuted : parse (Some (B "http://good.com/x@evil.com/")) = Ok (Good (Url (B "http") (B "good.com/x") [] (B "evil.com") 80 (B "/"))).
Proof. vm_compute. reflexivity. Qed.
(** Where a user, or one without name, was given, printing loses something. *)
Theorem C63_password_refuted : exists u t, parse (Some (B "http://:pw@h/")) = Ok (Good u) /\ u_password u = B "pw" /\ print u = Ok t /\ t = B "http://h/".
Proof. eexists. eexists. split; [vm_compute; reflexivity|]. split; [reflexivity|]. split; vm_compute; reflexivity. Qed.
Theorem C63_empty_user_refuted : exists u t u', parse (Some (B "http://@b@c/")) = Ok (Good u) /\ print u = Ok t /\ parse (Some t) = Ok (Good u') /\ u_host u = B "b@c" /\ u_host u' = B "c".
Proof. eexists. eexists. eexists. split; [vm_compute; reflexivity|]. split; [vm_compute; reflexivity|]. split; [vm_compute; reflexivity|]. split; reflexivity. Qed.
(** A file: URL is never ok. *)
Theorem C63_file_refuted : exists u, parse (Some (B "file:///etc/passwd")) = Ok (Good u) /\ u_file u = B "/etc/passwd" /\ forall r, isok (Good u) r = false.
Proof. eexists. split; [vm_compute; reflexivity|]. split; reflexivity. Qed.
(** The two characters after the colon are not looked at; when they are not there, the
    text is read beyond its end, or beyond a blank where it was cut. *)
Theorem C63_short_refuted : parse (Some (B "http:")) = Fault /\ parse (Some (B "http:x")) = Fault /\ parse None = Fault.
Proof. vm_compute. auto. Qed.
Theorem C63_blank_refuted : exists u, parse (Some (B "http: xevil.com/")) = Ok (Good u) /\ u_host u = B "evil.com".
Proof. eexists. split; [vm_compute; reflexivity|reflexivity]. Qed.
Theorem C63_slashes_refuted : parse (Some (B "http:xxh/")) = parse (Some (B "http://h/")).
Proof. vm_compute. reflexivity. Qed.
Example ex_url : let u := Url (B "https") (B "joe") (B "a:b") (B "h.org") 8080 (B "/x@y") in
  says number (B "https://joe:a:b@h.org:8080/x@y") u /\ solid (B "https://joe:a:b@h.org:8080/x@y") /\ room (B "https://joe:a:b@h.org:8080/x@y") /\ u_user u <> [] /\
  parse (Some (B "  https://joe:a:b@h.org:8080/x@y ")) = Ok (Good u) /\ print u = Ok (B "https://joe:a:b@h.org:8080/x@y") /\
  parse (Some (B "sip:bob@h")) = Ok (Good (Url (B "sip") (B "bob") [] (B "h") 5060 [])) /\ parse (Some (B "gopher://h")) = Ok (Bad (B "WvUrl cannot handle the given protocol.")).
Proof.
  assert (So : solid (B "https://joe:a:b@h.org:8080/x@y")) by (repeat (constructor; [split; [reflexivity|discriminate]|]); constructor).
  assert (R : room (B "https://joe:a:b@h.org:8080/x@y")).
  { intros proto r E N. assert (X : split_at colon (B "https://joe:a:b@h.org:8080/x@y") = Some (proto, r)) by (apply split_some; auto). vm_compute in X. injection X as _ <-. cbn. lia. }
  assert (P : parse (Some ([] ++ B "https://joe:a:b@h.org:8080/x@y" ++ [])) = Ok (Good (Url (B "https") (B "joe") (B "a:b") (B "h.org") 8080 (B "/x@y")))) by (vm_compute; reflexivity).
  cbv zeta. split; [apply (proj2 (C63_parse [] _ [] _ (Forall_nil _) (Forall_nil _) So) R P)|]. split; [exact So|]. split; [exact R|]. split; [discriminate|]. vm_compute. auto.
Qed.
Print Assumptions C63_parse.
Print Assumptions C63_safe.
Print Assumptions C63_print.
