(** C44, C51: IP addresses and networks. *)
From Verif Require Import Base BaseFacts Ctype DecSpec IntFmtModel IntFmtProofs IpModel IpSpec IpProofs.
Local Open Scope N_scope.

(** Two addresses with the same number are the same, and numbers fill 32 bits. *)
Theorem C44_number a c : ok_ip a -> ok_ip c -> number a < 2 ^ 32 /\ (number a = number c -> a = c).
Proof. intros H K. split; [apply number_lt, H|apply number_inj; assumption]. Qed.
(** The operators are those of 32-bit numbers. *)
Theorem C44_operators a c i : ok_ip a -> ok_ip c ->
  N.testbit (number (ip_and a c)) i = N.testbit (number a) i && N.testbit (number c) i /\
  N.testbit (number (ip_or a c)) i = N.testbit (number a) i || N.testbit (number c) i /\
  N.testbit (number (ip_xor a c)) i = xorb (N.testbit (number a) i) (N.testbit (number c) i) /\
  N.testbit (number (ip_not a)) i = negb (N.testbit (number a) i) && (i <? 32).
Proof. intros H K. rewrite and_bit, or_bit, xor_bit, not_bit by assumption. auto. Qed.
Theorem C44_add a n : ok_ip a -> ok_ip (ip_add a n) /\ Z.of_N (number (ip_add a n)) = ((Z.of_N (number a) + n) mod 2 ^ 32)%Z /\ ip_sub (ip_add a n) n = a.
Proof.
  intros H. assert (U : forall z, u32 z < 2 ^ 32 /\ Z.of_N (u32 z) = (z mod 2 ^ 32)%Z). { intros z. unfold u32. pose proof (Z.mod_pos_bound z (2 ^ 32) ltac:(lia)). split; [|lia]. change (2 ^ 32) with 4294967296. change (2 ^ 32)%Z with 4294967296%Z in *. lia. }
  unfold ip_add. destruct (U (Z.of_N (ntohl_addr a) + n)%Z) as [L E]. split; [apply of_htonl_ok|]. rewrite of_htonl_number by exact L. rewrite E. split; [rewrite <- number_eq; reflexivity|].
  apply number_inj; [apply of_htonl_ok|exact H|]. unfold ip_sub. destruct (U (Z.of_N (ntohl_addr (of_htonl (u32 (Z.of_N (ntohl_addr a) + n)))) - n)%Z) as [L' E']. rewrite of_htonl_number by exact L'. apply N2Z.inj. rewrite E'. rewrite <- number_eq, of_htonl_number by exact L. rewrite E.
  rewrite Zminus_mod_idemp_l. replace (Z.of_N (ntohl_addr a) + n - n)%Z with (Z.of_N (ntohl_addr a)) by lia. rewrite <- number_eq. apply Z.mod_small. pose proof (number_lt a H). change (2 ^ 32) with 4294967296 in *. change (2 ^ 32)%Z with 4294967296%Z. lia.
Qed.

(** A network given by a number of bits has that many, and its addresses are those
    with the same leading bits. *)
Theorem C44_bits a k : ok_ip a -> k <= 32 -> exists n, net_of_bits a (Z.of_N k) = Ok n /\ ok_net n /\ base n = a /\ bits n = Ok k /\
  (is_default n = true <-> k = 0) /\ (is_host n = true <-> k = 32) /\
  (forall x, ok_ip x -> member n x <-> number x / 2 ^ (32 - k) = number a / 2 ^ (32 - k)).
Proof.
  intros H K. destruct (mask_of_bits_ok k K) as (m & E & M & P). unfold net_of_bits. rewrite E. cbn [bind]. exists (Net a m). assert (O : ok_net (Net a m)) by (split; assumption).
  split; [reflexivity|]. split; [exact O|]. split; [reflexivity|]. split; [apply prefix_bits; assumption|]. 
  assert (T : forall i, N.testbit (number m) i = (32 - k <=? i) && (i <? 32)) by (intros i; apply prefix_testbit, P).
  split; [|split].
  - unfold is_default. cbn [mask]. rewrite N.eqb_eq. split; intros Q.
    + specialize (T 31). rewrite number_bit in T by exact M. change (pick m 31) with (N.testbit (b0 m) 7) in T. rewrite Q in T. change (N.testbit 0 7) with false in T. change (31 <? 32) with true in T. rewrite andb_true_r in T. symmetry in T. apply N.leb_gt in T. lia.
    + subst k. destruct P as [_ P]. change (2 ^ 32 - 2 ^ (32 - 0)) with 0 in P. unfold number in P. lia.
  - unfold is_host. cbn [mask]. rewrite N.eqb_eq. split; intros Q.
    + specialize (T 0). rewrite number_bit in T by exact M. change (pick m 0) with (N.testbit (b3 m) 0) in T. rewrite Q in T. change (N.testbit 255 0) with true in T. change (0 <? 32) with true in T. rewrite andb_true_r in T. symmetry in T. apply N.leb_le in T. lia.
    + subst k. destruct P as [_ P]. change (2 ^ 32 - 2 ^ (32 - 32)) with 4294967295 in P. destruct M as (M0 & M1 & M2 & M3). unfold number in P. change (2 ^ 24) with 16777216 in P. change (2 ^ 16) with 65536 in P. change (2 ^ 8) with 256 in P. lia.
  - intros x X. unfold member. cbn [mask base]. split; intros Q.
    + apply N.bits_inj. intros i. rewrite !N.div_pow2_bits. destruct (N.lt_ge_cases (i + (32 - k)) 32) as [L|L].
      * apply Q. rewrite T. destruct (N.leb_spec (32 - k) (i + (32 - k))); [|lia]. destruct (N.ltb_spec (i + (32 - k)) 32); [reflexivity|lia].
      * rewrite !number_high by assumption. reflexivity.
    + intros i I. rewrite T in I. apply andb_true_iff in I. destruct I as [I1 I2]. apply N.leb_le in I1. replace i with ((i - (32 - k)) + (32 - k)) by lia. rewrite <- !N.div_pow2_bits. rewrite Q. reflexivity.
Qed.
(** More than 32 bits shift by a negative amount. *)
Theorem C44_bits_refuted : exists a k, net_of_bits a k = Fault /\ net_of_string (B "10.0.0.0/33") = Fault.
Proof. exists (Ip 10 0 0 0), 33%Z. split; vm_compute; reflexivity. Qed.
(** The network address is the lowest and the broadcast address the highest. *)
Theorem C44_range n : ok_net n -> member n (network n) /\ member n (broadcast n) /\
  forall x, ok_ip x -> member n x -> number (network n) <= number x <= number (broadcast n).
Proof.
  intros [H K]. unfold member, network, broadcast. split; [|split].
  - intros i T. rewrite and_bit, T by assumption. apply andb_true_r.
  - intros i T. rewrite or_bit, not_bit, T by auto using not_ok. apply orb_false_r.
  - intros x X M. split; apply bits_le; intros i.
    + rewrite and_bit by assumption. intros Q. apply andb_true_iff in Q. destruct Q as [Q1 Q2]. rewrite M; assumption.
    + intros Q. rewrite or_bit, not_bit by auto using not_ok. destruct (N.testbit (number (mask n)) i) eqn:T; [rewrite <- (M i T), Q; reflexivity|]. cbn [negb andb]. apply orb_true_iff. right. apply N.ltb_lt. destruct (N.lt_ge_cases i 32); [assumption|]. rewrite number_high in Q by assumption. discriminate.
Qed.
(** includes() is inclusion of the sets of addresses, whatever the masks. *)
Theorem C44_includes n a : ok_net n -> ok_net a -> (includes n a = true <-> forall x, ok_ip x -> member a x -> member n x).
Proof. apply includes_subset. Qed.
(** include() gives the smallest network that has all addresses of both. *)
Theorem C44_include n a : ok_net n -> ok_net a -> let r := include n a in
  ok_net r /\ base r = base n /\ (forall x, ok_ip x -> member n x \/ member a x -> member r x) /\
  (forall t, ok_net t -> (forall x, ok_ip x -> member n x \/ member a x -> member t x) -> forall x, ok_ip x -> member r x -> member t x).
Proof.
  intros N A. cbn zeta. pose proof (include_ok n a N A) as R. split; [exact R|]. split; [reflexivity|]. split.
  - intros x X [M|M]; revert x X M; apply includes_subset; try assumption; apply includes_iff; try assumption; intros i T; apply include_bit in T; try assumption; destruct T as (T1 & T2 & T3); auto.
  - intros t O Q. assert (Qn : includes t n = true) by (apply includes_subset; [assumption..|]; intros x X M; apply Q; auto). assert (Qa : includes t a = true) by (apply includes_subset; [assumption..|]; intros x X M; apply Q; auto).
    apply includes_subset; [assumption..|]. rewrite includes_iff in * by assumption. intros i T. destruct (Qn i T) as [U1 U2], (Qa i T) as [V1 V2]. split; [|exact U2]. apply include_bit; [assumption..|]. split; [exact U1|]. split; [exact V1|congruence].
Qed.
(** Normalizing gives the smallest network with a prefix mask around the given one,
    provided the mask does not begin with the bits 01. *)
Theorem C44_normalize_partial n : ok_net n -> (N.testbit (number (mask n)) 31 = false -> N.testbit (number (mask n)) 30 = false) ->
  exists r k, normalize n = Ok r /\ ok_net r /\ base r = base n /\ prefix_mask (mask r) k /\ bits n = Ok k /\
  (forall x, ok_ip x -> member n x -> member r x) /\
  (forall t j, ok_net t -> prefix_mask (mask t) j -> (forall x, ok_ip x -> member n x -> member t x) -> forall x, ok_ip x -> member r x -> member t x).
Proof.
  intros H S. destruct (leading_ex (number (mask n))) as [k L]. pose proof (leading_bits n k H L S) as Bt. destruct L as (K & A & Z). destruct (mask_of_bits_ok k K) as (m & E & M & P).
  unfold normalize. rewrite Bt. cbn [bind]. unfold net_of_bits. rewrite E. cbn [bind]. exists (Net (base n) m), k. assert (R : ok_net (Net (base n) m)) by (split; [apply H|exact M]).
  split; [reflexivity|]. split; [exact R|]. split; [reflexivity|]. split; [exact P|]. split; [reflexivity|].
  assert (T : forall i, N.testbit (number m) i = (32 - k <=? i) && (i <? 32)) by (intros i; apply prefix_testbit, P). split.
  - apply includes_subset; [assumption..|]. apply includes_iff; [assumption..|]. cbn [mask base]. intros i I. rewrite T in I. apply andb_true_iff in I. destruct I as [I1 I2]. apply N.leb_le in I1. apply N.ltb_lt in I2. split; [apply A; lia|reflexivity].
  - intros t j O Pj Q. apply includes_subset; [assumption..|]. assert (Qn : includes t n = true) by (apply includes_subset; assumption). rewrite includes_iff in * by assumption. cbn [mask base]. intros i I. destruct (Qn i I) as [U1 U2]. split; [|exact U2].
    rewrite T. rewrite (prefix_testbit _ _ _ Pj) in I. apply andb_true_iff in I. destruct I as [I1 I2]. rewrite I2, andb_true_r. apply N.leb_le. apply N.leb_le in I1. apply N.ltb_lt in I2. destruct (N.lt_ge_cases i (32 - k)) as [Lt|]; [|assumption]. exfalso.
    assert (X : N.testbit (number (mask n)) (31 - k) = true). { apply Qn. rewrite (prefix_testbit _ _ _ Pj). apply andb_true_iff. split; [apply N.leb_le|apply N.ltb_lt]; lia. } rewrite Z in X by lia. discriminate.
Qed.
(** With such a mask, which include() produces from 0.0.0.0 and 128.0.0.0, addresses
    get lost. *)
Theorem C44_normalize_refuted : exists n a r, ok_net n /\ ok_net a /\ normalize (include n a) = Ok r /\ member (include n a) (base a) /\ ~ member r (base a).
Proof.
  exists (Net (Ip 0 0 0 0) (Ip 255 255 255 255)), (Net (Ip 128 0 0 0) (Ip 255 255 255 255)). eexists. split; [repeat split|]. split; [repeat split|]. split; [vm_compute; reflexivity|]. split.
  - apply member_eqb; [repeat split|repeat split|]. vm_compute. reflexivity.
  - intros M. apply member_eqb in M; [vm_compute in M; discriminate|repeat split|repeat split].
Qed.

(** An address is read back from its text, whatever non-digit text follows. *)
Theorem C44_print a t : ok_ip a -> match t with [] => True | c :: _ => ~ digit c end -> exists s, ip_print a = Ok s /\ ip_of_string (s ++ t) = a.
Proof.
  intros H T. destruct (ip_print_ok a H) as (s0 & s1 & s2 & s3 & E & D0 & D1 & D2 & D3). eexists. split; [exact E|]. apply ip_read; try assumption. destruct t as [|c t]; [exact I|]. cbn. destruct (isdigit c) eqn:Q; [|reflexivity]. apply digit_isdigit in Q. contradiction.
Qed.
(** A network with a prefix mask is read back from its text as its addresses. *)
Theorem C44_net_print n k : ok_net n -> prefix_mask (mask n) k -> exists s r, net_print n = Ok s /\ net_of_string s = Ok r /\ ok_net r /\ mask r = mask n /\
  (forall x, ok_ip x -> member r x <-> member n x).
Proof.
  intros O P. pose proof O as [H M]. unfold net_print. rewrite (prefix_bits n k O P). cbn [bind]. pose proof P as [K _]. destruct (N.ltb_spec k 32) as [L|L].
  - destruct (ip_print_ok (network n)) as (s0 & s1 & s2 & s3 & E & D0 & D1 & D2 & D3); [apply and_ok, H|]. rewrite E. cbn [bind]. destruct (byte_decimal k) as (d & Ed & Dd); [lia|]. rewrite Ed. cbn [bind].
    eexists. exists (Net (network n) (mask n)). split; [reflexivity|]. unfold net_of_string. rewrite after_app.
    + destruct Dd as (Dd1 & Dd2 & Dd3 & Dd4). rewrite (after_none dot d) by (apply digits_no; [exact Dd2|reflexivity]).
      assert (At : atoi d = Ok (Z.of_N k)). { pose proof (atoi_signed (Z.of_N k) [] ltac:(unfold int_min, int_max; lia) I) as At. rewrite app_nil_r in At. replace (sdec (Z.of_N k)) with d in At; [exact At|]. rewrite signed_ok in Ed by (cbn; lia). injection Ed as ->. reflexivity. }
      rewrite At. cbn [bind]. rewrite (ip_read s0 s1 s2 s3 (network n)); [|apply and_ok, H|assumption..|reflexivity]. destruct (mask_of_bits_ok k K) as (m & Em & Mm & Pm). unfold net_of_bits. rewrite Em. cbn [bind].
      assert (m = mask n) as -> by (apply number_inj; [assumption..|]; destruct P as [_ ->], Pm as [_ ->]; reflexivity). split; [reflexivity|]. split; [split; [apply and_ok, H|exact M]|]. split; [reflexivity|].
      intros x X. unfold member. cbn [mask base]. unfold network. split; intros Q i T; specialize (Q i T); rewrite and_bit, T, andb_true_r in * by assumption; exact Q.
    + assert (Ns : forall z s, is_decimal z s -> ~ In slash s) by (intros z s (_ & F & _); apply digits_no; [exact F|reflexivity]).
      intros Q. repeat (apply in_app_or in Q; destruct Q as [Q|Q]; [eapply Ns; [|exact Q]; eassumption|]; destruct Q as [Q|Q]; [discriminate|]). eapply Ns; [|exact Q]; eassumption.
  - assert (k = 32) by lia. subst k. destruct (ip_print_ok (base n) H) as (s0 & s1 & s2 & s3 & E & D0 & D1 & D2 & D3). eexists. exists n. split; [exact E|]. unfold net_of_string. rewrite after_none.
    + rewrite <- (app_nil_r (s0 ++ _)), (ip_read s0 s1 s2 s3 (base n)) by (assumption || exact I). split; [|split; [exact O|split; [reflexivity|tauto]]]. f_equal. destruct n as [a m]. cbn [base mask] in *. f_equal. apply number_inj; [repeat split|exact M|]. destruct P as [_ ->]. reflexivity.
    + assert (Ns : forall z s, is_decimal z s -> ~ In slash s) by (intros z s (_ & F & _); apply digits_no; [exact F|reflexivity]).
      intros Q. repeat (apply in_app_or in Q; destruct Q as [Q|Q]; [eapply Ns; [|exact Q]; eassumption|]; destruct Q as [Q|Q]; [discriminate|]). eapply Ns; [|exact Q]; eassumption.
Qed.
(** An address with a port is read back from its text. *)
Theorem C44_port_print serv a p : ok_ip a -> p < 65536 -> exists s, port_print a p = Ok s /\ port_of_string serv s = Ok (a, p).
Proof.
  intros H Hp. destruct (ip_print_ok a H) as (s0 & s1 & s2 & s3 & E & D0 & D1 & D2 & D3). unfold port_print. rewrite E. cbn [bind].
  assert (Bg : (0 <= Z.of_N p < big)%Z) by (unfold big; lia). rewrite unsigned_ok by exact Bg. cbn [bind]. eexists. split; [reflexivity|]. unfold port_of_string.
  replace (forallb isdigit _) with false; [|symmetry; apply not_true_iff_false; intros Q; rewrite forallb_forall in Q; discriminate (Q dot); apply in_or_app; left; apply in_or_app; right; left; reflexivity].
  assert (Ns : forall z s, is_decimal z s -> ~ In colon s) by (intros z s (_ & F & _); apply digits_no; [exact F|reflexivity]).
  rewrite after_app by (intros Q; repeat (apply in_app_or in Q; destruct Q as [Q|Q]; [eapply Ns; [|exact Q]; eassumption|]; destruct Q as [Q|Q]; [discriminate|]); eapply Ns; [|exact Q]; eassumption).
  cbn [orelse]. rewrite (ip_read s0 s1 s2 s3 a) by (assumption || reflexivity). pose proof (dec_is _ Bg) as Dd.
  destruct (list_eq_dec ascii_dec (dec (Z.of_N p)) (B "0")) as [E0|N0].
  - destruct Dd as (_ & _ & V & _). rewrite E0 in V. change (value (B "0")) with 0%Z in V. assert (p = 0) as -> by lia. reflexivity.
  - pose proof (atoi_signed (Z.of_N p) [] ltac:(unfold int_min, int_max; lia) I) as At. rewrite app_nil_r in At. replace (sdec (Z.of_N p)) with (dec (Z.of_N p)) in At; [|unfold sdec; destruct (Z.ltb_spec (Z.of_N p) 0); [lia|reflexivity]].
    rewrite At. cbn [bind]. rewrite Z.mod_small, N2Z.id by lia. destruct (N.eqb_spec p 0) as [->|]; [|reflexivity]. elim N0. vm_compute. reflexivity.
Qed.
(** A service name after the colon stands for its port; a name that is not in the table
    gives port 0. *)
Theorem C44_port_service serv a name : ok_ip a -> name <> [] -> Forall (fun c => isdigit c = false /\ isspace c = false /\ cc c <> 45%nat /\ cc c <> 43%nat) name ->
  exists s, ip_print a = Ok s /\ port_of_string serv (s ++ colon :: name) = Ok (a, match serv name with Some p => p | None => 0 end).
Proof.
  intros H N F. destruct (ip_print_ok a H) as (s0 & s1 & s2 & s3 & E & D0 & D1 & D2 & D3). eexists. split; [exact E|]. unfold port_of_string.
  replace (forallb isdigit _) with false; [|symmetry; apply not_true_iff_false; intros Q; rewrite forallb_forall in Q; discriminate (Q dot); apply in_or_app; left; apply in_or_app; right; left; reflexivity].
  assert (Ns : forall z s, is_decimal z s -> ~ In colon s) by (intros z s (_ & Fd & _); apply digits_no; [exact Fd|reflexivity]).
  rewrite after_app by (intros Q; repeat (apply in_app_or in Q; destruct Q as [Q|Q]; [eapply Ns; [|exact Q]; eassumption|]; destruct Q as [Q|Q]; [discriminate|]); eapply Ns; [|exact Q]; eassumption).
  cbn [orelse]. rewrite (ip_read s0 s1 s2 s3 a) by (assumption || reflexivity). destruct name as [|c name]; [contradiction|]. pose proof (Forall_inv F) as (Hd & Hs & H1 & H2).
  destruct (list_eq_dec ascii_dec (c :: name) (B "0")) as [E0|N0]; [injection E0 as -> _; discriminate|].
  assert (At : atoi (c :: name) = Ok 0%Z). { unfold atoi. cbn [skip_space]. rewrite Hs. destruct (Nat.eqb_spec (cc c) 45); [contradiction|]. destruct (Nat.eqb_spec (cc c) 43); [contradiction|]. cbn [atoi_digits]. rewrite Hd. reflexivity. }
  rewrite At. reflexivity.
Qed.
Example ex_service : exists s, ip_print (Ip 10 0 0 1) = Ok s /\ port_of_string (fun n => if list_eq_dec ascii_dec n (B "http") then Some 80 else None) (s ++ B ":http") = Ok (Ip 10 0 0 1, 80).
Proof. exists (B "10.0.0.1"). split; vm_compute; reflexivity. Qed.

(** ** C51: comparing addresses of any of the three kinds *)
Theorem C51_reflexive x : comparator x x = true.
Proof. destruct x as [a|n|a p]; cbn; rewrite ?andb_true_iff, ?N.eqb_refl; try split; try reflexivity; apply eqb_eq; reflexivity. Qed.
Lemma eqb_sym a c : ip_eqb a c = ip_eqb c a.
Proof. apply eq_true_iff_eq. rewrite !eqb_eq. split; congruence. Qed.
Theorem C51_symmetric x y : comparator x y = comparator y x.
Proof. destruct x as [a|n|a p], y as [a'|n'|a' p']; cbn; rewrite ?(eqb_sym a), ?(eqb_sym (base n)), ?(eqb_sym (mask n)), ?(N.eqb_sym p); reflexivity. Qed.
(** Within one kind equality is identity, so hashes agree. *)
Definition same_kind (x y : addr) : Prop := match x, y with AIp _, AIp _ | ANet _, ANet _ | APort _ _, APort _ _ => True | _, _ => False end.
Theorem C51_same_kind_partial x y : same_kind x y -> comparator x y = true -> x = y /\ hash x = hash y.
Proof.
  destruct x as [a|n|a p], y as [a'|n'|a' p']; cbn; try contradiction; intros _; rewrite ?andb_true_iff, ?eqb_eq, ?N.eqb_eq.
  - intros ->. auto. - destruct n, n'; cbn. intros [-> ->]. auto. - intros [-> ->]. auto.
Qed.
(** Across kinds only the address counts, so equality is not transitive and equal
    addresses have different hashes. *)
Theorem C51_across x y : ~ same_kind x y -> (comparator x y = true <-> raw x = raw y).
Proof. destruct x as [a|n|a p], y as [a'|n'|a' p']; cbn; try tauto; intros _; rewrite eqb_eq; split; congruence. Qed.
Theorem C51_transitive_refuted : exists x y z, comparator x y = true /\ comparator y z = true /\ comparator x z = false.
Proof. exists (APort (Ip 10 0 0 1) 80), (AIp (Ip 10 0 0 1)), (APort (Ip 10 0 0 1) 81). vm_compute. auto. Qed.
Theorem C51_hash_refuted : exists x y, comparator x y = true /\ hash x <> hash y.
Proof. exists (APort (Ip 10 0 0 1) 80), (AIp (Ip 10 0 0 1)). vm_compute. split; [reflexivity|discriminate]. Qed.

Example ex_parse : ip_of_string (B "192.168.42.255") = Ip 192 168 42 255 /\ ip_add (Ip 192 168 42 255) 1 = Ip 192 168 43 0 /\ ip_add (Ip 0 0 0 0) (-1) = Ip 255 255 255 255.
Proof. vm_compute. auto. Qed.
Example ex_net : net_of_string (B "192.168.42.7/20") = Ok (Net (Ip 192 168 42 7) (Ip 255 255 240 0)) /\ net_print (Net (Ip 192 168 42 7) (Ip 255 255 240 0)) = Ok (B "192.168.32.0/20") /\
  includes (Net (Ip 192 168 42 7) (Ip 255 255 240 0)) (Net (Ip 192 168 47 0) (Ip 255 255 255 0)) = true.
Proof. vm_compute. auto. Qed.
Example ex_weird : normalize (Net (Ip 10 0 0 0) (Ip 255 0 255 0)) = Ok (Net (Ip 10 0 0 0) (Ip 255 0 0 0)). Proof. vm_compute. reflexivity. Qed.
Example ex_port : port_print (Ip 10 1 2 3) 8080 = Ok (B "10.1.2.3:8080"). Proof. vm_compute. reflexivity. Qed.
Print Assumptions C44_port_service.
Print Assumptions C44_bits.
Print Assumptions C44_include.
Print Assumptions C44_net_print.
Print Assumptions C44_port_print.
