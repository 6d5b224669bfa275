(** C22, C24, C25, C49: UniConf keys as values. *)
From Verif Require Import Base Ctype KeyModel KeySpec KeyProofs.
Local Open Scope nat_scope.

(* ---- C22 *)

(** The key built from a path has the path's non-empty pieces in order, plus an
    empty one if the path ends with a slash; it is well-formed; no write leaves
    the segment vector (the result is not a fault). *)
Theorem C22_parse : forall s, nul_free s -> parse (Some s) = Ok (path_key s) /\ canonical (path_key s).
Proof. intros s H. split; [exact (parse_ok s H)|exact (path_key_canonical s H)]. Qed.
Print Assumptions C22_parse.
Example C22_parse_ex : parse (Some (B "//Foo///key//")) = Ok [B "Foo"; B "key"; B ""] /\ parse (Some (B "//")) = Ok [].
Proof. vm_compute. auto. Qed.

(** Leading and doubled slashes make no difference. *)
Theorem C22_slashes : forall a b, nul_free a -> nul_free b ->
  parse (Some ("/"%char :: a)) = parse (Some a) /\
  parse (Some (a ++ "/"%char :: "/"%char :: b)) = parse (Some (a ++ "/"%char :: b)).
Proof.
  intros a b Ha Hb.
  assert (Hs : nul_free ["/"%char]) by (unfold nul_free; cbn; intuition discriminate).
  split; rewrite !parse_ok; try (f_equal; first [apply path_key_leading|apply path_key_doubled]).
  - exact Ha.
  - apply (BaseFacts.nul_free_app ["/"%char]); auto.
  - apply BaseFacts.nul_free_app; split; [exact Ha|]. apply (BaseFacts.nul_free_app ["/"%char]); auto.
  - apply BaseFacts.nul_free_app; split; [exact Ha|]. apply (BaseFacts.nul_free_app ["/"%char; "/"%char]); split; [|exact Hb].
    unfold nul_free; cbn; intuition discriminate.
Qed.
Print Assumptions C22_slashes.

(** Printing a key and parsing the text gives the key back. *)
Theorem C22_round_trip : forall k, canonical k -> parse (Some (printable k)) = Ok k.
Proof. exact parse_print. Qed.
Print Assumptions C22_round_trip.
Theorem C22_print_stable : forall s k, nul_free s -> parse (Some s) = Ok k -> parse (Some (printable k)) = Ok k.
Proof.
  intros s k H E. rewrite parse_ok in E by exact H. injection E as <-. apply parse_print, path_key_canonical, H.
Qed.
Print Assumptions C22_print_stable.
Example C22_round_trip_ex : canonical [B "a"; B "b"; B ""] /\ printable [B "a"; B "b"; B ""] = B "a/b/".
Proof.
  split; [|vm_compute; reflexivity]. right. exists [B "a"; B "b"]. repeat split; try discriminate.
  repeat (first [apply Forall_nil | apply Forall_cons]);
    (split; [discriminate|split; [cbn; intuition discriminate|unfold nul_free; cbn; intuition discriminate]]).
Qed.

(** The documentation says trailing slashes are discarded; they are not. *)
Theorem C22_trailing_slash_refuted : exists s k k',
  parse (Some s) = Ok k /\ parse (Some (s ++ B "/")) = Ok k' /\ key_eq k k' = false.
Proof. exists (B "foo/key"), [B "foo"; B "key"], [B "foo"; B "key"; B ""]. vm_compute. auto. Qed.
Print Assumptions C22_trailing_slash_refuted.

(* ---- C24 *)

(** Comparison is the lexicographic order on segments, ignoring case; keys
    compare equal exactly if their segments agree up to case. *)
Theorem C24_order : forall a b, canonical a -> canonical b ->
  (key_eq a b = true <-> same_key a b) /\ (key_lt a b = true <-> key_less a b).
Proof.
  intros a b Ha Hb. apply canonical_nul in Ha, Hb. split; [apply key_eq_spec; assumption|].
  unfold key_lt. rewrite Z.ltb_lt. apply compareto_lt; assumption.
Qed.
Print Assumptions C24_order.

(** It is a total preorder: exactly one of <, ==, > holds, < is transitive and
    respects ==. *)
Theorem C24_total : forall a b, canonical a -> canonical b ->
  (key_lt a b = true /\ key_eq a b = false /\ key_lt b a = false) \/
  (key_lt a b = false /\ key_eq a b = true /\ key_eq b a = true /\ key_lt b a = false) \/
  (key_lt a b = false /\ key_eq a b = false /\ key_lt b a = true).
Proof.
  intros a b Ha Hb. apply canonical_nul in Ha, Hb. pose proof (compareto_sgn a b Ha Hb) as H.
  unfold key_lt, key_eq. destruct (Z.ltb_spec (compareto a b) 0), (Z.eqb_spec (compareto a b) 0),
    (Z.ltb_spec (compareto b a) 0), (Z.eqb_spec (compareto b a) 0); try lia; tauto.
Qed.
Print Assumptions C24_total.
Theorem C24_transitive : forall a b c, canonical a -> canonical b -> canonical c ->
  (key_lt a b = true -> key_lt b c = true -> key_lt a c = true) /\
  (key_eq a b = true -> key_lt b c = true -> key_lt a c = true) /\
  (key_lt a b = true -> key_eq b c = true -> key_lt a c = true) /\
  (key_eq a b = true -> key_eq b c = true -> key_eq a c = true).
Proof.
  intros a b c Ha Hb Hc. apply canonical_nul in Ha, Hb, Hc. unfold key_lt.
  rewrite !key_eq_spec, !Z.ltb_lt, !compareto_lt by assumption.
  repeat split; eauto using key_less_trans, key_same_less, key_less_same.
  unfold same_key. intros F. revert c Hc. induction F as [|x y a b S0 F IH]; intros c Hc G; [exact G|].
  inversion G; subst. inversion Ha; inversion Hb; inversion Hc; subst. constructor; [eapply same_text_trans; eassumption|].
  apply IH; assumption.
Qed.
Print Assumptions C24_transitive.
Example C24_ex : key_lt [B "a"] [B "A"; B "b"] = true /\ key_eq [B "Foo"] [B "fOO"] = true /\ key_lt [B "b"] [B "A"; B "b"] = false.
Proof. vm_compute. auto. Qed.

(** suborsame(k) holds exactly if the segments named by this key (a trailing
    slash not counted) are, up to case, the first segments of k; the subkey is
    the rest of k (the empty key if only a trailing slash is left). *)
Theorem C24_suborsame : forall this k, canonical this -> canonical k -> short k ->
  (forall r, suborsame this k = Some r ->
     exists c d, k = c ++ d /\ same_key c (named this) /\ r = (if list_eq_dec (list_eq_dec ascii_dec) d [[]] then [] else d)) /\
  (suborsame this k = None -> forall c d, k = c ++ d -> ~ same_key c (named this)).
Proof. intros this k Ht Hk S0. rewrite <- stem_named by exact Ht. 
  destruct (suborsame_ok this k Ht Hk S0) as [H1 H2]. split; [|exact H2].
  intros r E. destruct (H1 r E) as (c & d & E1 & E2 & E3). exists c, d. split; [exact E1|]. split; [exact E2|].
  destruct (list_eq_dec (list_eq_dec ascii_dec) d [[]]) as [->|N]; [exact E3|]. rewrite E3. apply collapse_id, N.
Qed.
Print Assumptions C24_suborsame.
Example C24_suborsame_ex :
  suborsame [B "A"; B ""] [B "a"; B "b"; B "c"] = Some [B "b"; B "c"] /\
  suborsame [B "a"; B "b"] [B "a"; B "bc"] = None /\ suborsame [B "a"] [B "a"; B ""] = Some [] /\
  named [B "A"; B ""] = [B "A"].
Proof. vm_compute. auto. Qed.

(* ---- C25 *)

(** matches() always returns, and only says yes to keys that match the pattern
    as documented. *)
Theorem C25_sound : forall k p, Forall plain p -> Forall plain k -> short p -> short k ->
  exists b, matches k p = Ok b /\ (b = true -> Matches p k).
Proof.
  intros k p Fp Fk Sp Sk. destruct (matches_ok (S (length p)) p k) as (b & E & H & _); auto. exists b. auto.
Qed.
Print Assumptions C25_sound.

(** For patterns whose wildcards precede all other segments it says yes exactly
    to the keys that match.  Missing: patterns with an ordinary segment before a
    wildcard (see the refutation), and keys or patterns with a trailing slash. *)
Theorem C25_exact_partial : forall k p, Forall plain p -> Forall plain k -> short p -> short k ->
  wild_first p -> exists b, matches k p = Ok b /\ (b = true <-> Matches p k).
Proof.
  intros k p Fp Fk Sp Sk W. destruct (matches_ok (S (length p)) p k) as (b & E & H1 & H2); auto. exists b.
  split; [exact E|]. split; [exact H1|exact (H2 W)].
Qed.
Print Assumptions C25_exact_partial.
Example C25_ex : matches [B "x"; B "y"; B "z"; B "C"] [B "..."; B "*"; B "c"] = Ok true /\
  matches [B "c"] [B "..."; B "*"; B "c"] = Ok false /\ wild_first [B "..."; B "*"; B "c"].
Proof.
  split; [vm_compute; reflexivity|]. split; [vm_compute; reflexivity|].
  apply W_dots, W_star, W_literals. constructor; [split; discriminate|constructor].
Qed.

(** "a/*" does not match "a/b", although the documentation says it does. *)
Theorem C25_literal_prefix_refuted : exists k p,
  Forall plain p /\ Forall plain k /\ Matches p k /\ matches k p = Ok false.
Proof.
  exists [B "a"; B "b"], [B "a"; B "*"].
  assert (P : forall s, s = B "a" \/ s = B "b" \/ s = B "*" -> plain s).
  { intros s [-> | [-> | ->]]; (split; [discriminate|split; [cbn; intuition discriminate|unfold nul_free; cbn; intuition discriminate]]). }
  split; [repeat (first [apply Forall_nil | apply Forall_cons]); apply P; auto|].
  split; [repeat (first [apply Forall_nil | apply Forall_cons]); apply P; auto|].
  split; [|vm_compute; reflexivity].
  apply M_lit; [split; discriminate|reflexivity|]. apply M_star. constructor.
Qed.
Print Assumptions C25_literal_prefix_refuted.
(** A trailing slash in the key is ignored after "*" but not after an ordinary
    segment. *)
Theorem C25_trailing_slash_refuted :
  matches [B "a"; B ""] [B "*"] = Ok true /\ matches [B "a"; B "b"; B ""] [B "*"; B "b"] = Ok false.
Proof. vm_compute. auto. Qed.
Print Assumptions C25_trailing_slash_refuted.

(* ---- C49 *)

(** Strings equal up to case and keys that compare equal have equal hashes, so
    hash tables keyed by them find what was stored under an equal key. *)
Theorem C49_strings : forall a b, same_text a b -> hash_string (Some a) = hash_string (Some b).
Proof. intros a b H. apply hash_loop_same. exact H. Qed.
Print Assumptions C49_strings.
Theorem C49_keys : forall a b, canonical a -> canonical b -> key_eq a b = true -> hash_key a = hash_key b.
Proof. intros a b Ha Hb E. apply hash_key_same. apply key_eq_spec in E; auto using canonical_nul. Qed.
Print Assumptions C49_keys.
Example C49_ex : hash_key [B "Foo"; B "BAR"] = hash_key [B "foo"; B "bar"] /\ hash_key [B "foo"] <> hash_key [B "bar"] /\
  hash_string (Some []) = hash_string None.
Proof. vm_compute. split; [reflexivity|]. split; [discriminate|reflexivity]. Qed.
