(** C90: UUIDs survive being written and read. *)
From Verif Require Import Base Ctype UuidSpec UuidModel UuidProofs.
Local Open Scope char_scope.

(** Every UUID text, in either case of letters, with or without braces, is read as what it says. *)
Theorem C90_read : forall s u, bare s u \/ braced s u -> from_string s = Struct (data1 u) (data2 u) (data3 u) (map Some (data4 u)).
Proof.
  intros s u [H|(t & -> & H)].
  - unfold from_string. assert (E : exists c r, s = c :: r /\ Ascii.eqb c "{" = false).
    { destruct H as (a & b & c & d & e & -> & LA & NA & _). apply number_digits in NA. destruct a as [|x a]; [discriminate|]. inversion NA as [|? ? [dx D] _]; subst.
      exists x. eexists. split; [reflexivity|]. apply Ascii.eqb_neq. intros ->. inversion D; cbn in *; lia. }
    destruct E as (c & r & E & N). rewrite E, N, <- E. pose proof (body_ok u s [] H false eq_refl) as K. rewrite app_nil_r in K. exact K.
  - unfold from_string. rewrite Ascii.eqb_refl. exact (body_ok u t ["}"] H true eq_refl).
Qed.
Print Assumptions C90_read.

(** What is written is such a text, of 38 characters, so that reading it gives the UUID back. *)
Theorem C90_roundtrip : forall u, valid u -> braced (to_string u) u /\ length (to_string u) = 38 /\
  from_string (to_string u) = Struct (data1 u) (data2 u) (data3 u) (map Some (data4 u)).
Proof.
  intros u ((R1 & R2 & R3) & L4 & R4).
  assert (H : braced (to_string u) u).
  { exists (hexpad 8 (data1 u) ++ "-" :: hexpad 4 (data2 u) ++ "-" :: hexpad 4 (data3 u) ++ "-" ::
      concat (map (hexpad 2) (firstn 2 (data4 u))) ++ "-" :: concat (map (hexpad 2) (skipn 2 (data4 u)))). split.
    - unfold to_string. repeat (rewrite <- app_assoc; cbn [app]). reflexivity.
    - destruct (hexpad_number 8 (data1 u)) as [N1 E1]; [exact R1|]. destruct (hexpad_number 4 (data2 u)) as [N2 E2]; [exact R2|]. destruct (hexpad_number 4 (data3 u)) as [N3 E3]; [exact R3|].
      exists (hexpad 8 (data1 u)), (hexpad 4 (data2 u)), (hexpad 4 (data3 u)), (concat (map (hexpad 2) (firstn 2 (data4 u)))), (concat (map (hexpad 2) (skipn 2 (data4 u)))).
      split; [|split; [exact E1|]; split; [exact N1|]; split; [exact E2|]; split; [exact N2|]; split; [exact E3|]; split; [exact N3|]; split; [|split; [|exact L4]]].
      + reflexivity.
      + apply concat_octets. rewrite <- (firstn_skipn 2 (data4 u)) in R4. apply Forall_app in R4. apply R4.
      + apply concat_octets. rewrite <- (firstn_skipn 2 (data4 u)) in R4. apply Forall_app in R4. apply R4. }
  split; [exact H|]. split; [|apply C90_read; right; exact H].
  destruct H as (t & E & a & b & c & d & e & -> & LA & _ & LB & _ & LC & _ & OD & OE & _). rewrite E.
  assert (G : forall e vs, octets e vs -> length e = 2 * length vs) by (induction 1; cbn [length]; lia).
  apply G in OD, OE. rewrite firstn_length in OD. rewrite skipn_length in OE. cbn [length]. repeat (rewrite app_length; cbn [length]). lia.
Qed.
Print Assumptions C90_roundtrip.

(** Different UUIDs have different texts. *)
Theorem C90_injective : forall u v, valid u -> valid v -> to_string u = to_string v -> u = v.
Proof.
  intros u v U V E. destruct (C90_roundtrip u U) as (_ & _ & A). destruct (C90_roundtrip v V) as (_ & _ & C). rewrite E, C in A. injection A as E1 E2 E3 E4.
  destruct u as [a b c d], v as [a' b' c' d']. cbn in E1, E2, E3, E4. subst. f_equal. clear - E4. revert d' E4. induction d as [|x d IH]; intros [|y d'] E; try discriminate; [reflexivity|].
  cbn in E. injection E as <- E. f_equal. apply IH. congruence.
Qed.
Print Assumptions C90_injective.

(** Whatever is not refused has the dashes and braces in their places, but
    trailing octets may be missing: if [k] of the last six are there, the next one is
    zero or so and the others are whatever was in memory. *)
Theorem C90_accepted_partial : forall s d1 d2 d3 d4, from_string s = Struct d1 d2 d3 d4 ->
  exists f a b c d e k, s = (if f : bool then ["{"] else []) ++ a ++ "-" :: b ++ "-" :: c ++ "-" :: d ++ "-" :: e ++ (if f then ["}"] else []) /\
    length a = 8 /\ length b = 4 /\ length c = 4 /\ length d = 4 /\ length e = 2 * k /\ k <= 6 /\ length d4 = 8 /\
    length (filter (fun x => match x with None => true | Some _ => false end) d4) = 5 - k.
Proof.
  intros s d1 d2 d3 d4 H. unfold from_string in H.
  set (fs := match s with [] => _ | _ => _ end) in H. assert (E : s = (if fst fs then ["{"] else []) ++ snd fs).
  { unfold fs. destruct s as [|x s]; [reflexivity|]. destruct (Ascii.eqb_spec x "{") as [->|]; reflexivity. }
  clearbody fs. destruct fs as [f t]. cbn [fst snd] in E.
  destruct (field 8 t) as [[v1 t1]|] eqn:F1; [|discriminate]. destruct (literal "-" t1) as [u1|] eqn:L1; [|discriminate].
  destruct (field 4 u1) as [[v2 t2]|] eqn:F2; [|discriminate]. destruct (literal "-" t2) as [u2|] eqn:L2; [|discriminate].
  destruct (field 4 u2) as [[v3 t3]|] eqn:F3; [|discriminate]. destruct (literal "-" t3) as [u3|] eqn:L3; [|discriminate].
  destruct (octet u3) as [[o0 t4]|] eqn:O0; [|discriminate]. destruct (octet t4) as [[o1 t5]|] eqn:O1; [|discriminate].
  destruct (literal "-" t5) as [u5|] eqn:L5; [|discriminate]. destruct (octet_loop 6 u5) as [os t6] eqn:OL.
  destruct (if f then literal "}" t6 else Some t6) as [t7|] eqn:L6; [|discriminate]. destruct t7; [|discriminate]. injection H as _ _ _ <-.
  apply field_inv in F1, F2, F3. apply octet_inv in O0, O1. apply literal_inv in L1, L2, L3, L5. apply loop_inv in OL.
  destruct F1 as (a & -> & LA). destruct F2 as (b & -> & LB). destruct F3 as (c & -> & LC). destruct O0 as (x & -> & LX). destruct O1 as (y & -> & LY).
  destruct OL as (e & k & -> & LE & K & LO & N). subst t1 t2 t3 t5.
  assert (T6 : t6 = if f then ["}"] else []). { destruct f; [apply literal_inv in L6; exact L6|congruence]. }
  subst t6. exists f, a, b, c, (x ++ y), e, k. split; [rewrite E; repeat (rewrite <- app_assoc; cbn [app]); reflexivity|].
  split; [exact LA|]. split; [exact LB|]. split; [exact LC|]. split; [rewrite app_length; lia|]. split; [exact LE|]. split; [exact K|]. split; [cbn [length]; lia|]. cbn [filter]. exact N.
Qed.
Print Assumptions C90_accepted_partial.

(** A text that stops early is accepted, and five bytes of the UUID are not initialised. *)
Theorem C90_truncated_refuted :
  from_string (B "{01234567-89ab-cdef-0123-}") = Struct 19088743 35243 52719 [Some 1; Some 35; Some 0; None; None; None; None; None]%Z /\
  (forall u, ~ braced (B "{01234567-89ab-cdef-0123-}") u) /\
  from_string (B "01234567-89ab-cdef-0123-456789abcd") = Struct 19088743 35243 52719 [Some 1; Some 35; Some 69; Some 103; Some 137; Some 171; Some 205; Some 0]%Z.
Proof.
  split; [vm_compute; reflexivity|]. split; [|vm_compute; reflexivity].
  intros u H. assert (E := C90_read _ _ (or_intror H)). 
  assert (X : from_string (B "{01234567-89ab-cdef-0123-}") = Struct 19088743 35243 52719 [Some 1; Some 35; Some 0; None; None; None; None; None]%Z) by (vm_compute; reflexivity).
  rewrite X in E. injection E as _ _ _ E. destruct (data4 u) as [|? [|? [|? [|? ?]]]]; cbn [map] in E; discriminate.
Qed.
Print Assumptions C90_truncated_refuted.

(** Signs, white space and 0x count as digits. *)
Theorem C90_lax_refuted :
  from_string (B "  -00001-0x89-  +c-0123-456789abcdef") = Struct 4294967295 137 12 (map Some [1; 35; 69; 103; 137; 171; 205; 239]%Z).
Proof. vm_compute. reflexivity. Qed.
Print Assumptions C90_lax_refuted.

Example C90_ex : let u := Uuid 439041101 4660 43981 [0; 255; 16; 1; 2; 3; 4; 5]%Z in
  valid u /\ to_string u = B "{1a2b3c4d-1234-abcd-00ff-100102030405}" /\
  from_string (B "1A2B3C4D-1234-ABCD-00FF-100102030405") = Struct 439041101 4660 43981 (map Some (data4 u)) /\
  from_string (B "{1a2b3c4d-1234-abcd-00ff-100102030405") = Null /\ from_string (B "1a2b3c4d-1234-abcd-00fg-100102030405") = Null.
Proof.
  cbn zeta. split; [split; [cbn; lia|]; split; [reflexivity|]; repeat constructor; lia|]. vm_compute. auto.
Qed.
