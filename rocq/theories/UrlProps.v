(** C08: URL coding. *)
From Verif Require Import Base UrlModel UrlSpec UrlProofs.

(** Round trip under the default unsafe set (null or empty argument), for both
    values of no_space. *)
Theorem C08_roundtrip : forall u no_space s, u = None \/ u = Some [] -> nul_free s ->
  url_decode (Some (url_encode (Some s) u)) no_space = Ok (Some s).
Proof. exact url_roundtrip. Qed.
Print Assumptions C08_roundtrip.

(** The encoded text has only unreserved characters and %XX escapes. *)
Theorem C08_output : forall s, nul_free s -> url_text (url_encode (Some s) None).
Proof. exact url_encode_text. Qed.
Print Assumptions C08_output.

(** With a custom unsafe set the round trip holds if the set has all white space
    and, unless no_space is given, the plus sign. *)
Theorem C08_roundtrip_custom : forall u no_space s,
  (no_space = true \/ In "+"%char u) -> u <> [] ->
  (forall c, In c (B " " ++ map ascii_of_nat [9; 10; 11; 12; 13]) -> In c u) ->
  nul_free s ->
  url_decode (Some (url_encode (Some s) (Some u))) no_space = Ok (Some s).
Proof. exact url_roundtrip_custom. Qed.
Print Assumptions C08_roundtrip_custom.

(** Decoding any text terminates and stays inside the output block. *)
Theorem C08_decode_safe : forall s no_space, exists o, url_decode s no_space = Ok o.
Proof. exact url_decode_safe. Qed.
Print Assumptions C08_decode_safe.

Example C08_ex1 : url_encode (Some (B "a b%+" ++ [ascii_of_nat 255])) None = B "a%20b%25%2B%FF".
Proof. vm_compute. reflexivity. Qed.
Example C08_ex2 : url_decode (Some (B " I+am+%zz%4a%4A% ")) false = Ok (Some (B "I am JJ%")).
Proof. vm_compute. reflexivity. Qed.
(** Why the guard of [C08_roundtrip_custom]: a set without '+' and blanks. *)
Example C08_ex3 : url_decode (Some (url_encode (Some (B " 1+1")) (Some (B "&")))) false = Ok (Some (B "1 1")).
Proof. vm_compute. reflexivity. Qed.
