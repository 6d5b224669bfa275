(** What URL-encoded text looks like. *)
From Verif Require Import Base.

(** RFC 2396 unreserved characters. *)
Definition unreserved : bytes :=
  B "ABCDEFGHIJKLMNOPQRSTUVWXYZabcdefghijklmnopqrstuvwxyz0123456789-_.!~*'()".
Definition upper_hex : bytes := B "0123456789ABCDEF".

Inductive url_text : bytes -> Prop :=
| ut_nil : url_text []
| ut_char c t : In c unreserved -> url_text t -> url_text (c :: t)
| ut_pct a b t : In a upper_hex -> In b upper_hex -> url_text t ->
    url_text ("%"%char :: a :: b :: t).
