(** Specification vocabulary for Tcl-style strings; independent of the model. *)
From Verif Require Import Base.
Local Open Scope char_scope.
Local Open Scope list_scope.

(** Text whose braces match, where a backslash hides the next character. *)
Inductive balanced : bytes -> Prop :=
| bal_nil : balanced []
| bal_char c s : c <> "{" -> c <> "}" -> c <> "\" -> balanced s -> balanced (c :: s)
| bal_esc c s : balanced s -> balanced ("\" :: c :: s)
| bal_group s t : balanced s -> balanced t -> balanced ("{" :: s ++ "}" :: t).

(** A set of separators usable with a set of nasty characters: every separator
    is a nasty character, a closing brace or a quote, and neither the opening
    brace nor the backslash separates. *)
Definition usable_separators (nasty sep : byte -> bool) : Prop :=
  (forall c, sep c = true -> nasty c = true \/ c = "}" \/ c = """") /\
  sep "{" = false /\ sep "\" = false.

(** The one shape the list decoder cannot give back: the last element ends in a
    newline (a nasty character) and has unmatched braces. *)
Definition lost_last (nasty : byte -> bool) (l : list bytes) : Prop :=
  exists l' x, l = l' ++ [x ++ [newline]] /\
               nasty newline = true /\ ~ balanced (x ++ [newline]).
