(** Which names and values an .ini file can hold.  Independent of the model. *)
From Verif Require Import Base TclSpec KeySpec.
Local Open Scope char_scope.
Local Open Scope list_scope.

Definition CR : byte := ascii_of_nat 13.
Definition TAB : byte := ascii_of_nat 9.
(** White space: space, tab, newline, vertical tab, form feed, carriage return. *)
Definition white (c : byte) : Prop := c = " " \/ (9 <= nat_of_ascii c <= 13).
Definition white_start (s : bytes) : Prop := exists c r, s = c :: r /\ white c.
Definition white_end (s : bytes) : Prop := exists r c, s = r ++ [c] /\ white c.

(** Text read from left to right: a backslash hides the character after it, braces
    nest.  [Reads stop s h d]: none of the characters [stop] stands in the open, that
    is, neither hidden nor within braces; in the end [d] braces are open and [h]
    tells whether a backslash still waits for its character.  A closing brace
    with no brace open ([loose]) is read as an ordinary character. *)
Inductive Reads (stop : byte -> Prop) (loose : Prop) : bytes -> bool -> nat -> Prop :=
| R_nil : Reads stop loose [] false 0
| R_hidden s c d : Reads stop loose s true d -> Reads stop loose (s ++ [c]) false d
| R_hide s d : Reads stop loose s false d -> (d = 0 -> ~ stop "\") -> Reads stop loose (s ++ ["\"]) true d
| R_open s d : Reads stop loose s false d -> (d = 0 -> ~ stop "{") -> Reads stop loose (s ++ ["{"]) false (S d)
| R_close s d : Reads stop loose s false (S d) -> Reads stop loose (s ++ ["}"]) false d
| R_loose s : Reads stop loose s false 0 -> loose -> ~ stop "}" -> Reads stop loose (s ++ ["}"]) false 0
| R_plain s c d : Reads stop loose s false d -> c <> "\" -> c <> "{" -> c <> "}" -> (d = 0 -> ~ stop c) ->
    Reads stop loose (s ++ [c]) false d.
(** Text that can stand in a line without being cut by [stop] or running on. *)
Definition contained (stop : byte -> Prop) (s : bytes) : Prop := Reads stop True s false 0.

(** The writer quotes a text if it starts with white space; or if a character of
    [seps] stands in the open after braces that match so far; or if all closing
    braces match and it ends with white space or a backslash, or with a brace
    open. *)
Definition never (_ : byte) : Prop := False.
Definition quoted (seps : byte -> Prop) (s : bytes) : Prop :=
  white_start s \/
  (exists a c b, s = a ++ c :: b /\ Reads never False a false 0 /\ seps c) \/
  (exists h d, Reads never False s h d /\ (h = true \/ d <> 0 \/ white_end s)).
(** Quoting works if the text can be put in braces, which is done when it has
    something to hide and its braces match; or if there is no white space at
    its ends that the backslashes do not protect. *)
Definition special (c : byte) : Prop := c = "{" \/ c = "}" \/ c = "\" \/ c = """".
Definition quotable (nasty : byte -> Prop) (s : bytes) : Prop :=
  (balanced s /\ exists c, In c s /\ (special c \/ nasty c)) \/
  (~ white_end s /\ forall c r, s = c :: r -> white c -> nasty c).
(** The text can stand as it is. *)
Definition wrapped (s : bytes) : Prop :=
  (exists r, s = "{" :: r ++ ["}"]) \/ (exists r, s = """" :: r ++ [""""]) \/ s = [""""].
Definition clean (stop : byte -> Prop) (s : bytes) : Prop :=
  contained stop s /\ ~ In "\" s /\ ~ wrapped s /\ ~ white_start s /\ ~ white_end s.
Definition storable (nasty seps stop : byte -> Prop) (s : bytes) : Prop :=
  clean stop s \/ (quoted seps s /\ quotable nasty s).

Definition among (l : bytes) (c : byte) : Prop := In c l.
Definition line_end : byte -> Prop := among [CR; newline].
(** Values, names of keys within a section, names of sections *)
Definition good_value : bytes -> Prop := storable (among [" "; TAB; newline; CR]) line_end line_end.
Definition good_name : bytes -> Prop :=
  storable (among [CR; newline; TAB; " "; "["; "]"; "="; "#"]) (among [CR; newline; "["; "]"; "="; "#"; """"]) (among [CR; newline; "="]).
Definition good_section : bytes -> Prop :=
  storable (among [CR; newline; "["; "]"]) (among [CR; newline; "["; "]"]) line_end.
(** A value that may come back changed, but stays in its own line. *)
Definition harmless (v : bytes) : Prop := (quoted line_end v \/ contained line_end v) /\ v <> [""""].

(** A key is kept in the section of its first segment under the rest of it; a key of
    one segment is kept in the section without name. *)
Fixpoint path (k : list bytes) : bytes :=
  match k with [] => [] | [s] => s | s :: r => s ++ "/" :: path r end.
Definition good_key (k : list bytes) : Prop :=
  match k with
  | [] => True
  | [s] => good_name s
  | s :: r => good_section s /\ good_name (path r)
  end.
(** Keys with an empty value are not kept. *)
Definition kept (o : option bytes) : option bytes := match o with Some [] => None | _ => o end.
