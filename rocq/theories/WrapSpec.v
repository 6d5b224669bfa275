(** What wrapping a text means.  Independent of the model. *)
From Verif Require Import Base.
Local Open Scope nat_scope.

Definition TAB : byte := ascii_of_nat 9.
Definition is_blank (c : byte) : bool := Ascii.eqb c " " || Ascii.eqb c TAB.
Definition is_sep (c : byte) : bool := is_blank c || Ascii.eqb c newline.
Definition blanks (s : bytes) : Prop := forall c, In c s -> is_blank c = true.
(** The column behind a character that stands at a column: tabs go to the next multiple of 8 *)
Definition advance (col : nat) (c : byte) : nat :=
  if Ascii.eqb c newline then 0 else if Ascii.eqb c TAB then 8 * (col / 8) + 8 else col + 1.
Definition advances (col : nat) (s : bytes) : nat := fold_left advance s col.
(** A word, and where it ends *)
Definition a_word (w : bytes) : Prop := w <> [] /\ forall c, In c w -> is_sep c = false.
Definition ends_word (t : bytes) : Prop := match t with [] => True | c :: _ => is_sep c = true end.
(** A word cut into pieces of [m] characters; the last may be shorter *)
Definition pieces (m : nat) (w : bytes) (ps : list bytes) : Prop :=
  concat ps = w /\ exists a b, ps = a ++ [b] /\ Forall (fun p => length p = m) a /\ 1 <= length b <= m.
(** Pieces on lines of their own *)
Fixpoint on_lines (ps : list bytes) : bytes :=
  match ps with [] => [] | [p] => p | p :: r => p ++ newline :: on_lines r end.

(** [laid m col t o col']: the text [t], set from column [col] on into lines of [m] columns, is
    [o] and ends at column [col'].  A word stays on its line with the blanks before it if it fits
    there; if not it goes to the next line, without those blanks.  A word that does not fit on a line of its own is cut,
    and so is one that does not fit and has no blanks before it.  Blanks at the end of a line are
    dropped; those at the end of the text are kept as far as they fit. *)
Inductive laid (m : nat) : nat -> bytes -> bytes -> nat -> Prop :=
| L_end col a b : blanks (a ++ b) -> (a = [] \/ advances col a <= m) ->
    (b = [] \/ exists c r, b = c :: r /\ m < advances col (a ++ [c])) ->
    laid m col (a ++ b) a (advances col (a ++ b))
| L_newline col ws t o col' : blanks ws -> laid m 0 t o col' ->
    laid m col (ws ++ newline :: t) (newline :: o) col'
| L_fits col ws w t o col' : blanks ws -> a_word w -> ends_word t -> advances col (ws ++ w) <= m ->
    laid m (advances col (ws ++ w)) t o col' -> laid m col (ws ++ w ++ t) (ws ++ w ++ o) col'
| L_wrap col ws w ps t o col' : blanks ws -> ws <> [] -> a_word w -> ends_word t -> m < advances col (ws ++ w) ->
    pieces m w ps -> laid m (length (last ps [])) t o col' ->
    laid m col (ws ++ w ++ t) (newline :: on_lines ps ++ o) col'
| L_cut col p q ps t o col' : a_word (p ++ q) -> ends_word t -> m < advances col (p ++ q) -> length p = m - col ->
    pieces m q ps -> laid m (length (last ps [])) t o col' ->
    laid m col (p ++ q ++ t) (p ++ newline :: on_lines ps ++ o) col'.
(** One text after the other *)
Inductive all_laid (m : nat) : nat -> list bytes -> bytes -> Prop :=
| A_nil col : all_laid m col [] []
| A_cons col t ts o o' col' : laid m col t o col' -> all_laid m col' ts o' -> all_laid m col (t :: ts) (o ++ o').

(** No line of the text is wider than [m] columns *)
Definition fits (m : nat) (s : bytes) : Prop := forall a b, s = a ++ b -> advances 0 a <= m.
(** No line ends with a blank, apart from the last, which has no end yet *)
Definition no_trailing (s : bytes) : Prop := forall a c b, s = a ++ c :: newline :: b -> is_blank c = false.
(** The characters that are not blanks or ends of lines *)
Definition ink (s : bytes) : bytes := filter (fun c => negb (is_sep c)) s.
(** The words of a text *)
Inductive words : bytes -> list bytes -> Prop :=
| W_nil : words [] []
| W_sep c t ws : is_sep c = true -> words t ws -> words (c :: t) ws
| W_word w t ws : a_word w -> ends_word t -> words t ws -> words (w ++ t) (w :: ws).
(** The texts between two flushes; [cur]: the beginning of the first *)
Fixpoint texts (cur : bytes) (calls : list (bytes * bool)) : list bytes :=
  match calls with
  | [] => [cur]
  | (t, f) :: r => if f then (cur ++ t) :: texts [] r else texts (cur ++ t) r
  end.
