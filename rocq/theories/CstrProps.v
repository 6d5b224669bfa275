(** C07: C-style string escaping. *)
From Verif Require Import Base Ctype CstrModel CstrSpec CstrProofs.

(** For every data block and every usable table of extra escapes the escaped
    text is the quoted literal; in particular nothing is written outside the
    4*size+4 bytes allocated. *)
Theorem C07_escape : forall ex d, usable ex ->
  cstr_escape (Some d) ex = Ok (Some (literal ex d)).
Proof. intros ex d U. exact (escape_spec ex U d). Qed.
Print Assumptions C07_escape.

(** Without extra escapes the literal is printable ASCII. *)
Theorem C07_printable : forall d t x, cstr_escape (Some d) [] = Ok (Some t) ->
  In x t -> 32 <= nat_of_ascii x <= 126.
Proof.
  intros d t x E. rewrite (escape_spec [] usable_none) in E. inversion E; subst.
  apply literal_printable.
Qed.
Print Assumptions C07_printable.

(** Any sequence of literals with white space around them is read back as the
    concatenation of the data; the size is the full size, success is reported
    iff it fits, and the caller's block (if any) gets the first [max] bytes and
    is otherwise unchanged. *)
Theorem C07_unescape : forall ex max d t (block : mem), usable ex -> c_text ex d t ->
  min (length d) max <= length block ->
  cstr_unescape (Some t) (Some block) max ex =
    Ok (length d <=? max, length d,
        Some (firstn max d ++ skipn (min (length d) max) block)).
Proof. intros ex max d t block U H Hr. exact (unescape_spec ex U max (Some block) d t H Hr). Qed.
Print Assumptions C07_unescape.

(** The same without a block: only the size is computed. *)
Theorem C07_unescape_size : forall ex max d t, usable ex -> c_text ex d t ->
  cstr_unescape (Some t) None max ex = Ok (length d <=? max, length d, None).
Proof. intros ex max d t U H. exact (unescape_spec ex U max None d t H I). Qed.
Print Assumptions C07_unescape_size.

(** Round trip. *)
Theorem C07_roundtrip : forall ex d t block max, usable ex ->
  cstr_escape (Some d) ex = Ok (Some t) -> length d <= max -> length block = max ->
  cstr_unescape (Some t) (Some block) max ex =
    Ok (true, length d, Some (d ++ skipn (length d) block)).
Proof. exact roundtrip. Qed.
Print Assumptions C07_roundtrip.

(** Both tables the library offers are usable. *)
Theorem C07_default_tables : usable [] /\ usable CSTR_TCLSTR_ESCAPES.
Proof. exact (conj usable_none usable_tcl). Qed.
Print Assumptions C07_default_tables.

(** Any text whatsoever: unescaping terminates, never touches memory outside the
    caller's block of [max] bytes. *)
Theorem C07_unescape_safe : forall ex max str (block : mem),
  (forall c e, In (c, e) ex -> e <> []) -> max <= length block ->
  exists ret size block', cstr_unescape str (Some block) max ex = Ok (ret, size, Some block')
    /\ length block' = length block.
Proof.
  intros ex max str block Hne Hm.
  destruct (unescape_safe ex max str (Some block) Hne Hm) as (r & s & m' & H & Hs).
  destruct m' as [b'|]; [|destruct Hs]. eauto 6.
Qed.
Print Assumptions C07_unescape_safe.

Definition ex_data : bytes := B "a{""" ++ [nul; ascii_of_nat 200; newline].
Example C07_ex1 : cstr_escape (Some ex_data) CSTR_TCLSTR_ESCAPES
  = Ok (Some (B """a\<\""\0\xC8\n""")).
Proof. vm_compute. reflexivity. Qed.
Example C07_ex2 : cstr_unescape (Some (B " ""a\<\""\0"" ""\xC8\n"" ")) (Some (repeat "z"%char 8)) 8 CSTR_TCLSTR_ESCAPES
  = Ok (true, 6, Some (ex_data ++ B "zz")).
Proof. vm_compute. reflexivity. Qed.
Example C07_ex3 : cstr_unescape (Some (B """a\<\""\0\xC8\n""")) (Some (repeat "z"%char 3)) 2 CSTR_TCLSTR_ESCAPES
  = Ok (false, 6, Some (B "a{z")).
Proof. vm_compute. reflexivity. Qed.
Example C07_ex4 : c_text CSTR_TCLSTR_ESCAPES ex_data (B " ""a\<\""\0"" ""\xC8\n"" ").
Proof.
  assert (W : In " "%char c_white) by (cbn; tauto).
  exact (ct_ws _ _ _ _ W (ct_lit _ (firstn 4 ex_data) _ _
    (ct_ws _ _ _ _ W (ct_lit _ (skipn 4 ex_data) _ _ (ct_ws _ _ _ _ W (ct_nil _)))))).
Qed.
