(** Stream ciphers by position, independent of the model. *)
From Verif Require Import Base.

Definition xor_byte (a b : byte) : byte :=
  ascii_of_N (N.lxor (N_of_ascii a) (N_of_ascii b)).

(** Byte [i] of the text is combined with byte [i mod length key] of the key. *)
Definition xor_text (key l : bytes) : bytes :=
  map (fun i => xor_byte (nth i l nul) (nth (i mod length key) key nul)) (seq 0 (length l)).

(** Little-endian number of a byte string, and the [n]-byte string of a number. *)
Fixpoint le_val (l : bytes) : N :=
  match l with [] => 0%N | c :: r => (N_of_ascii c + 256 * le_val r)%N end.
Fixpoint le_bytes (n : nat) (v : N) : bytes :=
  match n with O => [] | S n => ascii_of_N (v mod 256) :: le_bytes n (v / 256) end.

(** A segment encrypted from block number [v]: byte [j] uses byte [j mod n] of
    the encrypted counter [v + j / n]. *)
Definition ctr_text (K : bytes -> bytes) (n : nat) (v : N) (l : bytes) : bytes :=
  map (fun j => xor_byte (nth j l nul) (nth (j mod n) (K (le_bytes n (v + N.of_nat (j / n)))) nul))
      (seq 0 (length l)).

(** A list of flushed segments: each starts on a fresh block. *)
Fixpoint ctr_segments (K : bytes -> bytes) (n : nat) (v : N) (segs : list bytes) : bytes :=
  match segs with
  | [] => []
  | s :: r => ctr_text K n v s ++
              ctr_segments K n (v + N.of_nat ((length s + n - 1) / n)) r
  end.

(** The segments of a sequence of calls: every flush ends a segment; second
    component: what came after the last flush. *)
Fixpoint segments (cur : bytes) (calls : list (bytes * bool)) : list bytes * bytes :=
  match calls with
  | [] => ([], cur)
  | (c, false) :: r => segments (cur ++ c) r
  | (c, true) :: r => let '(s, last) := segments [] r in ((cur ++ c) :: s, last)
  end.
