(** The format of serialized values.  It uses only the types and the host
    of the model. *)
From Verif Require Import Base SerModel.
Local Open Scope Z_scope.

(** The integer that bytes spell, most significant first *)
Definition spells (l : bytes) (z : Z) : Prop :=
  fold_left (fun z c => z * 256 + Z.of_N (Ascii.N_of_ascii c)) l 0 = z.
(** Integer types *)
Definition fits (w : nat) (s : bool) (z : Z) : Prop :=
  if s then - 2 ^ (8 * Z.of_nat w - 1) <= z < 2 ^ (8 * Z.of_nat w - 1) else 0 <= z < 2 ^ (8 * Z.of_nat w).
Definition width (w : nat) : Prop := (w = 1 \/ w = 2 \/ w = 4 \/ w = 8)%nat.

(** Values that can be written: integers in the range of their type, strings without
    nul, buffers and lists whose length fits a size_t.  On machines with the most
    significant byte first there are no integers of two bytes. *)
Fixpoint good (h : host) (t : ty) : den t -> Prop :=
  match t return den t -> Prop with
  | TInt w s => fun z => width w /\ fits w s z /\ (w = 2%nat -> h_big h = false)
  | TBool => fun _ => True
  | TStr => fun s => exists s', s = Some s' /\ ~ In nul s'
  | TBuf => fun b => Z.of_nat (length b) < 2 ^ (8 * Z.of_nat (h_word h))
  | TList t => fun l => Z.of_nat (length l) < 2 ^ (8 * Z.of_nat (h_word h)) /\ Forall (good h t) l
  | TPair t t' => fun v => good h t (fst v) /\ good h t' (snd v)
  end.
Definition good_host (h : host) : Prop := (h_word h = 4 \/ h_word h = 8)%nat.
(** The bytes of a value, where a size takes [word] bytes *)
Inductive form (word : nat) : forall t, den t -> bytes -> Prop :=
| F_int w s z l : length l = w -> spells l (z mod 2 ^ (8 * Z.of_nat w)) -> form word (TInt w s) z l
| F_bool b : form word TBool b [if b then Ascii.ascii_of_nat 1 else nul]
| F_str s : form word TStr (Some s) (s ++ [nul])
| F_buf n b : length n = word -> spells n (Z.of_nat (length b)) -> form word TBuf b (n ++ b)
| F_list t n l bs : length n = word -> spells n (Z.of_nat (length l)) -> Forall2 (form word t) l bs ->
    form word (TList t) l (n ++ concat bs)
| F_pair t t' v v' b b' : form word t v b -> form word t' v' b' -> form word (TPair t t') (v, v') (b ++ b').
(** Types without buffers *)
Fixpoint bufless (t : ty) : Prop :=
  match t with TBuf => False | TList t => bufless t | TPair t t' => bufless t /\ bufless t' | _ => True end.
