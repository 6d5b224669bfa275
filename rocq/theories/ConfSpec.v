(** What WvConf promises.  The state of a configuration is that of the model; the rest is
    independent of it. *)
From Verif Require Import Base KeySpec IniSpec ConfModel.
Local Open Scope char_scope.
Local Open Scope nat_scope.

(** The first pair whose name is [n], in any letter case *)
Definition first_of {A} (l : list (bytes * A)) (n : bytes) (x : bytes * A) : Prop :=
  exists a b, l = a ++ x :: b /\ same_text (fst x) n /\ forall y, In y a -> ~ same_text (fst y) n.
Definition none_of {A} (l : list (bytes * A)) (n : bytes) : Prop := forall y, In y l -> ~ same_text (fst y) n.
(** Section [s] says that entry [e] is [v]; says nothing of [e] *)
Definition says (c : conf) (s e v : bytes) : Prop := exists x n, first_of (sects c) s x /\ first_of (snd x) e (n, v).
Definition silent (c : conf) (s e : bytes) : Prop := forall x, first_of (sects c) s x -> none_of (snd x) e.
Definition exists_sect (c : conf) (s : bytes) : Prop := exists x, first_of (sects c) s x.
(** Section [s], or one that it inherits from, directly or not, says that [e] is [v], and those
    before it say nothing *)
Inductive inherits (c : conf) (e : bytes) : bytes -> bytes -> Prop :=
| I_here s v : says c s e v -> inherits c e s v
| I_up s t v : silent c s e -> says c s (B "Inherits") t -> inherits c e t v -> inherits c e s v.
(** The answer to a question: that of the section or those it inherits from, else that of the
    global section, else the default *)
Definition answer (c : conf) (s e : bytes) (def : option bytes) (a : option bytes) : Prop :=
  (exists v, inherits c e s v /\ a = Some v) \/
  (~ (exists v, inherits c e s v) /\ (exists n v, first_of (glob c) e (n, v) /\ a = Some v)) \/
  (~ (exists v, inherits c e s v) /\ none_of (glob c) e /\ a = def).

(** Texts a file can hold *)
Definition one_line (s : bytes) : Prop := ~ In newline s /\ nul_free s.
Definition trimmed (s : bytes) : Prop := ~ white_start s /\ ~ white_end s.
Definition good_section (s : bytes) : Prop := s <> [] /\ one_line s /\ trimmed s /\ ~ In "]" s.
Definition good_entry (e : bytes) : Prop := e <> [] /\ one_line e /\ trimmed e /\ ~ In "=" e /\ hd_error e <> Some "[".
Definition good_value (v : bytes) : Prop := one_line v /\ trimmed v.

(** What a user does *)
Inductive op :=
| Load (f : view)
| Set_ (s e : bytes) (v : option bytes)
| DelSection (s : bytes)
| AddCb (cb : callback) | DelCb (s e : bytes) (cookie : nat).
Definition step (c : conf) (o : op) : conf * list call :=
  match o with
  | Load f => load_file c f
  | Set_ s e v => conf_set c s e v
  | DelSection s => (delete_section c s, [])
  | AddCb cb => (add_callback c cb, [])
  | DelCb s e k => (del_callback c s e k, [])
  end.
Fixpoint run (c : conf) (l : list op) : conf := match l with [] => c | o :: r => run (fst (step c o)) r end.
Definition good_op (o : op) : Prop :=
  match o with
  | Set_ s e v => good_section s /\ good_entry e /\ match v with Some v => good_value v | None => True end
  | _ => True
  end.
(** The same sections and entries *)
Definition same_contents (c d : conf) : Prop := sects c = sects d /\ glob c = glob d.
