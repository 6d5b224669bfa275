(** What encoder chains and encoder streams are for: each encoder is a machine that turns
    bytes into bytes, and the output of each is the input of the next. *)
From Verif Require Import Base EncoderModel EStreamModel.
Local Open Scope nat_scope.

(** A machine writes something for each byte, when flushed and when finished. *)
Record machine := Machine { M_st : Type; M_init : M_st; M_byte : M_st -> byte -> M_st * bytes; M_flush : M_st -> M_st * bytes; M_finish : M_st -> bytes }.
Fixpoint bytes_run (M : machine) (s : M_st M) (b : bytes) : M_st M * bytes :=
  match b with [] => (s, []) | x :: r => let (s, o) := M_byte M s x in let (s, o') := bytes_run M s r in (s, o ++ o') end.
Definition call_run (M : machine) (s : M_st M) (b : bytes) (flush fin : bool) : M_st M * bytes :=
  let (s, o) := bytes_run M s b in
  let (s, o') := (if flush then M_flush M s else (s, [])) in
  (s, o ++ o' ++ (if fin then M_finish M s else [])).
(** Machines at work, each feeding the next; what comes out of the last *)
Definition live := list { M : machine & M_st M }.
Fixpoint pipe (l : live) (b : bytes) (flush fin : bool) : live * bytes :=
  match l with
  | [] => ([], b)
  | existT _ M s :: r => let (s, o) := call_run M s b flush fin in let (r, o) := pipe r o flush fin in (existT _ M s :: r, o)
  end.
(** A history of calls: bytes given, and whether with a flush *)
Fixpoint pipes (l : live) (calls : list (bytes * bool)) : live * bytes :=
  match calls with [] => (l, []) | (b, f) :: r => let (l, o) := pipe l b f false in let (l, o') := pipes l r in (l, o ++ o') end.
Definition fresh (ms : list machine) : live := map (fun M => existT _ M (M_init M)) ms.
Definition given (calls : list (bytes * bool)) : bytes := concat (map fst calls).
(** All that comes out of machines given the calls, and when finished after them *)
Definition output (ms : list machine) (calls : list (bytes * bool)) : bytes := snd (pipes (fresh ms) calls).
Definition finished_output (ms : list machine) (calls : list (bytes * bool)) : bytes :=
  let (l, o) := pipes (fresh ms) calls in o ++ snd (pipe l [] true true).
(** Machines for which a flush changes nothing; what such a one makes of a whole text *)
Definition steady (M : machine) : Prop := forall s, M_flush M s = (s, []).
Definition total (M : machine) (b : bytes) : bytes := let (s, o) := bytes_run M (M_init M) b in o ++ M_finish M s.
Definition through (ms : list machine) (b : bytes) : bytes := fold_left (fun b M => total M b) ms b.

(** An encoder works like a machine if it takes all it is given, up to some bytes it may leave
    in its input until the next flush, and writes what the machine writes. *)
Record works_like (E : encoder) (M : machine) := WorksLike {
  w_st : M_st M -> enc_state E;
  w_held : M_st M -> bytes;
  w_init : w_st (M_init M) = enc_init E /\ w_held (M_init M) = [];
  w_enc : forall s b fl, exists r,
    enc_encode E (w_st s) (w_held s ++ b) fl =
    Ok (let (s', o) := call_run M s b fl false in EncOut (w_st s') (w_held s') o r false false);
  w_flushed : forall s, w_held (fst (M_flush M s)) = [];
  w_fin : forall s, exists r, enc_finish E (w_st s) = Ok (M_finish M s, r) }.
Arguments w_st {E M}. Arguments w_held {E M}. Arguments w_init {E M}. Arguments w_enc {E M}. Arguments w_flushed {E M}. Arguments w_fin {E M}.

(** ** Streams *)
(** What the stream below gives, in order, each item with whether it closes then *)
Definition items := list (bytes * bool).
Definition data (x : items) : bytes := concat (map fst x).
Definition open_script (x : items) : Prop := Forall (fun i => snd i = false) x.
(** Operations but close() and changes of the chains; those but changes of the chains *)
Definition plain_op (o : op) : Prop := match o with Close | AppendR _ _ | AppendW _ _ => False | _ => True end.
Definition steady_op (o : op) : Prop := match o with AppendR _ _ | AppendW _ _ => False | _ => True end.
(** All that was written *)
Definition written (l : list op) : bytes := flat_map (fun o => match o with Write b => b | _ => [] end) l.
(** Encoders and the machines they work like *)
Definition like (es : list encoder) (ms : list machine) : Prop := Forall2 (fun E M => exists w : works_like E M, True) es ms.
