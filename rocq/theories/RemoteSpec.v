(** What a remote configuration should look like: the same calls, made directly on the
    daemon's generator. *)
From Verif Require Import Base KeySpec TclSpec IniSpec TempModel RemoteModel.
Local Open Scope char_scope.
Local Open Scope list_scope.

(** One call made directly on the generator: what is left, the notifications raised,
    the answer if the call has one. *)
Definition local (c : call) (g : gen) : gen * list notif * option answer :=
  match c with
  | CGet k => (g, [], Some (AVal (tget g k)))
  | CSet k v => (fst (tset g k v), snd (tset g k v), None)
  | CSetv l => (fold_left (fun g x => fst (tset g (fst x) (Some (snd x)))) l g, [], None)
  | CHas k => (g, [], Some (ABool (thaschildren g k)))
  | CList k recursive => (g, [], Some (AList (listing g k recursive)))
  | CCommit | CRefresh => (g, [], Some (ABool true))
  end.
(** What happens at the daemon, one thing after the other: a call of this client or a
    change made by somebody else. *)
Inductive event := Mine (c : call) | Theirs (k : list bytes) (v : option bytes).
Definition as_call (e : event) : call := match e with Mine c => c | Theirs k v => CSet k v end.
Fixpoint mine (l : list event) : list call :=
  match l with [] => [] | Mine c :: r => c :: mine r | Theirs _ _ :: r => mine r end.
Fixpoint theirs (l : list event) : list (list bytes * option bytes) :=
  match l with [] => [] | Mine _ :: r => theirs r | Theirs k v :: r => (k, v) :: theirs r end.
(** The generator, all notifications and all answers after some events. *)
Fixpoint direct (l : list event) (g : gen) : gen * list notif * list answer :=
  match l with
  | [] => (g, [], [])
  | e :: r =>
      let '(g, n, a) := local (as_call e) g in
      let '(g, n', a') := direct r g in
      (g, n ++ n', match a with Some a => a :: a' | None => a' end)
  end.
(** The changes others make, in a list of steps. *)
Fixpoint others (l : list step) : list (list bytes * option bytes) :=
  match l with [] => [] | Other k v :: r => (k, v) :: others r | _ :: r => others r end.
(** Calls that return something. *)
Definition answered (c : call) : bool := match c with CSet _ _ | CSetv _ => false | _ => true end.
Definition prefix {A} (a b : list A) : Prop := exists r, b = a ++ r.

(** Keys and values that survive the journey.  A value must not end in a newline after
    unmatched braces; no part of a key may end in white space. *)
Definition fit_value (v : bytes) : Prop := nul_free v /\ (forall x, v = x ++ [newline] -> balanced v).
Definition fit_key (k : list bytes) : Prop := canonical k /\ Forall (fun s => ~ white_end s) k.
Definition fit_set (k : list bytes) (v : option bytes) : Prop := fit_key k /\ match v with Some v => fit_value v | None => True end.
(** Calls of the client: lists need a key without a trailing slash, the key "." cannot
    be removed, and setv() is not understood by the daemon. *)
Definition fit_call (c : call) : Prop :=
  match c with
  | CGet k | CHas k => fit_key k
  | CSet k v => fit_set k v /\ (v = None -> named k <> [B "."])
  | CSetv _ => False
  | CList k _ => fit_key k /\ Forall plain k
  | CCommit | CRefresh => True
  end.
Definition fit_step (o : step) : Prop :=
  match o with Call c => fit_call c | Other k v => fit_set k v | _ => True end.

(** Steps that only carry bytes and let both ends handle them. *)
Definition calm (o : step) : Prop := match o with Call _ | Other _ _ => False | _ => True end.

(** The daemon did [lin]; what the client has seen so far fits. *)
Definition explains (lin : list event) (l : list step) (s : sys) : Prop :=
  let '(g, ns, ans) := direct lin tinit in
  sgen (srv s) = g /\ theirs lin = others l /\ prefix (mine lin) (calls s) /\
  prefix (answers s) ans /\ prefix (deltas s) ns /\
  (current (cli s) = None -> length (answers s) = length (filter answered (calls s))).
