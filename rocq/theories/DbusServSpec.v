(** Who owns a name on the bus, who gets a message *)
From Verif Require Import Base UrlModel IntFmtModel IntFmtProofs DbusServModel.
Local Open Scope Z_scope.

(** The name of connection [n] *)
Definition uname (n : Z) : bytes := B ":" ++ sdec n ++ B ".0".
(** [m] asks the bus itself for [method] of name [n] *)
Definition asks (m : msg) (method : bytes) (n : option bytes) : bool := is (dest m) bus && is (member m) method && same (arg m) n.
(** A message of which the bus does nothing *)
Definition idle (m : msg) : bool := is (path m) (B "/org/freedesktop/DBus/Local") && is (member m) (B "Disconnected").

(** *** From what was seen *)
(** The owner of name [n]: who was given it at first or requested it last, until they release it or leave *)
Definition own1 (n : option bytes) (cur : option Z) (o : obs) : option Z :=
  match o with
  | Joined c _ => if same (Some (uname c)) n then Some c else cur
  | Got c m => if asks m (B "RequestName") n then Some c else if asks m (B "ReleaseName") n then None else cur
  | Left c => match cur with Some d => if d =? c then None else Some d | None => None end
  | _ => cur
  end.
Definition owner (l : list obs) (n : option bytes) : option Z := fold_left (own1 n) l None.
(** Those who have joined and not left, in order *)
Definition memb1 (cur : list conn) (o : obs) : list conn :=
  match o with
  | Joined c u => cur ++ [Conn c u]
  | Left c => filter (fun x => negb (num x =? c)) cur
  | _ => cur
  end.
Definition members (l : list obs) : list conn := fold_left memb1 l [].
Definition here (l : list obs) (c : Z) : bool := existsb (fun x => num x =? c) (members l).
Definition gone (l : list obs) (c : Z) : bool := existsb (fun o => match o with HungUp d => d =? c | _ => false end) l.
Definition claimed (l : list obs) (c : Z) : option Z := match List.find (fun x => num x =? c) (members l) with Some x => uid x | None => None end.

(** *** What is to be sent when [c] sends [m] *)
Definition bus_answer (w : world) (l : list obs) (c : Z) (m : msg) : content :=
  let about f := match owner l (arg m) with Some d => f d | None => Failure failed end in
  let is_user f := about (fun d => match claimed l d with Some u => f u | None => Failure failed end) in
  let is_cert f := about (fun d => match cert w d with Some x => f x | None => Failure failed end) in
  if is (member m) (B "Hello") then Text (Some (uname c))
  else if is (member m) (B "RequestName") then Number 1
  else if is (member m) (B "ReleaseName") then Number 1
  else if is (member m) (B "NameHasOwner") then Truth (match owner l (arg m) with Some _ => true | None => false end)
  else if is (member m) (B "GetNameOwner") then match owner l (arg m) with Some d => Text (Some (uname d)) | None => Failure no_owner end
  else if is (member m) (B "AddMatch") || is (member m) (B "StartServiceByName") then Nothing
  else if is (member m) (B "GetConnectionUnixUser") then is_user (fun u => Number (u mod 2 ^ 32))
  else if is (member m) (B "GetConnectionUnixUserName") then is_user (fun u => if blank (user w u) then Failure failed else Text (user w u))
  else if is (member m) (B "GetConnectionCert") then is_cert (fun x => Text (Some x))
  else if is (member m) (B "GetConnectionCertFingerprint") then is_cert (fun x => Text (Some (finger w x)))
  else Failure unknown.
Definition addressed (w : world) (l : list obs) (c : Z) (m : msg) : list (Z * msg) :=
  if idle m then []
  else if is (dest m) bus then [(c, reply m (bus_answer w l c m))]
  else if blank (dest m) then map (fun x => (num x, m)) (members l)
  else match owner l (dest m) with
       | Some d => [(d, set_sender m (uname c))]
       | None => [(c, reply (set_sender m (uname c)) (Failure no_owner))]
       end.
Definition out (l : list obs) (x : list (Z * msg)) : list obs := map (fun p => Out (fst p) (snd p)) (filter (fun p => negb (gone l (fst p))) x).
(** All that happened is as it should be: messages come from members, each is followed by what
    is to be sent for it, and nothing else is sent; no two members have the same number *)
Inductive explained (w : world) : list obs -> Prop :=
| ex_nil : explained w []
| ex_joined l c u : explained w l -> 0 < c < 2 ^ 31 -> (forall v, ~ In (Joined c v) l) -> explained w (l ++ [Joined c u])
| ex_got l c m : explained w l -> here l c = true -> gone l c = false -> explained w (l ++ Got c m :: out l (addressed w l c m))
| ex_hung l c : explained w l -> here l c = true -> gone l c = false -> explained w (l ++ [HungUp c])
| ex_left l c : explained w l -> here l c = true -> gone l c = true -> explained w (l ++ [Left c]).

(** *** Conditions *)
(** Names are released only by their owners *)
Fixpoint polite (w : world) (s : st) (l : list event) : Prop :=
  match l with
  | [] => True
  | e :: r =>
      match e with Recv c m => forall n, asks m (B "ReleaseName") n = true -> owner (past s) n = Some c | _ => True end /\
      match step w s e with Ok s => polite w s r | _ => True end
  end.
Definition connections (l : list event) : Z := Z.of_nat (length (filter (fun e => match e with Connect _ | Other => true | _ => false end) l)).
