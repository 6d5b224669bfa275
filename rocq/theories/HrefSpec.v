(** What a URL says.  Only the record of its parts is the model's. *)
From Verif Require Import Base Ctype HrefModel.
Local Open Scope nat_scope.

(** Known services: name, port, whether two slashes follow the colon *)
Definition services : list (bytes * (Z * bool)) :=
  [(B "http", (80%Z, true)); (B "https", (443%Z, true)); (B "ftp", (21%Z, true)); (B "file", (0%Z, true));
   (B "ldap", (389%Z, false)); (B "ldaps", (636%Z, false)); (B "sip", (5060%Z, false));
   (B "exchangeit", (6969%Z, false)); (B "exchangeits", (7070%Z, false))].
(** A protocol is that of the longest of these names it begins with. *)
Definition known (proto : bytes) (port : Z) (slashes : bool) : Prop :=
  exists name x, proto = name ++ x /\ In (name, (port, slashes)) services /\
    forall name' x' e, proto = name' ++ x' -> In (name', e) services -> length name' <= length name.
(** The name and password before an at sign *)
Inductive credentials : bytes -> bytes -> bytes -> Prop :=
| Cr_user u : ~ In "@"%char u -> (forall a b, u = a ++ ":"%char :: b -> ~ In ":"%char a -> b = []) -> credentials (u ++ B "@") u []
| Cr_both u p : ~ In "@"%char u -> ~ In "@"%char p -> ~ In ":"%char u -> p <> [] -> credentials (u ++ B ":" ++ p ++ B "@") u p.
(** [number d n]: the text [d] is read as the port [n] *)
Inductive says (number : bytes -> Z -> Prop) : bytes -> url -> Prop :=
| Says proto dport slashes sl cred user password host portt port path file :
    known proto dport slashes -> ~ In ":"%char proto ->
    length sl = (if slashes then 2 else 0) ->
    (credentials cred user password \/ cred = [] /\ user = [] /\ password = [] /\ ~ In "@"%char (host ++ portt ++ path)) ->
    ~ In "/"%char host -> ~ In ":"%char host ->
    (portt = [] /\ port = dport \/ exists d, portt = ":"%char :: d /\ ~ In "/"%char d /\ number d port) ->
    (path = [] /\ file = (if slashes then B "/" else []) \/ exists f, path = "/"%char :: f /\ file = path) ->
    says number (proto ++ B ":" ++ sl ++ cred ++ host ++ portt ++ path) (Url proto user password host port file).
(** No white space, no nul *)
Definition solid (s : bytes) : Prop := Forall (fun c => isspace c = false /\ c <> nul) s.
Definition blank (s : bytes) : Prop := Forall (fun c => isspace c = true) s.
