(** Model of WvDBusServer (dbus/wvdbusserver.cc): what it does with the messages of its
    connections.  Messages are taken as libdbus decodes them; the texts of errors and the
    authentication are left out. *)
From Verif Require Import Base UrlModel IntFmtModel.
Local Open Scope Z_scope.

(** ** Messages *)
(** The arguments: those of a message that a client made, or what the server answers *)
Inductive content :=
| Own (b : bytes)
| Nothing
| Text (t : option bytes)
| Number (n : Z)
| Truth (b : bool)
| Failure (name : bytes).
(** [serial], [answers] (0: no reply); [arg]: the first argument as a string, null if none.
    Interface, signature, type and flags stay as they are and are left out. *)
Record msg := Msg { sender : option bytes; dest : option bytes; path : option bytes; member : option bytes;
                    serial : Z; answers : Z; arg : option bytes; body : content }.
(** dbus/wvdbusmsg.cc:629-632, 647-651, 662-666: libdbus sends a reply to the sender the message
    names; its own serial number is given by the connection and left out (0) *)
Definition reply (m : msg) (c : content) : msg := Msg None (sender m) None None 0 (serial m) None c.
Definition set_sender (m : msg) (s : bytes) : msg := Msg (Some s) (dest m) (path m) (member m) (serial m) (answers m) (arg m) (body m).

(** utils/wvstring.cc:387-390: null is equal to null only *)
Definition same (a b : option bytes) : bool :=
  match a, b with
  | None, None => true
  | Some a, Some b => if list_eq_dec Ascii.ascii_dec a b then true else false
  | _, _ => false
  end.
(** utils/wvstring.cc:429-433 *)
Definition blank (a : option bytes) : bool := match a with None | Some [] => true | _ => false end.

(** ** The server *)
(** A connection is named by its number (conncount); [uid]: what the client authenticated as *)
Record conn := Conn { num : Z; uid : option Z }.
(** What the system knows: names of users, certificates of connections, fingerprints *)
Record world := World { user : Z -> option bytes; cert : Z -> option bytes; finger : bytes -> bytes }.
Inductive obs := Joined (c : Z) (uid : option Z) | Got (c : Z) (m : msg) | HungUp (c : Z) | Left (c : Z) | Out (c : Z) (m : msg).
(** [names]: name_to_conn, whose values may be NULL; [dead]: connections that are closed *)
Record st := St { count : Z; conns : list conn; names : list (option bytes * option Z); dead : list Z; past : list obs }.
Definition init : st := St 0 [] [] [] [].
Definition note (s : st) (o : obs) : st := St (count s) (conns s) (names s) (dead s) (past s ++ [o]).
Definition set_names (s : st) n : st := St (count s) (conns s) n (dead s) (past s).
Definition is_dead (s : st) (c : Z) : bool := existsb (Z.eqb c) (dead s).
Definition is_conn (s : st) (c : Z) : bool := existsb (fun x => num x =? c) (conns s).

(** The map: find, and operator[] which adds NULL for what is not there *)
Fixpoint find (n : option bytes) (l : list (option bytes * option Z)) : option (option Z) :=
  match l with [] => None | (k, v) :: r => if same k n then Some v else find n r end.
Definition value (n : option bytes) (l : list (option bytes * option Z)) : option Z :=
  match find n l with Some v => v | None => None end.
Fixpoint erase (n : option bytes) (l : list (option bytes * option Z)) : list (option bytes * option Z) :=
  match l with [] => [] | (k, v) :: r => if same k n then erase n r else (k, v) :: erase n r end.
Definition put (n : option bytes) (v : option Z) (l : list (option bytes * option Z)) := (n, v) :: erase n l.
Definition touch (n : option bytes) (l : list (option bytes * option Z)) : list (option bytes * option Z) :=
  match find n l with Some _ => l | None => (n, None) :: l end.

(** dbus/wvdbusconn.cc:141 *)
Definition unique (n : Z) : res bytes := let! s := string_of_signed 32 n in Ok (B ":" ++ s ++ B ".0").
(** dbus/wvdbusserver.cc:169-172 *)
Definition register_name (s : st) (n : option bytes) (c : Z) : st := set_names s (put n (Some c) (names s)).
(** dbus/wvdbusserver.cc:175-179; a failed assertion ends the server *)
Definition unregister_name (s : st) (n : option bytes) (c : Z) : res st :=
  match value n (names s) with
  | Some d => if d =? c then Ok (set_names s (erase n (names s))) else Fault
  | None => Fault
  end.
(** dbus/wvdbusserver.cc:182-199 *)
Definition unregister_conn (s : st) (c : Z) : st :=
  St (count s) (filter (fun x => negb (num x =? c)) (conns s))
     (filter (fun kv => match snd kv with Some d => negb (d =? c) | None => true end) (names s)) (dead s) (past s).
(** WvDBusConn::send: a closed connection loses it *)
Definition send (s : st) (c : Z) (m : msg) : st := if is_dead s c then s else note s (Out c m).
Definition uid_of (s : st) (c : Z) : option Z :=
  match List.find (fun x => num x =? c) (conns s) with Some x => uid x | None => None end.

Definition is (o : option bytes) (t : bytes) : bool := same o (Some t).
Definition bus : bytes := B "org.freedesktop.DBus".
Definition no_owner : bytes := B "org.freedesktop.DBus.Error.NameHasNoOwner".
Definition failed : bytes := B "org.freedesktop.DBus.Error.Failed".
Definition unknown : bytes := B "org.freedesktop.DBus.Error.UnknownMethod".
(** dbus/wvdbusserver.cc:202-368: do_server_msg; None: not handled *)
Definition do_server_msg (w : world) (s : st) (c : Z) (m : msg) : res (option st) :=
  let answer s x := Ok (Some (send s c (reply m x))) in
  let t := set_names s (touch (arg m) (names s)) in
  let target := value (arg m) (names s) in
  let method := member m in
  if is (path m) (B "/org/freedesktop/DBus/Local") && is method (B "Disconnected") then Ok (Some s)
  else if negb (is (dest m) bus) then Ok None
  else if is method (B "Hello") then let! u := unique c in answer s (Text (Some u))
  else if is method (B "RequestName") then answer (register_name s (arg m) c) (Number 1)
  else if is method (B "ReleaseName") then let! s := unregister_name s (arg m) c in answer s (Number 1)
  else if is method (B "NameHasOwner") then answer t (Truth (match target with Some _ => true | None => false end))
  else if is method (B "GetNameOwner") then
    match target with
    | Some d => let! u := unique d in answer t (Text (Some u))
    | None => answer t (Failure no_owner)
    end
  else if is method (B "AddMatch") || is method (B "StartServiceByName") then answer s Nothing
  else if is method (B "GetConnectionUnixUser") then
    match target with
    | Some d => match uid_of s d with Some u => answer t (Number (u mod 2 ^ 32)) | None => answer t (Failure failed) end
    | None => answer t (Failure failed)
    end
  else if is method (B "GetConnectionUnixUserName") then
    match target with
    | Some d =>
        match uid_of s d with
        | Some u => if blank (user w u) then answer t (Failure failed) else answer t (Text (user w u))
        | None => answer t (Failure failed)
        end
    | None => answer t (Failure failed)
    end
  else if is method (B "GetConnectionCert") || is method (B "GetConnectionCertFingerprint") then
    match target with
    | Some d =>
        match cert w d with
        | Some x => answer t (Text (Some (if is method (B "GetConnectionCertFingerprint") then finger w x else x)))
        | None => answer t (Failure failed)
        end
    | None => answer t (Failure failed)
    end
  else answer s (Failure unknown).
(** dbus/wvdbusserver.cc:371-396: do_bridge_msg; the sender is set in the message, which the
    callbacks that follow see *)
Definition do_bridge_msg (s : st) (c : Z) (m : msg) : res (option st * msg) :=
  if blank (dest m) then Ok (None, m)
  else let! u := unique c in
       let m := set_sender m u in
       match value (dest m) (names s) with
       | Some d => Ok (Some (send s d m), m)
       | None => Ok (None, m)
       end.
(** dbus/wvdbusserver.cc:399-415 *)
Definition do_broadcast_msg (s : st) (m : msg) : option st :=
  if blank (dest m) then Some (fold_left (fun s x => send s (num x) m) (conns s) s) else None.
(** dbus/wvdbusserver.cc:418-423 *)
Definition do_gaveup_msg (s : st) (c : Z) (m : msg) : st := send s c (reply m (Failure no_owner)).
(** dbus/wvdbusconn.cc:328-354: filter_func with the callbacks of new_connection_cb, in the order
    of their priority; the server waits for no replies itself *)
Definition filter_func (w : world) (s : st) (c : Z) (m : msg) : res st :=
  let! r := do_server_msg w s c m in
  match r with
  | Some s => Ok s
  | None =>
      let! (r, m) := do_bridge_msg s c m in
      match r with
      | Some s => Ok s
      | None => match do_broadcast_msg s m with Some s => Ok s | None => Ok (do_gaveup_msg s c m) end
      end
  end.

(** ** Events *)
(** A client connects; another WvDBusConn is made in the same process; a connection gets a
    message; it closes; its delayed callback runs *)
Inductive event := Connect (uid : option Z) | Other | Recv (c : Z) (m : msg) | Hangup (c : Z) | Delayed (c : Z).
(** dbus/wvdbusserver.cc:434-440: new_connection_cb; conncount is an int *)
Definition new_connection (s : st) (uid : option Z) : res st :=
  let n := count s + 1 in
  if n <? 2 ^ 31 then
    let! u := unique n in
    Ok (note (register_name (St n (conns s ++ [Conn n uid]) (names s) (dead s) (past s)) (Some u) n) (Joined n uid))
  else Fault.
Definition step (w : world) (s : st) (e : event) : res st :=
  match e with
  | Connect u => new_connection s u
  | Other => if count s + 1 <? 2 ^ 31 then Ok (St (count s + 1) (conns s) (names s) (dead s) (past s)) else Fault
  | Recv c m => if is_conn s c && negb (is_dead s c) then filter_func w (note s (Got c m)) c m else Ok s
  | Hangup c => if is_conn s c && negb (is_dead s c) then Ok (note (St (count s) (conns s) (names s) (c :: dead s) (past s)) (HungUp c)) else Ok s
  | Delayed c => if is_conn s c && is_dead s c then Ok (note (unregister_conn s c) (Left c)) else Ok s
  end.
Fixpoint run (w : world) (s : st) (l : list event) : res st :=
  match l with [] => Ok s | e :: r => let! s := step w s e in run w s r end.
