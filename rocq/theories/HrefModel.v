(** Model of ipstreams/wvurl.cc and include/wvurl.h: taking URLs apart and printing them.
    The resolver is a parameter: what it said last.  Formatting with %s is concatenation
    (FormatModel). *)
From Verif Require Import Base Ctype UrlModel SplitModel IntFmtModel.
Local Open Scope nat_scope.

(** ipstreams/wvurl.cc:13-34: portmap *)
Definition portmap : list (bytes * Z * bool) :=
  [(B "exchangeits", 7070%Z, false); (B "exchangeit", 6969%Z, false); (B "https", 443%Z, true); (B "http", 80%Z, true);
   (B "file", 0%Z, true); (B "sip", 5060%Z, false); (B "ldaps", 636%Z, false); (B "ldap", 389%Z, false); (B "ftp", 21%Z, true)].
(** strncmp(p, s, strlen(p)) == 0 *)
Fixpoint begins (p s : bytes) : bool :=
  match p, s with
  | [], _ => true
  | a :: p, b :: s => Ascii.eqb a b && begins p s
  | _ :: _, [] => false
  end.
(** ipstreams/wvurl.cc:37-46: get_default_port; 51-60: protocol_uses_slashes *)
Definition entry (proto : bytes) : option (bytes * Z * bool) :=
  find (fun e : bytes * Z * bool => begins (fst (fst e)) proto) portmap.
Definition default_port (proto : bytes) : Z := match entry proto with Some (_, p, _) => p | None => (-1)%Z end.
Definition uses_slashes (proto : bytes) : bool := match entry proto with Some (_, _, s) => s | None => false end.

(** strchr(s, c): what is before and after the first [c] *)
Fixpoint split_at (c : byte) (s : bytes) : option (bytes * bytes) :=
  match s with
  | [] => None
  | d :: s => if Ascii.eqb d c then Some ([], s) else match split_at c s with Some (l, r) => Some (d :: l, r) | None => None end
  end.
(** include/wvurl.h:53-58 *)
Record url := Url { u_proto : bytes; u_user : bytes; u_password : bytes; u_host : bytes; u_port : Z; u_file : bytes }.
Inductive parsed := Bad (err : bytes) | Good (u : url).
Definition colon : byte := ":"%char.
Definition slash : byte := "/"%char.
Definition blanks : bytes := [" "%char; ascii_of_nat 9; ascii_of_nat 13; ascii_of_nat 10].
Definition at_sign : byte := "@"%char.
(** ipstreams/wvurl.cc:62-134: the constructor.  [m] is the copy of the text from where
    trim_string points, to the end of the copy; skipping the slashes may leave the text,
    and the copy. *)
Definition parse (url : option bytes) : res parsed :=
  match url with
  | None => Fault
  | Some s =>
      let t := trim_string s in
      let trailing := length s - length (rev (drop_space (rev s))) in
      let n := strcspn t blanks in
      let m := firstn n t ++ nul :: skipn (S n) (t ++ repeat nul (S trailing)) in
      let t := firstn n t in
      if (default_port t <? 0)%Z then Ok (Bad (B "WvUrl cannot handle the given protocol."))
      else
        match split_at colon t with
        | None => Ok (Bad (B "No colon after the protocol."))
        | Some (proto, _) =>
            let sl := uses_slashes proto in
            let m := skipn (length proto + (if sl then 3 else 1)) m in
            if negb (existsb (Ascii.eqb nul) m) then Fault
            else
              let w := cstr m in
              let '(user, password, w) :=
                match split_at at_sign w with
                | None => ([], [], w)
                | Some (c, w) =>
                    match split_at colon c with
                    | Some (u, d :: p) => (u, d :: p, w)
                    | _ => (c, [], w)
                    end
                end in
              let '(file, w) :=
                match split_at slash w with
                | None => (if sl then B "/" else [], w)
                | Some (w, f) => (slash :: f, w)
                end in
              let! (port, host) :=
                match split_at colon w with
                | None => Ok (default_port proto, w)
                | Some (w, p) => let! p := atoi p in Ok (p, w)
                end in
              Ok (Good (Url proto user password host port file))
        end
  end.
(** What findaddr() said: ipstreams/wvurl.cc:158-183 *)
Inductive resolution := Waiting | NoHost | Found.
(** include/wvurl.h:23-24: isok *)
Definition isok (p : parsed) (r : resolution) : bool :=
  match p with
  | Bad _ => false
  | Good u => negb (u_port u =? 0)%Z && match r with NoHost => false | _ => true end
  end.
(** ipstreams/wvurl.cc:188-222: operator WvString of a URL that is ok; the host name of
    one that was taken apart is never null *)
Definition print (u : url) : res bytes :=
  let protostr := u_proto u ++ (if uses_slashes (u_proto u) then B "://" else B ":") in
  let userstr := match u_user u with
                 | [] => []
                 | _ :: _ => u_user u ++ match u_password u with [] => B "@" | _ :: _ => colon :: u_password u ++ B "@" end
                 end in
  let! portstr := (if (u_port u =? 0)%Z || (u_port u =? default_port (u_proto u))%Z then Ok []
                   else let! d := string_of_signed 32 (u_port u) in Ok (colon :: d)) in
  Ok (protostr ++ userstr ++ u_host u ++ portstr ++ u_file u).
