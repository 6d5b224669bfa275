(** Model of a UniConf client and daemon at the two ends of a connection:
    UniClientConn (uniconf/uniclientconn.cc), UniClientGen (uniconf/uniclientgen.cc)
    and UniConfDaemonConn (uniconf/daemon/uniconfdaemonconn.cc).  The daemon serves a
    UniTempGen (TempModel).
    Simplifications: the connection stays open, so time-outs, closing and "quit" are
    left out; the root of the daemon passes calls and notifications through to the
    generator; log messages are left out; strings are shorter than 2^31; the hash
    tables enumerate children in the order of TempModel's lists. *)
From Verif Require Import Base Ctype TclModel KeyModel UrlModel TempModel IniModel IntFmtModel.
Local Open Scope char_scope.
Local Open Scope list_scope.

(** include/uniclientconn.h:50-83: the commands; uniconf/uniclientconn.cc:25-52: their
    names. *)
Inductive cmd := NOOP | GET | SET | SETV | DEL | SUBT | HCHILD | COMMIT | REFRESH | QUIT | HELP
               | OKAY | FAIL | CHILD | ONEVAL | VAL | TEXT | HELLO | NOTICE.
Definition cmdinfos : list (cmd * bytes) :=
  [(NOOP, B "noop"); (GET, B "get"); (SET, B "set"); (SETV, B "setv"); (DEL, B "del"); (SUBT, B "subt");
   (HCHILD, B "hchild"); (COMMIT, B "commit"); (REFRESH, B "refresh"); (QUIT, B "quit"); (HELP, B "help");
   (OKAY, B "OK"); (FAIL, B "FAIL"); (CHILD, B "CHILD"); (ONEVAL, B "ONEVAL"); (VAL, B "VAL"); (TEXT, B "TEXT");
   (HELLO, B "HELLO"); (NOTICE, B "NOTICE")].
(** cmdinfos[cmd].name *)
Definition name (c : cmd) : bytes :=
  match c with
  | NOOP => B "noop" | GET => B "get" | SET => B "set" | SETV => B "setv" | DEL => B "del" | SUBT => B "subt"
  | HCHILD => B "hchild" | COMMIT => B "commit" | REFRESH => B "refresh" | QUIT => B "quit" | HELP => B "help"
  | OKAY => B "OK" | FAIL => B "FAIL" | CHILD => B "CHILD" | ONEVAL => B "ONEVAL" | VAL => B "VAL" | TEXT => B "TEXT"
  | HELLO => B "HELLO" | NOTICE => B "NOTICE"
  end.
(** uniconf/uniclientconn.cc:136-139: the search for a command *)
Fixpoint lookup (w : bytes) (l : list (cmd * bytes)) : option cmd :=
  match l with
  | [] => None
  | (c, n) :: r => if (strcasecmp n w =? 0)%Z then Some c else lookup w r
  end.

(** ** A connection: UniClientConn *)
(** What has arrived and was not read yet, and msgbuf. *)
Record conn := { inb : bytes; msgbuf : bytes }.
Definition idle_conn : conn := {| inb := []; msgbuf := [] |}.
(** getline(0, '\n', 20480): a line, if one has arrived (C39 for the stream) *)
Fixpoint take_line (s : bytes) : option (bytes * bytes) :=
  match s with
  | [] => None
  | c :: r => if Ascii.eqb c newline then Some ([], r)
              else match take_line r with Some (l, t) => Some (c :: l, t) | None => None end
  end.
(** uniconf/uniclientconn.cc:82-109: readmsg; the line is a C string. *)
Fixpoint readmsg (fuel : nat) (c : conn) : res (conn * option bytes) :=
  match fuel with
  | O => NoFuel
  | S fuel =>
      let! (w, buf) := wvtcl_getword WVTCL_NASTY_NEWLINES false (msgbuf c) in
      match w with
      | Some w => Ok ({| inb := inb c; msgbuf := buf |}, Some w)
      | None =>
          match take_line (inb c) with
          | None => Ok ({| inb := inb c; msgbuf := buf |}, None)
          | Some (l, r) => readmsg fuel {| inb := r; msgbuf := buf ++ cstr l ++ [newline] |}
          end
      end
  end.
(** uniconf/uniclientconn.cc:144-147: readarg, on payloadbuf *)
Definition readarg (payload : bytes) : res (option bytes * bytes) := wvtcl_getword WVTCL_SPLITCHARS true payload.
(** uniconf/uniclientconn.cc:126-141: readcmd; what is read and payloadbuf *)
Inductive got := None_ | Invalid (w : bytes) | Command (c : cmd).
Definition readcmd (c : conn) : res (conn * got * bytes) :=
  let! (c, m) := readmsg (S (length (inb c))) c in
  match m with
  | None => Ok (c, None_, [])
  | Some m =>
      let! (w, payload) := readarg m in
      match w with
      | None => Ok (c, None_, payload)
      | Some w => Ok (c, match lookup w cmdinfos with Some k => Command k | None => Invalid w end, payload)
      end
  end.
(** uniconf/uniclientconn.cc:150-156: writecmd; formatting is concatenation (C20).
    The bytes it sends. *)
Definition writecmd (c : cmd) (msg : option bytes) : bytes :=
  match msg with Some m => name c ++ " " :: m ++ [newline] | None => name c ++ [newline] end.
(** wvtcl_escape with its default argument, of a string and of a key *)
Definition escape (s : bytes) : res bytes := escape_str WVTCL_NASTY_SPACES s.
Definition escape_key (k : key) : res bytes := escape (printable k).
(** utils/wvstrutils.cc:114-150: spacecat(a, b), with a single blank *)
Definition spacecat (a b : bytes) : bytes := a ++ " " :: b.
(** wvtcl_escape(key) and wvtcl_escape(value) with a blank between them *)
Definition key_value (k : key) (v : bytes) : res bytes :=
  let! a := escape_key k in let! b := escape v in Ok (spacecat a b).

(** ** The daemon: UniConfDaemonConn *)
Record server := { sconn : conn; sgen : gen }.
(** uniconf/daemon/uniconfdaemonconn.cc:302-322: deltacallback, called for each key
    that was notified; the value is read again. *)
Definition notice (g : gen) (k : key) : res bytes :=
  let! m := match tget g k with None => escape_key k | Some v => key_value k v end in
  Ok (writecmd NOTICE (Some m)).
Fixpoint notices (g : gen) (n : list notif) : res bytes :=
  match n with
  | [] => Ok []
  | (k, _) :: r => let! a := notice g k in let! b := notices g r in Ok (a ++ b)
  end.
(** setme() and remove() of a key below the root: the new generator and what is sent *)
Definition assign (g : gen) (k : key) (v : option bytes) : res (gen * bytes) :=
  let (g', n) := tset g k v in let! o := notices g' n in Ok (g', o).
(** uniconf/daemon/uniconfdaemonconn.cc:149-157: do_get *)
Definition do_get (g : gen) (k : key) : res bytes :=
  match tget g k with
  | None => Ok (writecmd FAIL (Some []))
  | Some v => let! m := key_value k v in Ok (writecmd ONEVAL (Some m))
  end.
(** utils/wvstrutils.cc:462-482: getdirname, of a string without a slash at its end *)
Fixpoint upto_last_slash (s : bytes) : option bytes :=
  match s with
  | [] => None
  | c :: r => match upto_last_slash r with
              | Some p => Some (c :: p)
              | None => if Ascii.eqb c slash then Some [] else None
              end
  end.
Definition getdirname (s : bytes) : bytes :=
  match s with
  | [] => []
  | _ => match upto_last_slash s with None => B "." | Some [] => B "/" | Some p => p end
  end.
(** uniconf/daemon/uniconfdaemonconn.cc:171-181: slashes at the end become blanks, and
    blanks at the end are cut off *)
Fixpoint blank (s : bytes) : bytes :=
  match s with c :: r => if Ascii.eqb c slash then " " :: blank r else s | [] => [] end.
Definition unslash (s : bytes) : bytes :=
  match s with [] => [] | c :: r => rtrim (c :: rev (blank (rev r))) end.
(** uniconf/daemon/uniconfdaemonconn.cc:191-209: the loop over the keys below.  A key
    is removed with all below it, so the iterator, which looks there next, finds
    nothing and goes on to the next child. *)
Fixpoint remove_loop (g : gen) (k : key) (names : list bytes) : res (gen * bytes) :=
  match names with
  | [] => Ok (g, [])
  | s :: r =>
      let full := k ++ [s] in
      let sect := getdirname (printable full) in
      let! (g, o1) := assign g full None in
      let! dir := if list_eq_dec ascii_dec sect (B ".") then Ok [] else parse (Some sect) in
      let! (g, o2) := if thaschildren g dir then Ok (g, []) else assign g dir None in
      match titer g full with
      | Some _ => Fault
      | None => let! (g, o3) := remove_loop g k r in Ok (g, o1 ++ o2 ++ o3)
      end
  end.
(** uniconf/daemon/uniconfdaemonconn.cc:166-224: do_remove *)
Definition do_remove (g : gen) (k0 : key) : res (gen * bytes) :=
  let! k := parse (Some (unslash (printable k0))) in
  match tget g k with
  | None => Ok (g, [])
  | Some _ =>
      match titer g k with
      | None | Some [] => assign g k None
      | Some l => remove_loop g k (map fst l)
      end
  end.
(** The keys below a node in the order of the iterators, uniconf/uniconfgen.cc:172-257
    and uniconf/unitempgen.cc:164-180: a key before those below it.  Keys are relative
    to the node. *)
Fixpoint preorder (rel : key) (t : tree bytes) : list (key * bytes) :=
  match t with Node k v ch => (rel ++ [k], v) :: flat_map (preorder (rel ++ [k])) ch end.
Definition listing (g : gen) (k : key) (recursive : bool) : list (key * bytes) :=
  match root g with
  | None => []
  | Some t =>
      match find t k with
      | None => []
      | Some n => if recursive then flat_map (preorder []) (tch n) else map (fun c => ([tkey c], tval c)) (tch n)
      end
  end.
Fixpoint values (l : list (key * bytes)) : res bytes :=
  match l with
  | [] => Ok []
  | (k, v) :: r => let! m := key_value k v in let! o := values r in Ok (writecmd VAL (Some m) ++ o)
  end.
(** uniconf/daemon/uniconfdaemonconn.cc:227-269: do_subtree.  Other calls may run
    between two values; the iterators have copied what they hand out. *)
Definition do_subtree (g : gen) (k : key) (recursive : bool) : res bytes :=
  match tget g k with
  | None => Ok (writecmd FAIL (Some []))
  | Some _ => let! o := values (listing g k recursive) in Ok (o ++ writecmd OKAY (Some []))
  end.
(** uniconf/daemon/uniconfdaemonconn.cc:271-276: do_haschildren *)
Definition do_haschildren (g : gen) (k : key) : res bytes :=
  let! a := escape_key k in
  Ok (writecmd CHILD (Some (spacecat a (if thaschildren g k then B "TRUE" else B "FALSE")))).
Definition do_invalid (w : bytes) : bytes := writecmd FAIL (Some (B "unknown command: " ++ w)).
Definition do_malformed (c : cmd) : bytes := writecmd FAIL (Some (B "malformed request: " ++ name c)).
(** uniconf/daemon/uniconfdaemonconn.cc:53-131: execute.  The commands the client of
    this model never sends (noop, quit, help) are left out: a fault. *)
Definition serve (s : server) : res (server * bytes) :=
  let! (c, w, payload) := readcmd (sconn s) in
  let g := sgen s in
  let keep (o : bytes) : res (server * bytes) := Ok ({| sconn := c; sgen := g |}, o) in
  match w with
  | None_ => keep []
  | Invalid w => keep (do_invalid w)
  | Command k =>
      let! (arg1, payload) := readarg payload in
      let! (arg2, payload) := readarg payload in
      match k with
      | GET => match arg1 with None => keep (do_malformed k) | Some a => let! a := parse (Some a) in let! o := do_get g a in keep o end
      | SET => match arg1, arg2 with
               | Some a, Some v => let! a := parse (Some a) in let! (g, o) := assign g a (Some v) in Ok ({| sconn := c; sgen := g |}, o)
               | _, _ => keep (do_malformed k)
               end
      | DEL => match arg1 with
               | None => keep (do_malformed k)
               | Some a => let! a := parse (Some a) in let! (g, o) := do_remove g a in Ok ({| sconn := c; sgen := g |}, o)
               end
      | SUBT => match arg1 with
                | None => keep (do_malformed k)
                | Some a => let! a := parse (Some a) in let! n := num arg2 in let! o := do_subtree g a (n =? 1)%Z in keep o
                end
      | HCHILD => match arg1 with None => keep (do_malformed k) | Some a => let! a := parse (Some a) in let! o := do_haschildren g a in keep o end
      | COMMIT | REFRESH => keep (writecmd OKAY (Some []))
      | NOOP | QUIT | HELP => Fault
      | SETV | OKAY | FAIL | CHILD | ONEVAL | VAL | TEXT | HELLO | NOTICE => keep (do_invalid (name k))
      end
  end.
(** uniconf/daemon/uniconfdaemonconn.cc:16-24: what is sent when a client connects;
    UNICONF_PROTOCOL_VERSION is the number of commands. *)
Definition hello : bytes := writecmd HELLO (Some (spacecat (B "{UniConf Server ready.}") (B "19"))).

(** ** The client: UniClientGen *)
(** What a user may call. *)
Inductive call :=
| CGet (k : key) | CSet (k : key) (v : option bytes) | CSetv (l : list (key * bytes)) | CHas (k : key)
| CList (k : key) (recursive : bool) | CCommit | CRefresh.
Inductive answer := AVal (v : option bytes) | ABool (b : bool) | AList (l : list (key * bytes)).
(** include/uniclientgen.h:32-50: the members; [current] is the call that waits in
    do_select, if one does. *)
Record client := { cconn : conn; version : Z; busy : bool; success : bool; result_key : key; result : option bytes;
                   result_list : list (key * bytes); current : option call }.
Definition new_client : client :=
  {| cconn := idle_conn; version := 0; busy := false; success := false; result_key := []; result := None; result_list := []; current := None |}.
Definition with_conn (c : conn) (x : client) : client :=
  {| cconn := c; version := version x; busy := busy x; success := success x; result_key := result_key x; result := result x; result_list := result_list x; current := current x |}.
(** The reply to a command that fills in key and result, fails, or succeeds *)
Definition reply (ok : bool) (k : key) (r : option bytes) (x : client) : client :=
  {| cconn := cconn x; version := version x; busy := false; success := ok; result_key := k; result := r; result_list := result_list x; current := current x |}.
Definition add_value (k : key) (v : bytes) (x : client) : client :=
  {| cconn := cconn x; version := version x; busy := busy x; success := success x; result_key := result_key x; result := result x;
     result_list := match current x with Some (CList _ _) => result_list x ++ [(k, v)] | _ => result_list x end; current := current x |}.
Definition greet (v : Z) (x : client) : client :=
  {| cconn := cconn x; version := v; busy := busy x; success := success x; result_key := result_key x; result := result x; result_list := result_list x; current := current x |}.
(** uniconf/uniclientgen.cc:155-246: the part of a call before do_select(): what is
    written.  A call that waits sets busy and success (374-377) and an iterator an
    empty list (232). *)
Fixpoint setv_text (l : list (key * bytes)) : res bytes :=
  match l with
  | [] => Ok []
  | (k, v) :: r => let! m := key_value k v in let! o := setv_text r in Ok (writecmd SETV (Some m) ++ o)
  end.
Definition set_text (k : key) (v : option bytes) : res bytes :=
  match v with
  | None => let! a := escape_key k in Ok (writecmd DEL (Some a))
  | Some v => let! m := key_value k v in Ok (writecmd SET (Some m))
  end.
Fixpoint sets_text (l : list (key * bytes)) : res bytes :=
  match l with
  | [] => Ok []
  | (k, v) :: r => let! a := set_text k (Some v) in let! b := sets_text r in Ok (a ++ b)
  end.
Definition wait (c : call) (x : client) : client :=
  {| cconn := cconn x; version := version x; busy := true; success := false; result_key := result_key x; result := result x; result_list := []; current := Some c |}.
Definition request (c : call) (x : client) : res (client * bytes) :=
  match c with
  | CGet k => let! a := escape_key k in Ok (wait c x, writecmd GET (Some a))
  | CSet k v => let! o := set_text k v in Ok (x, o)
  | CSetv l => if (19 <=? version x)%Z then let! o := setv_text l in Ok (x, o ++ writecmd SETV None)
               else let! o := sets_text l in Ok (x, o)
  | CHas k => let! a := escape_key k in Ok (wait c x, writecmd HCHILD (Some a))
  | CList k recursive => let! a := escape_key k in Ok (wait c x, writecmd SUBT (Some (spacecat a (if recursive then B "1" else B "0"))))
  | CCommit => Ok (wait c x, writecmd COMMIT None)
  | CRefresh => Ok (wait c x, writecmd REFRESH None)
  end.
(** uniconf/uniclientgen.cc:261-262 and others: two arguments split at blanks *)
Definition nasty_space : mask := Mask (in_set [" "]) " ".
Definition two_args (payload : bytes) : res (option bytes * option bytes) :=
  let! (a, p) := wvtcl_getword nasty_space true payload in
  let! (b, p) := wvtcl_getword nasty_space true p in Ok (a, b).
(** uniconf/uniclientgen.cc:257-363: conncallback; the notifications it raises.  The
    closing of a connection to some other kind of server is left out. *)
Definition conncallback (x : client) : res (client * list notif) :=
  let! (c, w, payload) := readcmd (cconn x) in
  let x := with_conn c x in
  match w with
  | Command OKAY => Ok (reply true (result_key x) (result x) x, [])
  | Command FAIL => Ok (reply false [] (result x) x, [])
  | Command CHILD | Command ONEVAL =>
      let! (a, b) := two_args payload in
      match a, b with
      | Some a, Some b => let! k := parse (Some a) in Ok (reply true k (Some b) x, [])
      | _, _ => Ok (reply (success x) (result_key x) (result x) x, [])
      end
  | Command VAL =>
      let! (a, b) := two_args payload in
      match a, b with
      | Some a, Some b => let! k := parse (Some a) in Ok (add_value k b x, [])
      | _, _ => Ok (x, [])
      end
  | Command HELLO =>
      let! l := wvtcl_decode nasty_space true payload in
      match l with
      | _ :: v :: _ => let! v := atoi v in Ok (greet v x, [])
      | _ => Ok (x, [])
      end
  | Command NOTICE =>
      let! (a, b) := two_args payload in
      let! k := parse a in Ok (x, [(k, b)])
  | _ => Ok (x, [])
  end.
(** uniconf/uniclientgen.cc:155-246: the part of a call after do_select(), once
    cmdinprogress is false: what it returns. *)
Definition finish (c : call) (x : client) : answer :=
  match c with
  | CGet k => AVal (if success x && key_eq (result_key x) k then result x else None)
  | CHas k => ABool (success x && key_eq (result_key x) k && match result x with Some r => if list_eq_dec ascii_dec r (B "TRUE") then true else false | None => false end)
  | CList _ _ => AList (if success x then result_list x else [])
  | _ => ABool (success x)
  end.
Definition leave (x : client) : client :=
  {| cconn := cconn x; version := version x; busy := busy x; success := success x; result_key := result_key x; result := result x; result_list := []; current := None |}.

(** ** Both ends together *)
(** [up] and [down] are bytes on their way; then the calls made, the answers they
    returned and the notifications raised at the client. *)
Record sys := { srv : server; cli : client; up : bytes; down : bytes; calls : list call; answers : list answer; deltas : list notif }.
Definition init : sys :=
  {| srv := {| sconn := idle_conn; sgen := tinit |}; cli := new_client; up := []; down := hello; calls := []; answers := []; deltas := [] |}.
(** What may happen: the client's user calls (unless a call is waiting), some bytes
    arrive at either end, either end handles what it has, some other user of the
    daemon sets a key. *)
Inductive step := Call (c : call) | Up (n : nat) | Down (n : nat) | Serve | Poll | Other (k : key) (v : option bytes).
Definition arrive (b : bytes) (c : conn) : conn := {| inb := inb c ++ b; msgbuf := msgbuf c |}.
Definition do_step (o : step) (s : sys) : res sys :=
  match o with
  | Call c =>
      match current (cli s) with
      | Some _ => Ok s
      | None =>
          let! (x, b) := request c (cli s) in
          Ok {| srv := srv s; cli := x; up := up s ++ b; down := down s; calls := calls s ++ [c]; answers := answers s; deltas := deltas s |}
      end
  | Up n =>
      Ok {| srv := {| sconn := arrive (firstn n (up s)) (sconn (srv s)); sgen := sgen (srv s) |}; cli := cli s; up := skipn n (up s); down := down s;
            calls := calls s; answers := answers s; deltas := deltas s |}
  | Down n =>
      Ok {| srv := srv s; cli := with_conn (arrive (firstn n (down s)) (cconn (cli s))) (cli s); up := up s; down := skipn n (down s);
            calls := calls s; answers := answers s; deltas := deltas s |}
  | Serve =>
      let! (v, o) := serve (srv s) in
      Ok {| srv := v; cli := cli s; up := up s; down := down s ++ o; calls := calls s; answers := answers s; deltas := deltas s |}
  | Poll =>
      let! (x, n) := conncallback (cli s) in
      let (x, a) := match current x with
                    | Some c => if busy x then (x, []) else (leave x, [finish c x])
                    | None => (x, [])
                    end in
      Ok {| srv := srv s; cli := x; up := up s; down := down s; calls := calls s; answers := answers s ++ a; deltas := deltas s ++ n |}
  | Other k v =>
      let! (g, o) := assign (sgen (srv s)) k v in
      Ok {| srv := {| sconn := sconn (srv s); sgen := g |}; cli := cli s; up := up s; down := down s ++ o; calls := calls s; answers := answers s; deltas := deltas s |}
  end.
Fixpoint run (l : list step) (s : sys) : res sys :=
  match l with [] => Ok s | o :: r => let! s := do_step o s in run r s end.
