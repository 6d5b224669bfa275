(** WvHttpPool (urlget/wvhttppool.cc, include/wvhttppool.h): which connection
    works on which request, and for how long requests and connections live.

    The connections (WvHttpStream, WvFtpStream) are part of the environment,
    as far as the pool sees them: they finish requests they hold, they die,
    and when they are destroyed they may finish some.  So are the answers of
    the resolver, which may be different each time. *)
From Verif Require Import Base.
Local Open Scope list_scope.

Inductive proto := Http | Ftp | Other.

Definition ipport := (bytes * nat)%type.

(** include/wvhttppool.h:125-138 (WvUrlStream::Target) *)
Definition target := (ipport * bytes)%type.

Definition target_dec (a b : target) : {a = b} + {a <> b}.
Proof. repeat decide equality. Defined.

(** WvUrlRequest (include/wvhttppool.h:43-64) with its WvUrl
    (include/wvurl.h); the port is a number of
    which only zero matters.  [q_out]: outstream is not NULL. *)
Record req := Req {
  q_id : nat; q_proto : proto; q_user : bytes; q_host : bytes; q_port : nat;
  q_resolving : bool; q_addr : option ipport;
  q_in : option nat; q_out : bool; q_inuse : bool }.

(** A WvUrlStream: its target, isok(), and the requests on urls and
    waiting_urls (include/wvhttppool.h:139-146). *)
Record conn := Conn { c_id : nat; c_to : target; c_ok : bool; c_held : list nat }.

(** What the resolver says (WvResolver::findaddr). *)
Inductive found := Failed | Waiting | Got (ip : bytes).

Record env := Env {
  dns : nat -> bytes -> found;         (* the n-th question *)
  fate : nat -> nat -> list nat }.     (* which requests a destroyed stream finishes *)

(** [p_eofs]: the requests whose outstream got its end, newest first.
    [p_crash]: a null pointer was used. *)
Record pool := Pool {
  p_urls : list req; p_conns : list conn; p_next : nat; p_snext : nat;
  p_tick : nat; p_eofs : list nat; p_crash : bool }.

Definition empty : pool := Pool [] [] 0 0 0 [] false.

Definition set_urls u p := Pool u (p_conns p) (p_next p) (p_snext p) (p_tick p) (p_eofs p) (p_crash p).
Definition set_conns c p := Pool (p_urls p) c (p_next p) (p_snext p) (p_tick p) (p_eofs p) (p_crash p).
Definition tick p := Pool (p_urls p) (p_conns p) (p_next p) (p_snext p) (S (p_tick p)) (p_eofs p) (p_crash p).
Definition crash p := Pool (p_urls p) (p_conns p) (p_next p) (p_snext p) (p_tick p) (p_eofs p) true.
Definition eof i p := Pool (p_urls p) (p_conns p) (p_next p) (p_snext p) (p_tick p) (i :: p_eofs p) (p_crash p).

Definition with_in s q := Req (q_id q) (q_proto q) (q_user q) (q_host q) (q_port q) (q_resolving q) (q_addr q) s (q_out q) (q_inuse q).
Definition with_use b q := Req (q_id q) (q_proto q) (q_user q) (q_host q) (q_port q) (q_resolving q) (q_addr q) (q_in q) (q_out q) b.
Definition finished q := Req (q_id q) (q_proto q) (q_user q) (q_host q) (q_port q) (q_resolving q) (q_addr q) (q_in q) false false.
Definition with_dns r a q := Req (q_id q) (q_proto q) (q_user q) (q_host q) (q_port q) r a (q_in q) (q_out q) (q_inuse q).

Definition find_req (i : nat) (p : pool) : option req :=
  find (fun q => Nat.eqb (q_id q) i) (p_urls p).

Definition upd (i : nat) (f : req -> req) (p : pool) : pool :=
  set_urls (map (fun q => if Nat.eqb (q_id q) i then f q else q) (p_urls p)) p.

(** conns[target] *)
Definition find_conn (t : target) (p : pool) : option conn :=
  find (fun c => if target_dec (c_to c) t then true else false) (p_conns p).

(** WvUrlRequest::done, urlget/wvhttppool.cc:62-72 *)
Definition done_req (i : nat) (p : pool) : pool :=
  match find_req i p with
  | Some q => if q_out q then eof i (upd i finished p) else upd i finished p
  | None => p
  end.

(** WvUrl::isok, include/wvurl.h:22-23 *)
Definition url_ok (q : req) : bool :=
  negb (Nat.eqb (q_port q) 0) && (q_resolving q || match q_addr q with Some _ => true | None => false end).

(** WvUrl::resolve, ipstreams/wvurl.cc:158-184, with the answer [a] *)
Definition resolve (a : found) (q : req) : bool * req :=
  match a with
  | Failed => (false, with_dns false (q_addr q) q)
  | Waiting => (false, with_dns true (q_addr q) q)
  | Got ip => (true, with_dns false (Some (ip, q_port q)) q)
  end.

Definition resolve_in (e : env) (q : req) (p : pool) : bool * req * pool :=
  let (b, q') := resolve (dns e (p_tick p) (q_host q)) q in
  (b, q', tick (upd (q_id q) (fun _ => q') p)).

(** WvUrl::getaddr, include/wvurl.h:34-36, for the target *)
Definition target_of (q : req) : target :=
  (match q_addr q with Some a => a | None => ([], 0%nat) end, q_user q).

(** A list of requests finished one after the other. *)
Definition done_all (l : list nat) (p : pool) : pool := fold_right done_req p l.

(** WvHttpPool::unconnect, urlget/wvhttppool.cc:264-281; the destructor of the
    stream (by conns.remove) may finish requests that it holds
    (WvHttpStream::close, WvFtpStream::close). *)
Definition unconnect (e : env) (c : conn) (p : pool) : pool :=
  let p := set_urls (map (fun q => match q_in q with
                                   | Some s => if Nat.eqb s (c_id c) then with_in None q else q
                                   | None => q
                                   end) (p_urls p)) p in
  let p := set_conns (filter (fun d => negb (Nat.eqb (c_id d) (c_id c))) (p_conns p)) p in
  tick (done_all (filter (fun i => existsb (Nat.eqb i) (c_held c)) (fate e (p_tick p) (c_id c))) p).

Definition upd_conn (s : nat) (f : conn -> conn) (p : pool) : pool :=
  set_conns (map (fun c => if Nat.eqb (c_id c) s then f c else c) (p_conns p)) p.

Definition drop_held (i : nat) (c : conn) : conn :=
  Conn (c_id c) (c_to c) (c_ok c) (filter (fun j => negb (Nat.eqb i j)) (c_held c)).
Definition add_held (i : nat) (c : conn) : conn :=
  Conn (c_id c) (c_to c) (c_ok c) (c_held c ++ [i]).

(** WvUrlStream::delurl, urlget/wvhttppool.cc:87-95 (doneurl calls done() of
    the request) *)
Definition delurl (i : nat) (c : conn) (p : pool) : pool :=
  let p := if existsb (Nat.eqb i) (c_held c) then done_req i p else p in
  upd_conn (c_id c) (drop_held i) p.

(** urlget/wvhttppool.cc:252-261 (addurl).  A URL of no known protocol has
    port 0 and is not resolved (ipstreams/wvurl.cc:74-79); the others are
    (127). *)
Definition addurl (e : env) (pr : proto) (user host : bytes) (port : nat) (p : pool) : pool :=
  let q := Req (p_next p) pr user host port true None None true false in
  let q := if Nat.eqb port 0 then q else snd (resolve (dns e (p_tick p) host) q) in
  Pool (p_urls p ++ [q]) (p_conns p) (S (p_next p)) (p_snext p) (S (p_tick p)) (p_eofs p) (p_crash p).

(** urlget/wvhttppool.cc:121-147 (pre_select): requests without a connection
    are resolved. *)
Definition pre_one (e : env) (i : nat) (p : pool) : pool :=
  match find_req i p with
  | Some q => match q_in q with
              | None => snd (resolve_in e q p)
              | Some _ => p
              end
  | None => p
  end.

Definition ids (p : pool) : list nat := map q_id (p_urls p).
Definition pre_select (e : env) (p : pool) : pool := fold_left (fun p i => pre_one e i p) (ids p) p.

(** urlget/wvhttppool.cc:154-164: all that died are unconnected. *)
Definition bury (e : env) (p : pool) : pool :=
  fold_left (fun p c => unconnect e c p) (filter (fun c => negb (c_ok c)) (p_conns p)) p.

(** urlget/wvhttppool.cc:166-199 *)
Definition post_one (e : env) (i : nat) (p : pool) : pool :=
  match find_req i p with
  | None => p
  | Some q =>
      if (negb (q_out q) && negb (q_inuse q)) || negb (url_ok q) then
        let p := if url_ok q then p else done_req i p in
        let p := match find_conn (target_of q) p with
                 | Some c => delurl i c p
                 | None => p
                 end in
        (* i.xunlink(): the request is deleted, and its destructor calls done() *)
        let p := done_req i p in
        set_urls (filter (fun r => negb (Nat.eqb (q_id r) i)) (p_urls p)) p
      else
        match q_in q with
        | None => snd (resolve_in e q p)
        | Some _ => p
        end
  end.

Definition post_select (e : env) (p : pool) : pool :=
  let p := bury e p in fold_left (fun p i => post_one e i p) (ids p) p.

(** urlget/wvhttppool.cc:203-249 *)
Definition exec_one (e : env) (i : nat) (p : pool) : pool :=
  if p_crash p then p else
  match find_req i p with
  | None => p
  | Some q =>
      if negb (q_out q) || negb (url_ok q) then p
      else
        let '(b, q, p) := resolve_in e q p in
        if negb b then p
        else
          let t := target_of q in
          let '(s, p) :=
            match find_conn t p with
            | Some c => if c_ok c then (Some c, p) else (None, unconnect e c p)
            | None => (None, p)
            end in
          match find_req i p with
          | None => p
          | Some q =>
              if negb (q_out q) then p
              else
                let '(s, p) :=
                  match s with
                  | Some c => (Some c, p)
                  | None =>
                      match q_proto q with
                      | Other => (None, crash p)    (* conns.add(NULL): target of a null pointer *)
                      | _ =>
                          let c := Conn (p_snext p) t true [] in
                          (Some c, Pool (p_urls p) (p_conns p ++ [c]) (p_next p) (S (p_snext p))
                                        (p_tick p) (p_eofs p) (p_crash p))
                      end
                  end in
                match s with
                | None => p
                | Some c =>
                    match q_in q with
                    | Some _ => p
                    | None => upd_conn (c_id c) (add_held i) (upd i (with_in (Some (c_id c))) p)
                    end
                end
          end
  end.

Definition execute (e : env) (p : pool) : pool := fold_left (fun p i => exec_one e i p) (ids p) p.

(** What connections do: go on with a request, finish one (and let it go), or
    die, whereupon they may finish some and still hold them
    (urlget/wvftpstream.cc:93-115). *)
Inductive deed := Use (s i : nat) | Finish (s i : nat) | Die (s : nat) (l : list nat).

Definition find_c (s : nat) (p : pool) : option conn :=
  find (fun c => Nat.eqb (c_id c) s) (p_conns p).

Definition deal (d : deed) (p : pool) : pool :=
  match d with
  | Use s i =>
      match find_c s p with
      | Some c => if c_ok c && existsb (Nat.eqb i) (c_held c) then upd i (with_use true) p else p
      | None => p
      end
  | Finish s i =>
      match find_c s p with
      | Some c => if c_ok c && existsb (Nat.eqb i) (c_held c)
                  then upd_conn s (drop_held i) (done_req i p) else p
      | None => p
      end
  | Die s l =>
      match find_c s p with
      | Some c => upd_conn s (fun c => Conn (c_id c) (c_to c) false (c_held c))
                    (done_all (filter (fun i => existsb (Nat.eqb i) (c_held c)) l) p)
      | None => p
      end
  end.

Inductive act :=
| Add (pr : proto) (user host : bytes) (port : nat)
| Pre | Post | Exec | Deal (d : deed).

Definition step (e : env) (p : pool) (a : act) : pool :=
  if p_crash p then p else
  match a with
  | Add pr u h n => addurl e pr u h n p
  | Pre => pre_select e p
  | Post => post_select e p
  | Exec => execute e p
  | Deal d => deal d p
  end.

Definition run (e : env) (l : list act) : pool := fold_left (step e) l empty.

(** The destructor (urlget/wvhttppool.cc:107-118): the connections, then the
    requests that are left. *)
Definition destroy (e : env) (p : pool) : pool :=
  let p := fold_left (fun p c => unconnect e c p) (p_conns p) p in
  set_urls [] (done_all (ids p) p).
