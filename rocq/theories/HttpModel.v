(** Model of WvHttpStream, urlget/wvhttpstream.cc: one connection of the HTTP client.
    Left out: time-outs, requests with a content source (putstream), errors of writing,
    the text of requests, SSL.  The stream below delivers bytes in any portions. *)
From Verif Require Import Base Ctype UrlModel IniModel IntFmtModel.
Local Open Scope nat_scope.

(** ** Text *)
(** strncasecmp(line, p, strlen(p)) == 0 *)
Fixpoint iprefix (p line : bytes) : bool :=
  match p, line with
  | [], _ => true
  | c :: p, d :: line => Ascii.eqb (tolower c) (tolower d) && iprefix p line
  | _, _ => false
  end.
(** strncmp(line, p, strlen(p)) == 0, WvFastString::startswith *)
Fixpoint prefix (p line : bytes) : bool :=
  match p, line with
  | [], _ => true
  | c :: p, d :: line => Ascii.eqb c d && prefix p line
  | _, _ => false
  end.
(** strstr(line, p) != NULL *)
Fixpoint contains (p line : bytes) : bool :=
  prefix p line || match line with [] => false | _ :: r => contains p r end.
Fixpoint eqs (a b : bytes) : bool :=
  match a, b with
  | [], [] => true
  | c :: a, d :: b => Ascii.eqb c d && eqs a b
  | _, _ => false
  end.
(** What is before and behind the first [c]: strchr *)
Fixpoint split_at (c : byte) (s : bytes) : option (bytes * bytes) :=
  match s with
  | [] => None
  | x :: r => if Ascii.eqb x c then Some ([], r) else match split_at c r with Some (a, b) => Some (x :: a, b) | None => None end
  end.
(** strtoul(line, NULL, 16) of the C library, 64 bit *)
Definition hexdigit (c : byte) : option Z :=
  let n := Z.of_nat (nat_of_ascii c) in
  if ((48 <=? n) && (n <=? 57))%Z then Some (n - 48)%Z
  else if ((65 <=? n) && (n <=? 70))%Z then Some (n - 55)%Z
  else if ((97 <=? n) && (n <=? 102))%Z then Some (n - 87)%Z else None.
Fixpoint hexrun (acc : Z) (s : bytes) : Z :=
  match s with
  | [] => acc
  | c :: r => match hexdigit c with Some d => hexrun (16 * acc + d) r | None => acc end
  end.
Definition skip_0x (s : bytes) : bytes :=
  match s with
  | z :: x :: d :: r => if Ascii.eqb z "0" && Ascii.eqb (tolower x) "x" && (match hexdigit d with Some _ => true | None => false end) then d :: r else s
  | _ => s
  end.
Definition ulong_max : Z := (2 ^ 64 - 1)%Z.
Definition strtoul16 (s : bytes) : Z :=
  let s := drop_space s in
  let '(neg, s) := match s with
                   | c :: r => if Ascii.eqb c "-" then (true, r) else if Ascii.eqb c "+" then (false, r) else (false, s)
                   | [] => (false, s)
                   end in
  let v := hexrun 0 (skip_0x s) in
  if (v >? ulong_max)%Z then ulong_max else if neg then ((- v) mod 2 ^ 64)%Z else v.

(** ** Connections *)
(** include/wvhttppool.h:41-63: of a request the number it has on this connection when sent,
    whether its method is HEAD, and whether it is a pipeline test; only tests have no
    outstream *)
Record req := Req { head : bool; test : bool }.
(** What can be seen: requests sent, and what is given to the outstream of a request:
    version and status, headers, data, the end *)
Inductive event :=
| Sent (i : nat) (q : req) (keepalive : bool)
| Status (i : nat) (version : bytes) (code : Z)
| Header (i : nat) (name value : bytes)
| Data (i : nat) (b : bytes)
| Done (i : nat).
Inductive enc := Unknown | Chunked | ContentLength | Infinity | PostHeadInfinity | PostHeadChunked | PostHeadStream | ChuckInfinity | ChuckChunked | ChuckStream.
(** [curl]: none, the first of [urls], or the first of [waiting_urls] (urlget/wvhttpstream.cc:87-90) *)
Inductive current := NoCur | First | FirstWaiting.
(** The server: the bytes it sends for the i-th request, and whether it then closes; and
    max_requests, enable_pipelining *)
Record world := World { serve : nat -> req -> bytes * bool; max : nat; pipelining : bool }.
(** include/wvhttppool.h:139-197.  [wire]: the bytes sent by the server and not yet read,
    [fin]: the server has closed; [broken]: the address is in pipeline_incompatible; [failed]:
    geterr() is not 0 *)
Record hst := Hst
  { urls : list (nat * req); waiting : list req; cur : current;
    resp : bytes; encoding : enc; remaining : Z; trailer : bool;
    tests : nat; last_test : bool; test_resp : bytes; keep : bool; count : nat;
    broken : bool; ok : bool; failed : bool;
    inbuf : bytes; wire : bytes; fin : bool; log : list event }.
(** urlget/wvhttpstream.cc:28-53; a stream whose address is known as incompatible has
    [pipelining] false *)
Definition hinit : hst := Hst [] [] NoCur [] Unknown 0 false 0 false [] true 0 false true false [] [] false [].
Definition set_urls (s : hst) u w c : hst := Hst u w c (resp s) (encoding s) (remaining s) (trailer s) (tests s) (last_test s) (test_resp s) (keep s) (count s) (broken s) (ok s) (failed s) (inbuf s) (wire s) (fin s) (log s).
Definition set_rx (s : hst) r e m t : hst := Hst (urls s) (waiting s) (cur s) r e m t (tests s) (last_test s) (test_resp s) (keep s) (count s) (broken s) (ok s) (failed s) (inbuf s) (wire s) (fin s) (log s).
Definition set_tests (s : hst) n l r : hst := Hst (urls s) (waiting s) (cur s) (resp s) (encoding s) (remaining s) (trailer s) n l r (keep s) (count s) (broken s) (ok s) (failed s) (inbuf s) (wire s) (fin s) (log s).
Definition set_keep (s : hst) k : hst := Hst (urls s) (waiting s) (cur s) (resp s) (encoding s) (remaining s) (trailer s) (tests s) (last_test s) (test_resp s) k (count s) (broken s) (ok s) (failed s) (inbuf s) (wire s) (fin s) (log s).
Definition set_ok (s : hst) b o f : hst := Hst (urls s) (waiting s) (cur s) (resp s) (encoding s) (remaining s) (trailer s) (tests s) (last_test s) (test_resp s) (keep s) (count s) b o f (inbuf s) (wire s) (fin s) (log s).
Definition set_net (s : hst) i w f : hst := Hst (urls s) (waiting s) (cur s) (resp s) (encoding s) (remaining s) (trailer s) (tests s) (last_test s) (test_resp s) (keep s) (count s) (broken s) (ok s) (failed s) i w f (log s).
Definition set_count (s : hst) c : hst := Hst (urls s) (waiting s) (cur s) (resp s) (encoding s) (remaining s) (trailer s) (tests s) (last_test s) (test_resp s) (keep s) c (broken s) (ok s) (failed s) (inbuf s) (wire s) (fin s) (log s).
Definition add_log (s : hst) e : hst := Hst (urls s) (waiting s) (cur s) (resp s) (encoding s) (remaining s) (trailer s) (tests s) (last_test s) (test_resp s) (keep s) (count s) (broken s) (ok s) (failed s) (inbuf s) (wire s) (fin s) (log s ++ [e]).

(** urlget/wvhttpstream.cc:218-227: send_request, and the answer of the server.  Requests are
    numbered from 1.  Nothing is written to a closed stream. *)
Definition send_request (w : world) (s : hst) (q : req) : hst :=
  let s := set_count s (S (count s)) in
  if ok s then
    let (b, c) := serve w (count s) q in
    let s := add_log s (Sent (count s) q (test q || (count s <? max w))) in
    if fin s then s else set_net s (inbuf s) (wire s ++ b) c
  else s.
(** urlget/wvhttpstream.cc:230-241: start_pipeline_test *)
Definition start_test (w : world) (s : hst) : hst :=
  let q := Req true true in
  let s := send_request w s q in
  set_urls s (urls s ++ [(count s, q)]) (waiting s) (cur s).
(** urlget/wvhttpstream.cc:244-267: request_next, without putstream *)
Definition request_next (w : world) (s : hst) : hst :=
  match waiting s with
  | [] => s
  | q :: r =>
      if (max w <=? count s) || negb (pipelining w) && negb (match urls s with [] => true | _ => false end) then s
      else
        let s := set_urls s (urls s) r (cur s) in
        let s := if pipelining w && (count s =? 0) && (1 <? max w) then start_test w s else s in
        let s := send_request w s q in
        set_urls s (urls s ++ [(count s, q)]) (waiting s) (cur s)
  end.
(** urlget/wvhttpstream.cc:70-78: closing now means that pipelining is broken *)
Definition pipe_failure (w : world) (s : hst) : bool :=
  pipelining w && (1 <? max w) && ((tests s <? 1) || (tests s =? 1) && last_test s).
(** urlget/wvhttpstream.cc:80-98: the request that an error is blamed on *)
Definition blamed (s : hst) : current :=
  match cur s with
  | NoCur => match urls s, waiting s with _ :: _, _ => First | [], _ :: _ => FirstWaiting | [], [] => NoCur end
  | c => c
  end.
(** urlget/wvhttpstream.cc:65-105: close() inside doneurl(), where doneurl() does nothing *)
Definition close_nested (w : world) (s : hst) : hst :=
  let pf := pipe_failure w s in
  let s := set_ok s (broken s || pf) false (failed s) in
  set_urls s (urls s) [] (if failed s && negb pf then blamed s else cur s).
(** urlget/wvhttpstream.cc:108-155: doneurl; fails if [curl] is not the first of [urls] *)
Definition done_url (w : world) (s : hst) : res hst :=
  match cur s, urls s with
  | First, (i, q) :: _ =>
      let last := resp s in
      let s := set_rx s [] Unknown 0 false in
      let s := set_tests s (tests s) (test q) (test_resp s) in
      let '(s, brk) :=
        if test q then
          let s := set_tests s (S (tests s)) (last_test s) (test_resp s) in
          let '(s, brk) :=
            if tests s =? 1 then (start_test w s, false)
            else if eqs (test_resp s) last then (s, false) else (set_ok s true (ok s) (failed s), true) in
          (set_tests s (tests s) (last_test s) last, brk)
        else (s, false) in
      let s := add_log s (Done i) in
      let s := set_urls s (tl (urls s)) (waiting s) NoCur in
      let s := if brk then close_nested w s else s in
      Ok (request_next w s)
  | _, _ => Fault
  end.
(** urlget/wvhttpstream.cc:65-105: close() *)
Definition close (w : world) (s : hst) : res hst :=
  let pf := pipe_failure w s in
  let s := set_ok s (broken s || pf) false (failed s) in
  let! s := (if failed s && negb pf then
               let s := set_urls s (urls s) (waiting s) (blamed s) in
               match cur s with NoCur => Ok s | _ => done_url w s end
             else Ok s) in
  let s := set_urls s (urls s) [] (cur s) in
  match cur s with NoCur => Ok s | _ => done_url w s end.
(** streams/wvstream.cc:453-460: seterr() *)
Definition seterr (w : world) (s : hst) : res hst :=
  if failed s then Ok s else close w (set_ok s (broken s) (ok s) true).

(** ** Reading *)
(** What a uread() meets: some bytes may have arrived, or the connection is reset *)
Inductive arrival := Bytes (n : nat) | Reset.
(** streams/wvstreamclone.cc:107-122, streams/wvfdstream.cc:140-159: uread(n).  If the stream
    below closes, this one is closed by its close callback (if there is nothing in [inbuf]) and
    once more.  Gives the bytes. *)
Definition below_closed (w : world) (s : hst) : res hst :=
  let! s := (match inbuf s with [] => close w s | _ => Ok s end) in close w s.
Definition uread (w : world) (s : hst) (n : nat) (a : arrival) : res (hst * bytes) :=
  match n, a with
  | O, _ => Ok (s, [])
  | _, Reset => let! s := below_closed w (set_ok s (broken s) (ok s) true) in Ok (s, [])
  | _, Bytes k =>
      match wire s, k with
      | [], S _ => if fin s then let! s := below_closed w s in Ok (s, []) else Ok (s, [])
      | l, _ => let k := Nat.min k n in Ok (set_net s (inbuf s) (skipn k l) (fin s), firstn k l)
      end
  end.
(** streams/wvstream.cc:492-531: read() *)
Definition first_arrival (l : list arrival) : arrival := match l with [] => Bytes 0 | a :: _ => a end.
Definition read (w : world) (s : hst) (n : nat) (l : list arrival) : res (hst * bytes) :=
  match inbuf s with
  | [] => uread w s n (first_arrival l)
  | b => Ok (set_net s (skipn n b) (wire s) (fin s), firstn n b)
  end.
(** streams/wvstream.cc:604-689: getline() *)
Definition lf : byte := newline.
Definition take_line (s : hst) : hst * option bytes :=
  match split_at lf (inbuf s) with
  | Some (a, b) => (set_net s b (wire s) (fin s), Some (cstr a))
  | None => match inbuf s with [] => (s, None) | b => (set_net s [] (wire s) (fin s), Some (cstr b)) end
  end.
Fixpoint getline (w : world) (s : hst) (l : list arrival) : res (hst * option bytes) :=
  if negb (ok s) then Ok (take_line s)
  else match split_at lf (inbuf s) with
       | Some _ => Ok (take_line s)
       | None =>
           match l with
           | [] => Ok (s, None)
           | a :: l =>
               let! (s, b) := uread w s 1024 a in
               let s := set_net s (inbuf s ++ b) (wire s) (fin s) in
               if negb (ok s) then Ok (take_line s)
               else match b with [] => Ok (s, None) | _ => getline w s l end
           end
       end.

(** ** Executing *)
Definition cur_test (s : hst) : bool := match urls s with (_, q) :: _ => test q | [] => false end.
Definition cur_head (s : hst) : bool := match urls s with (_, q) :: _ => head q | [] => false end.
Definition cur_id (s : hst) : nat := match urls s with (i, _) :: _ => i | [] => 0 end.
(** An event of the outstream of the first request, if it has one *)
Definition out_log (s : hst) (e : nat -> event) : hst :=
  match urls s with (i, q) :: _ => if test q then s else add_log s (e i) | [] => s end.
Definition size_of (z : Z) : Z := (z mod 2 ^ 64)%Z.
Definition post_head (e : enc) : bool := match e with PostHeadInfinity | PostHeadChunked | PostHeadStream => true | _ => false end.
(** urlget/wvhttpstream.cc:395-411: what a header says about the body and the connection *)
Definition header_field (s : hst) (line : bytes) : res hst :=
  if iprefix (B "Content-length: ") line then
    let! n := atoi (skipn 16 line) in Ok (set_rx s (resp s) ContentLength (size_of n) (trailer s))
  else if iprefix (B "Transfer-Encoding: ") line && contains (B "chunked") (skipn 19 line) then Ok (set_rx s (resp s) Chunked (remaining s) (trailer s))
  else if iprefix (B "Connection: keep-alive") line then Ok (set_keep s true)
  else if iprefix (B "Connection: close") line then Ok (set_keep s false)
  else Ok s.
(** urlget/wvhttpstream.cc:413-444: what the outstream gets of a header line *)
Definition header_out (s : hst) (line : bytes) : res hst :=
  match split_at ":" line with
  | Some (n, v) => Ok (out_log s (fun i => Header i n (trim_string v)))
  | None =>
      if iprefix (B "HTTP/") line then
        match split_at " " line with
        | Some (v, c) => let! n := atoi c in Ok (out_log s (fun i => Status i (skipn 5 v) n))
        | None => Ok s
        end
      else Ok s
  end.
(** urlget/wvhttpstream.cc:445-474: the blank line *)
Definition header_end (w : world) (s : hst) : res hst :=
  let e := match encoding s with Unknown => Infinity | e => e end in
  let s := set_urls (set_rx s (resp s) e (remaining s) false) (urls s) (waiting s) First in
  if cur_head s then
    if prefix (B "HTTP/1.0") (resp s) then
      Ok (set_rx s (resp s) (match e with Infinity => PostHeadInfinity | Chunked => PostHeadChunked | _ => PostHeadStream end) (remaining s) (trailer s))
    else done_url w s
  else Ok s.
(** urlget/wvhttpstream.cc:354-387: the first line of a response.  True if the connection is
    given up. *)
Definition response_line (w : world) (s : hst) (line : bytes) : res (hst * bool) :=
  match resp s with
  | _ :: _ => Ok (s, false)
  | [] =>
      let s := set_keep (set_rx s line (encoding s) (remaining s) (trailer s)) (negb (prefix (B "HTTP/1.0") line)) in
      if last_test s && eqs line (test_resp s) then let! s := close w (set_ok s true (ok s) (failed s)) in Ok (s, true)
      else if last_test s then
        match line, split_at " " line with
        | _ :: _, Some (_, c) =>
            let! n := atoi c in
            if (n =? 400)%Z then let! s := close w (set_ok s true (ok s) (failed s)) in Ok (s, true) else Ok (s, false)
        | _, _ => Ok (s, false)
        end
      else Ok (s, false)
  end.
(** urlget/wvhttpstream.cc:343-476: the header section *)
Definition header_line (w : world) (s : hst) (line : bytes) : res hst :=
  let line := trim_string line in
  let! (s, stop) := response_line w s line in
  if stop then Ok s
  else match urls s with
       | [] => seterr w s
       | _ :: _ =>
           let! s := header_field s line in
           match line with
           | [] => header_end w s
           | _ :: _ => header_out s line
           end
       end.
(** The portion of a body that is read at once *)
Definition portion (z : Z) : nat := if (z >? 1024)%Z then 1024 else Z.to_nat z.
(** urlget/wvhttpstream.cc:270-671: execute() *)
Definition execute (w : world) (s : hst) (l : list arrival) : res hst :=
  match cur s with
  | NoCur =>
      let! (s, line) := getline w s l in
      match line with None => Ok s | Some line => header_line w s line end
  | c =>
      if (match c with First => cur_test s | _ => false end) then
        let! s := (if post_head (encoding s) then Ok s
                   else close w (set_tests s (S (tests s)) false (test_resp s))) in
        match cur s with NoCur => Ok s | _ => done_url w s end
      else if post_head (encoding s) then
        let! (s, b) := read w s 5 l in
        let! chuck := (match b with
                       | [] => Ok false
                       | _ => if length b <? 5 then Fault else Ok (negb (eqs b (B "HTTP/")))
                       end) in
        let s := if (chuck : bool) then set_rx s (resp s) (match encoding s with PostHeadInfinity => ChuckInfinity | PostHeadChunked => ChuckChunked | _ => ChuckStream end) (remaining s) (trailer s) else s in
        let! s := (if keep s then done_url w s else Ok s) in
        Ok (set_net s (b ++ inbuf s) (wire s) (fin s))
      else match encoding s with
      | ChuckInfinity =>
          let! (s, _) := read w s 1024 l in
          if ok s then Ok s else done_url w s
      | ChuckChunked | ChuckStream =>
          if (match encoding s with ChuckChunked => true | _ => false end) && (remaining s =? 0)%Z then Ok (set_rx s (resp s) Chunked (remaining s) (trailer s))
          else
            let! (s, b) := read w s (portion (remaining s)) l in
            let s := set_rx s (resp s) (encoding s) (size_of (remaining s - Z.of_nat (length b))) (trailer s) in
            if negb (remaining s =? 0)%Z && negb (ok s) then seterr w s else Ok s
      | Infinity =>
          let! (s, b) := read w s 1024 l in
          if negb (ok s) then Ok s
          else Ok (match cur s with First => out_log s (fun i => Data i b) | _ => s end)
      | Chunked =>
          if (remaining s =? 0)%Z then
            let! (s, line) := getline w s l in
            match line with
            | None => Ok s
            | Some line =>
                let line := trim_string line in
                if trailer s then match line with [] => done_url w s | _ => Ok s end
                else match line with
                     | [] => Ok s
                     | _ => let n := strtoul16 line in Ok (set_rx s (resp s) Chunked n (n =? 0)%Z)
                     end
            end
          else
            let! (s, b) := read w s (portion (remaining s)) l in
            if negb (ok s) then Ok s
            else
              let s := set_rx s (resp s) (encoding s) (size_of (remaining s - Z.of_nat (length b))) (trailer s) in
              Ok (match cur s with First => out_log s (fun i => Data i b) | _ => s end)
      | _ =>
          let! (s, b) := read w s (portion (remaining s)) l in
          if negb (ok s) then Ok s
          else
            let s := set_rx s (resp s) (encoding s) (size_of (remaining s - Z.of_nat (length b))) (trailer s) in
            let s := match cur s with First => out_log s (fun i => Data i b) | _ => s end in
            match encoding s, (remaining s =? 0)%Z, cur s with
            | ContentLength, true, First => done_url w s
            | _, _, _ => Ok s
            end
      end
  end.
(** urlget/wvhttppool.cc:77-87: addurl *)
Definition addurl (w : world) (s : hst) (head : bool) : hst :=
  request_next w (set_urls s (urls s) (waiting s ++ [Req head false]) (cur s)).
(** The pool adds requests to, and executes, only a stream that isok() *)
Inductive op := Add (head : bool) | Exec (l : list arrival).
Definition step (w : world) (s : hst) (o : op) : res hst :=
  if ok s then match o with Add h => Ok (addurl w s h) | Exec l => execute w s l end else Ok s.
Fixpoint run (w : world) (s : hst) (l : list op) : res hst :=
  match l with [] => Ok s | o :: r => let! s := step w s o in run w s r end.
