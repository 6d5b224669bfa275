(** What a server says, in the form of RFC 2616, and what the user of a request is to see. *)
From Verif Require Import Base Ctype DecSpec HttpModel.
Local Open Scope nat_scope.

(** ** Responses *)
Definition crlf : bytes := [ascii_of_nat 13; newline].
Definition line (s : bytes) : bytes := s ++ crlf.
(** Text within a line *)
Definition in_line (s : bytes) : Prop := ~ In newline s /\ ~ In nul s.
Definition blanks (s : bytes) : Prop := Forall (fun c => isspace c = true) s.
(** No white space at the start and at the end *)
Definition tight (s : bytes) : Prop :=
  (forall c r, s = c :: r -> isspace c = false) /\ (forall c r, s = r ++ [c] -> isspace c = false).
(** A header field with the white space around its value *)
Record field := Field { name : bytes; before : bytes; content : bytes; after : bytes }.
Definition field_text (f : field) : bytes := name f ++ ":"%char :: before f ++ content f ++ after f.
(** A piece of a chunked body: its size in hexadecimal, what follows the size, and the data *)
Record chunk := Chunk { size : bytes; ext : bytes; data : bytes }.
Inductive body :=
| Sized (digits text : bytes)          (* Content-Length *)
| InChunks (l : list chunk) (last : chunk) (trailers : list bytes)
| ToTheEnd (text : bytes).             (* until the connection is closed *)
Record response := Response { version : bytes; code : bytes; reason : bytes; fields1 : list field; what : body; fields2 : list field }.

Definition status_line (r : response) : bytes := B "HTTP/" ++ version r ++ " "%char :: code r ++ " "%char :: reason r.
Definition framing (b : body) : list field :=
  match b with
  | Sized n _ => [Field (B "Content-Length") (B " ") n []]
  | InChunks _ _ _ => [Field (B "Transfer-Encoding") (B " ") (B "chunked") []]
  | ToTheEnd _ => []
  end.
Definition all_fields (r : response) : list field := fields1 r ++ framing (what r) ++ fields2 r.
Definition body_text (b : body) : bytes :=
  match b with
  | Sized _ t => t
  | InChunks l z t => flat_map (fun c => line (size c ++ ext c) ++ line (data c)) l ++ line (size z ++ ext z) ++ flat_map line t ++ crlf
  | ToTheEnd t => t
  end.
Definition text (for_head : bool) (r : response) : bytes :=
  line (status_line r) ++ flat_map (fun f => line (field_text f)) (all_fields r) ++ crlf ++ (if for_head then [] else body_text (what r)).
(** The content proper *)
Definition body_data (b : body) : bytes :=
  match b with Sized _ t => t | InChunks l _ _ => flat_map data l | ToTheEnd t => t end.

(** ** Which responses are well formed *)
Definition hex_value (s : bytes) : Z :=
  fold_left (fun a c => 16 * a + (let n := Z.of_nat (nat_of_ascii c) in if n <? 60 then n - 48 else n mod 32 + 9))%Z s 0%Z.
Definition hex_number (s : bytes) : Prop :=
  s <> [] /\ Forall (fun c => In c (B "0123456789abcdefABCDEF")) s /\ (hex_value s < 2 ^ 64)%Z.
Definition good_field (f : field) : Prop :=
  in_line (field_text f) /\ tight (name f) /\ name f <> [] /\ ~ In ":"%char (name f) /\ tight (content f) /\ blanks (before f) /\ blanks (after f).
(** The fields that would say where the body ends *)
Definition neutral_field (f : field) : Prop :=
  map tolower (name f) <> B "content-length" /\ map tolower (name f) <> B "transfer-encoding".
Definition good_chunk (c : chunk) : Prop :=
  hex_number (size c) /\ in_line (ext c) /\ hex_value (size c) = Z.of_nat (length (data c)) /\
  match ext c with [] => True | x :: _ => x = ";"%char \/ isspace x = true end.
Definition good_body (b : body) : Prop :=
  match b with
  | Sized n t => n <> [] /\ Forall digit n /\ value n = Z.of_nat (length t) /\ (value n < 2 ^ 31)%Z
  | InChunks l z t =>
      Forall (fun c => good_chunk c /\ data c <> []) l /\ good_chunk z /\ data z = [] /\
      Forall (fun x => in_line x /\ ~ blanks x) t
  | ToTheEnd t => True
  end.
Definition good_response (r : response) : Prop :=
  Forall (fun c => digit c \/ c = "."%char) (version r) /\
  code r <> [] /\ Forall digit (code r) /\ (value (code r) < 2 ^ 31)%Z /\
  in_line (reason r) /\ reason r <> [] /\ tight (reason r) /\ ~ In ":"%char (reason r) /\
  Forall (fun f => good_field f /\ neutral_field f) (fields1 r ++ fields2 r) /\ good_body (what r).

(** ** Servers *)
(** The response to the i-th request of the connection, and whether the server then closes *)
Definition answers := nat -> req -> response * bool.
Definition good_server (w : world) (a : answers) : Prop :=
  (forall i q, serve w i q = (text (head q) (fst (a i q)), snd (a i q))) /\
  (forall i q, good_response (fst (a i q))) /\
  (** a body without a length ends with the connection *)
  (forall i q t, head q = false -> what (fst (a i q)) = ToTheEnd t -> snd (a i q) = true) /\
  (** HEAD is not answered by HTTP/1.0 *)
  (forall i q, head q = true -> firstn 3 (version (fst (a i q))) <> B "1.0") /\
  (** the tests of pipelining are all answered the same way, and unlike any other request *)
  (pipelining w = true -> exists t, forall i q,
     if test q then status_line (fst (a i q)) = t
     else status_line (fst (a i q)) <> t /\ value (code (fst (a i q))) <> 400%Z).

(** ** What is seen *)
Inductive seen := SStatus (i : nat) (version : bytes) (code : Z) | SHeader (i : nat) (name value : bytes) | SByte (i : nat) (c : byte) | SDone (i : nat).
Definition see (e : event) : list seen :=
  match e with
  | Sent _ _ _ => []
  | Status i v c => [SStatus i v c]
  | Header i n v => [SHeader i n v]
  | Data i b => map (SByte i) b
  | Done i => [SDone i]
  end.
Definition seen_in (l : list event) : list seen := flat_map see l.
Definition sent_in (l : list event) : list (nat * req) := flat_map (fun e => match e with Sent i q _ => [(i, q)] | _ => [] end) l.
(** All that is to be seen of a request *)
Definition wanted (a : answers) (x : nat * req) : list seen :=
  let (i, q) := x in let r := fst (a i q) in
  if test q then [SDone i]
  else SStatus i (version r) (value (code r)) :: map (fun f => SHeader i (name f) (content f)) (all_fields r)
       ++ map (SByte i) (if head q then [] else body_data (what r)) ++ [SDone i].
(** The requests up to the first after which the server closes *)
Fixpoint answered (a : answers) (l : list (nat * req)) : list (nat * req) :=
  match l with
  | [] => []
  | (i, q) :: r => (i, q) :: if snd (a i q) then [] else answered a r
  end.
(** The requests of the user among those sent *)
Definition users (l : list (nat * req)) : list bool := map head (filter (fun q => negb (test q)) (map snd l)).
Definition added (l : list op) : list bool := flat_map (fun o => match o with Add h => [h] | _ => [] end) l.
(** No error of the connection *)
Definition no_reset (l : list op) : Prop := forall r, In (Exec r) l -> ~ In Reset r.
