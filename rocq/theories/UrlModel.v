(** Model of url_encode and url_decode, utils/wvstrutils.cc:310-372. *)
From Verif Require Import Base Ctype.

Fixpoint drop_space (s : bytes) : bytes :=
  match s with c :: r => if isspace c then drop_space r else s | [] => [] end.

(** utils/wvstrutils.cc:59-79: trim_string.  Removes white space at the end (by
    writing NULs), then skips white space at the start. *)
Definition trim_string (s : bytes) : bytes := drop_space (rev (drop_space (rev s))).

Definition hexdigits : bytes := B "0123456789ABCDEF".

(** utils/wvstrutils.cc:326-344: the loop.  Reads at most the terminator: the
    test [iptr[1] && iptr[2]] is done left to right.  The bytes written are
    collected; the loop writes at most as many bytes as it reads. *)
Fixpoint url_decode_loop (fuel : nat) (no_space : bool) (s : bytes) : res bytes :=
  match fuel with
  | O => NoFuel
  | S fuel =>
      match s with
      | [] => Ok []
      | c :: r =>
          if Ascii.eqb c "+" && negb no_space then
            let! o := url_decode_loop fuel no_space r in Ok (" "%char :: o)
          else
            match Ascii.eqb c "%", r with
            | true, a :: b :: r' =>
                let! o := url_decode_loop fuel no_space r' in
                match strchr hexdigits (toupper a), strchr hexdigits (toupper b) with
                | Some i, Some j => Ok (ascii_of_nat ((i * 16 + j) mod 256) :: o)
                | _, _ => Ok o
                end
            | _, _ => let! o := url_decode_loop fuel no_space r in Ok (c :: o)
            end
      end
  end.

(** utils/wvstrutils.cc:311-347.  The output block has strlen(in)+2 bytes
    (setsize); the result is read back as a C string. *)
Definition url_decode (str : option bytes) (no_space : bool) : res (option bytes) :=
  match str with
  | None => Ok None
  | Some s =>
      let inp := trim_string s in
      let! o := url_decode_loop (S (length inp)) no_space inp in
      let! m := of_opt (store_seq (setsize (length inp + 1)) 0 (o ++ [nul])) in
      Ok (Some (cstr m))
  end.

(** utils/wvstrutils.cc:358-360: the characters copied as they are. *)
Definition url_safe (unsafe : option bytes) (c : byte) : bool :=
  (match unsafe with
   | Some (x :: u) => match strchr (x :: u) c with Some _ => false | None => true end
   | _ => isalnum c || match strchr (B "_.!~*'()-") c with Some _ => true | None => false end
   end) && negb (Ascii.eqb c "%").

(** sprintf "%%%02X" *)
Definition pct (c : byte) : bytes :=
  ["%"%char; nth (cc c / 16) hexdigits nul; nth (cc c mod 16) hexdigits nul].

(** utils/wvstrutils.cc:351-372; [!!unsafe] means neither null nor empty. *)
Definition url_encode (str : option bytes) (unsafe : option bytes) : bytes :=
  match str with
  | None => []
  | Some s => flat_map (fun c => if url_safe unsafe c then [c] else pct c) s
  end.
