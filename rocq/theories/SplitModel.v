(** Model of the string-collection splitters and joiner,
    include/wvstrutils.h:281-460. *)
From Verif Require Import Base.
Local Open Scope nat_scope.

(** strcspn(p, set): length of the longest prefix with no character of [set].
    [p] is the text up to the terminator. *)
Fixpoint strcspn (p set : bytes) : nat :=
  match p with
  | [] => 0
  | c :: r => if existsb (Ascii.eqb c) set then 0 else S (strcspn r set)
  end.

(** strspn(p, set): length of the longest prefix made of characters of [set]. *)
Fixpoint strspn (p set : bytes) : nat :=
  match p with
  | [] => 0
  | c :: r => if existsb (Ascii.eqb c) set then S (strspn r set) else 0
  end.

(** The C string at offset [i] of a block. *)
Definition at_off (m : mem) (i : nat) : bytes := cstr (skipn i m).

(** The idiom of include/wvstrutils.h:326-332 and 371-374: remember the byte at
    [e], overwrite it with NUL, copy the text at [p] into a new string, put the
    byte back.  Yields the new string and the block. *)
Definition cut (m : mem) (p e : nat) : res (bytes * mem) :=
  let! oldc := of_opt (nth_error m e) in
  let! m1 := of_opt (store m e nul) in
  let piece := at_off m1 p in
  let! m2 := of_opt (store m1 e oldc) in
  Ok (piece, m2).

(** include/wvstrutils.h:304-335: the loop.  [m] is the private copy of the
    string, [sptr] an offset into it, [limit] the C int counted down (a
    negative or zero limit never reaches 0; the wrap-around of INT_MIN - 1 is
    left out because it takes 2^31 iterations). *)
Fixpoint split_loop (fuel : nat) (m : mem) (set : bytes) (sptr : nat)
    (firstrun : bool) (limit : Z) (coll : list bytes) : res (list bytes) :=
  match fuel with
  | O => NoFuel
  | S fuel =>
      let! c := of_opt (nth_error m sptr) in
      if Ascii.eqb c nul then Ok coll
      else
        let limit := (limit - 1)%Z in
        let sptr := if firstrun then sptr else sptr + strspn (at_off m sptr) set in
        let eptr := if negb (limit =? 0)%Z
                    then sptr + strcspn (at_off m sptr) set
                    else sptr + length (at_off m sptr) in
        let! (piece, m) := cut m sptr eptr in
        split_loop fuel m set eptr false limit (coll ++ [piece])
  end.

(** include/wvstrutils.h:287-335 (strcoll_split).  [coll] is the collection the
    pieces are added to, in order; a null string is [None].  [s.edit()] makes a
    private copy of the text with its terminator (modelled in CowModel). *)
Definition split (coll : list bytes) (s : option bytes) (set : bytes) (limit : Z)
  : res (list bytes) :=
  match s with
  | None => Ok coll
  | Some s =>
      let m := s ++ [nul] in
      let coll := if Ascii.eqb (nth 0 m nul) nul then coll ++ [[]] else coll in
      split_loop (length m + 2) m set 0 true limit coll
  end.

(** include/wvstrutils.h:360-378: the loop *)
Fixpoint strict_loop (fuel : nat) (m : mem) (set : bytes) (cur : nat) (limit : Z)
    (coll : list bytes) : res (list bytes) :=
  match fuel with
  | O => NoFuel
  | S fuel =>
      let limit := (limit - 1)%Z in
      if (limit =? 0)%Z then Ok (coll ++ [at_off m cur])
      else
        let len := strcspn (at_off m cur) set in
        let! (piece, m) := cut m cur (cur + len) in
        let! c := of_opt (nth_error m (cur + len)) in
        if Ascii.eqb c nul then Ok (coll ++ [piece])
        else strict_loop fuel m set (cur + len + 1) limit (coll ++ [piece])
  end.

(** include/wvstrutils.h:351-379 (strcoll_splitstrict) *)
Definition splitstrict (coll : list bytes) (s : option bytes) (set : bytes) (limit : Z)
  : res (list bytes) :=
  match s with
  | None => Ok coll
  | Some s => let m := s ++ [nul] in strict_loop (length m + 1) m set 0 limit coll
  end.

(** strcat(te, s) in a block: the terminator is searched for from the start of
    the block and the text with its terminator stored over it. *)
Definition strcat (m : mem) (s : bytes) : res mem :=
  of_opt (store_seq m (length (cstr m)) (s ++ [nul])).

(** include/wvstrutils.h:432-440: the total (reduced modulo 2^64 in
    [text_block]); null elements count only the separator. *)
Definition join_len (l : list (option bytes)) (joinlen : Z) : Z :=
  (fold_left (fun t s => t + match s with Some s => Z.of_nat (length s) | None => 0 end
                         + joinlen)%Z l 1 - joinlen)%Z.

(** include/wvstrutils.h:449-457: the second loop *)
Fixpoint join_loop (te : mem) (first : bool) (l : list (option bytes)) (sep : bytes)
  : res mem :=
  match l with
  | [] => Ok te
  | s :: r =>
      let! te := (if first then Ok te else strcat te sep) in
      let! te := (match s with Some s => strcat te s | None => Ok te end) in
      join_loop te false r sep
  end.

(** utils/wvstring.cc:266-301 (setsize, newbuf, alloc) for the size computed as
    a size_t: a 12-byte header, one spare byte, rounded up with "| 3", all
    modulo 2^64.  calloc is taken to fail from 2^63 on; its null result is then
    written through.  What is left after the header holds text. *)
Definition text_block (n : Z) : res mem :=
  let s := Z.lor ((12 + n + 1) mod 2 ^ 64)%Z 3 in
  if (2 ^ 63 <=? s)%Z then Fault else Ok (calloc (Z.to_nat (s - 12)%Z)).

(** include/wvstrutils.h:428-459 (strcoll_join) *)
Definition join (l : list (option bytes)) (sep : bytes) : res bytes :=
  let! te := text_block (join_len l (Z.of_nat (length sep))) in
  let! te := of_opt (store te 0 nul) in
  let! te := join_loop te true l sep in
  Ok (cstr te).
