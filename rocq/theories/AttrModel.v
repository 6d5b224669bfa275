(** Model of utils/wvattrs.cc and include/wvattrs.h: names and values one after
    the other in one block of memory.  [None] is a byte that realloc() left
    undefined; reading it, or outside the block, is a fault.  Lengths are natural
    numbers (the block is below 2 GB). *)
From Verif Require Import Base.

Definition block := list (option Ascii.ascii).

(** One byte. *)
Definition peek (m : block) (i : nat) : res Ascii.ascii :=
  match nth_error m i with Some (Some c) => Ok c | _ => Fault end.

(** The C string at the beginning of the block (strlen and what strcmp sees). *)
Fixpoint cread (m : block) : res bytes :=
  match m with
  | [] | None :: _ => Fault
  | Some c :: m => if Ascii.eqb c nul then Ok [] else let! s := cread m in Ok (c :: s)
  end.
Definition cstr_at (m : block) (i : nat) : res bytes := cread (skipn i m).

(** Writing at a place: strcpy, memcpy. *)
Definition put (m : block) (i : nat) (l : block) : res block :=
  if i + length l <=? length m then Ok (firstn i m ++ l ++ skipn (i + length l) m) else Fault.
Definition strcpy (m : block) (i : nat) (s : bytes) : res block := put m i (map Some (s ++ [nul])).

(** memmove of [n] bytes *)
Definition memmove (m : block) (dst src n : nat) : res block :=
  if src + n <=? length m then put m dst (firstn n (skipn src m)) else Fault.

(** realloc; of NULL it is malloc *)
Definition realloc (m : block) (n : nat) : block := firstn n m ++ repeat None (n - length m).

(** include/wvattrs.h:8-9 *)
Record attrs := Attrs { attrlist : option block; attrlen : nat }.

(** utils/wvattrs.cc:3-5 *)
Definition create : attrs := Attrs None 0.

(** utils/wvattrs.cc:7-13: the copy constructor *)
Definition copy (a : attrs) : res attrs :=
  if attrlen a =? 0 then Ok (Attrs None 0)
  else match attrlist a with
       | Some m => if attrlen a + 1 <=? length m then Ok (Attrs (Some (firstn (attrlen a + 1) m)) (attrlen a)) else Fault
       | None => Fault
       end.

(** utils/wvattrs.cc:25-34: the loop of _get: where the value is *)
Fixpoint find (n : nat) (m : block) (pos : nat) (name : option bytes) : res (option nat) :=
  let! c := peek m pos in
  if Ascii.eqb c nul then Ok None
  else
    match n with
    | O => NoFuel
    | S n =>
      let! k := cstr_at m pos in
      let val := pos + length k + 1 in
      match name with
      | None => Fault
      | Some name =>
        if list_eq_dec Ascii.ascii_dec k name then Ok (Some val)
        else let! v := cstr_at m val in find n m (val + length v + 1) (Some name)
      end
    end.

(** utils/wvattrs.cc:20-37: _get *)
Definition get_pos (a : attrs) (name : option bytes) : res (option nat) :=
  match attrlist a with
  | None => Ok None
  | Some m => find (length m) m 0 name
  end.

(** include/wvattrs.h:17-18: get *)
Definition get (a : attrs) (name : option bytes) : res (option bytes) :=
  let! p := get_pos a name in
  match p, attrlist a with
  | Some p, Some m => let! v := cstr_at m p in Ok (Some v)
  | _, _ => Ok None
  end.

(** utils/wvattrs.cc:44-57: what set() does with an attribute that is there *)
Definition remove (a : attrs) (name : bytes) (val : nat) : res attrs :=
  match attrlist a with
  | None => Fault
  | Some m =>
    let! v := cstr_at m val in
    let toremove := length name + length v + 2 in
    let pos := val - (length name + 1) in
    let endpart := attrlen a - pos - toremove + 1 in
    let! m := memmove m pos (pos + toremove) endpart in
    let len := attrlen a - toremove in
    Ok (Attrs (Some (realloc m (len + 1))) len)
  end.

(** utils/wvattrs.cc:39-72: set *)
Definition set (a : attrs) (name value : option bytes) : res attrs :=
  match name with
  | None | Some [] => Ok a
  | Some n =>
    let! p := get_pos a name in
    let! a := match p with Some p => remove a n p | None => Ok a end in
    match value with
    | None | Some [] => Ok a
    | Some v =>
      let total := length n + length v + 2 in
      let m := realloc (match attrlist a with Some m => m | None => [] end) (attrlen a + total + 1) in
      let! m := strcpy m (attrlen a) n in
      let! m := strcpy m (attrlen a + length n + 1) v in
      let len := attrlen a + total in
      let! m := put m len [Some nul] in
      Ok (Attrs (Some m) len)
    end
  end.

(** A history of assignments. *)
Fixpoint sets (a : attrs) (h : list (option bytes * option bytes)) : res attrs :=
  match h with
  | [] => Ok a
  | (n, v) :: h => let! a := set a n v in sets a h
  end.
