(** Model of UniConfKey as a value: include/uniconfkey.h, uniconf/uniconfkey.cc,
    utils/wvhash.cc.  A key is seen here as the segments store->segments[left],
    ..., store->segments[right-1]; the storage they live in is modelled in
    KeyHeapModel.v. *)
From Verif Require Import Base Ctype SplitModel.
Local Open Scope nat_scope.

Definition key := list bytes.
Definition slash : byte := "/"%char.

(** !segment: the string is empty (utils/wvstring.cc:431-434) *)
Definition isnil (s : bytes) : bool := match s with [] => true | _ => false end.

(** uniconf/uniconfkey.cc:46-67: the Store constructor; [size] segments are
    allocated and the pieces are stored one after the other.  Yields the vector
    and the number of segments used. *)
Definition put (vec : list bytes) (i : nat) (s : bytes) : res (list bytes) :=
  if i <? length vec then Ok (firstn i vec ++ s :: skipn (S i) vec) else Fault.
Fixpoint put_all (vec : list bytes) (used : nat) (parts : list bytes) : res (list bytes * nat) :=
  match parts with
  | [] => Ok (vec, used)
  | p :: r => if isnil p then put_all vec used r
              else let! vec := put vec used p in put_all vec (S used) r
  end.
Definition make_store (size : nat) (k : option bytes) : res (list bytes * nat) :=
  match k with
  | None | Some [] => Ok (repeat [] size, 0)
  | Some s =>
      let! parts := split [] (Some s) [slash] 0 in
      let vec := repeat [] (Nat.max size (length parts)) in
      let! (vec, used) := put_all vec 0 parts in
      if Ascii.eqb (last s nul) slash && (0 <? used)
      then let! vec := put vec used [] in Ok (vec, S used)
      else Ok (vec, used)
  end.
(** include/uniconfkey.h:181-209: UniConfKey(WvStringParm), initial size 4 *)
Definition parse (s : option bytes) : res key :=
  let! (vec, used) := make_store 4 s in Ok (firstn used vec).

(** uniconf/uniconfkey.cc:70-82: collapse *)
Definition collapse (k : key) : key := match k with [[]] => [] | _ => k end.
(** include/uniconfkey.h: isempty, hastrailingslash *)
Definition isempty (k : key) : bool := match k with [] => true | _ => false end.
Definition hastrailingslash (k : key) : bool := negb (isempty k) && isnil (last k []).

(** uniconf/uniconfkey.cc:204-213: range; the ints are unbounded here *)
Definition range (k : key) (i j : Z) : key :=
  let n := Z.of_nat (length k) in
  let j := if (n <? j)%Z then n else j in
  let i := if (i <? 0)%Z then 0%Z else i in
  let j := if (j <? i)%Z then i else j in
  collapse (firstn (Z.to_nat (j - i)) (skipn (Z.to_nat i) k)).
(** include/uniconfkey.h: first, last, removefirst, removelast, segment;
    INT_MAX is 2^31-1 *)
Definition int_max : Z := 2 ^ 31 - 1.
Definition kfirst (k : key) (n : Z) : key := range k 0 n.
Definition klast (k : key) (n : Z) : key := range k (Z.of_nat (length k) - n) int_max.
Definition removefirst (k : key) (n : Z) : key := range k n int_max.
Definition removelast (k : key) (n : Z) : key := range k 0 (Z.of_nat (length k) - n).
Definition segment (k : key) (n : Z) : key := range k n (n + 1).

(** uniconf/uniconfkey.cc:216-236: printable *)
Fixpoint print_loop (k : key) : bytes :=
  match k with
  | [] => []
  | [s] => s
  | s :: r => s ++ [slash] ++ print_loop r
  end.
Definition printable (k : key) : bytes :=
  match k with
  | [] => []
  | [s] => s
  | _ => print_loop k
  end.

(** strcasecmp of the C library, C locale *)
Fixpoint strcasecmp (a b : bytes) : Z :=
  match a, b with
  | [], [] => 0%Z
  | [], d :: _ => (0 - Z.of_nat (cc (tolower d)))%Z
  | c :: _, [] => Z.of_nat (cc (tolower c))
  | c :: a', d :: b' =>
      let v := (Z.of_nat (cc (tolower c)) - Z.of_nat (cc (tolower d)))%Z in
      if (v =? 0)%Z then strcasecmp a' b' else v
  end.
(** uniconf/uniconfkey.cc:239-259: compareto *)
Fixpoint compareto (a b : key) : Z :=
  match a, b with
  | s :: a', t :: b' => let v := strcasecmp s t in if negb (v =? 0)%Z then v else compareto a' b'
  | [], [] => 0%Z
  | [], _ :: _ => (-1)%Z
  | _ :: _, [] => 1%Z
  end.
(** include/uniconfkey.h:432-456: ==, < *)
Definition key_eq (a b : key) : bool := (compareto a b =? 0)%Z.
Definition key_lt (a b : key) : bool := (compareto a b <? 0)%Z.

(** uniconf/uniconfkey.cc:299-327: suborsame *)
Definition suborsame (this k : key) : option key :=
  let n := Z.of_nat (length this) in
  let n := if hastrailingslash this then (n - 1)%Z else n in
  if key_eq (kfirst k n) (kfirst this n) then Some (removefirst k n) else None.
(** uniconf/uniconfkey.cc:330-336: subkey; a failed assertion is a fault *)
Definition subkey (this k : key) : res key := of_opt (suborsame this k).

(** uniconf/uniconfkey.cc:40-44: the wildcard keys *)
Definition ANY : key := [B "*"].
Definition RECURSIVE_ANY : key := [B "..."].
(** include/uniconfkey.h:54-57 and uniconf/uniconfkey.cc:180-186: iswild *)
Definition seg_wild (s : bytes) : bool :=
  if list_eq_dec ascii_dec s (B "*") then true
  else if list_eq_dec ascii_dec s (B "...") then true else false.
Definition iswild (k : key) : bool := existsb seg_wild k.

(** uniconf/uniconfkey.cc:262-296: matches; every call that recurses removes the
    first segment of the pattern, so the fuel is the length of the pattern. *)
Fixpoint matches_fuel (fuel : nat) (this pattern : key) : res bool :=
  match fuel with
  | O => NoFuel
  | S fuel =>
      if key_eq this pattern then Ok true
      else
        let head := kfirst pattern 1 in
        if key_eq head ANY then
          if isempty this then Ok false
          else matches_fuel fuel (removefirst this 1) (removefirst pattern 1)
        else if key_eq head RECURSIVE_ANY then
          let tail := removefirst pattern 1 in
          if isempty tail then Ok true
          else
            (fix try (count : nat) (n : Z) : res bool :=
               match count with
               | O => NoFuel
               | S count =>
                   let part := removefirst this n in
                   let! b := matches_fuel fuel part tail in
                   if b then Ok true
                   else if isempty part then Ok false
                   else try count (n + 1)%Z
               end) (S (length this)) 0%Z
        else Ok false
  end.
Definition matches (this pattern : key) : res bool := matches_fuel (S (length pattern)) this pattern.

(** utils/wvhash.cc:5-17: WvHash(const char * ), 32-bit arithmetic *)
Definition u32 (z : Z) : Z := (z mod 2 ^ 32)%Z.
Fixpoint hash_loop (s : bytes) (h : Z) : Z :=
  match s with
  | [] => h
  | c :: r =>
      let h' := Z.lxor (Z.lxor (u32 (Z.shiftl h 4)) (Z.land (Z.of_nat (cc c)) 31))
                       (Z.shiftr (Z.land h (Z.shiftl 31 27)) 27) in
      hash_loop r h'
  end.
Definition hash_string (s : option bytes) : Z := match s with None => 0%Z | Some s => hash_loop s 0 end.
(** uniconf/uniconfkey.cc:15-34: WvHash(const UniConfKey &) *)
Definition hash_key (k : key) : Z :=
  match k with
  | [] => 0%Z
  | [s] => hash_string (Some s)
  | s :: _ => Z.lxor (Z.lxor (hash_string (Some s)) (hash_string (Some (last k [])))) (Z.of_nat (length k))
  end.
