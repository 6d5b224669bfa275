(** Model of UniDefGen, uniconf/unidefgen.cc, over a memory generator (TempModel). *)
From Verif Require Import Base Ctype IntFmtModel KeyModel TempModel.
Local Open Scope nat_scope.

(** utils/wvstring.cc:266-273: what alloc() makes room for, the 12 bytes of the header
    left out; WVSTRING_EXTRA is 1, and x | 3 is x / 4 * 4 + 3. *)
Definition room (size : nat) : nat := (12 + size + 1) / 4 * 4 + 3 - 12.
(** Cutting off the first segment of p: strchr(p, '/') *)
Fixpoint pop_seg (p : bytes) : bytes * option bytes :=
  match p with
  | [] => ([], None)
  | c :: p => if Ascii.eqb c slash then ([], Some p) else let (s, r) := pop_seg p in (c :: s, r)
  end.
Definition texists (g : gen) (k : key) : bool := match tget g k with Some _ => true | None => false end.
(** uniconf/unidefgen.cc:33-71: finddefault.  [p] is the text at p, None for a null
    pointer; the slash that is overwritten there is put back before the text is used
    again.  [q] is the text at q, in a buffer of [cap] bytes: writing past it is a
    fault. *)
Fixpoint finddefault (fuel : nat) (g : gen) (cap : nat) (p : option bytes) (q : bytes) : res key :=
  match fuel with
  | O => NoFuel
  | S fuel =>
      match p with
      | None =>
          let! k := parse (Some (tl q)) in
          if texists g k then Ok k else Ok []
      | Some p =>
          let (s, r) := pop_seg p in
          if cap <? length q + 1 + length s + 1 then Fault
          else
            let! k := finddefault fuel g cap r (q ++ slash :: s) in
            if negb (isempty k) then Ok k
            else if cap <? length q + 1 + 1 + 1 then Fault
            else finddefault fuel g cap r (q ++ slash :: B "*")
      end
  end.
(** uniconf/unidefgen.cc:113-128: keymap *)
Definition keymap (g : gen) (k : key) : res key :=
  let p := printable k in
  let! m := finddefault (S (S (length p))) g (room (length p * 2)) (Some p) [] in
  if isempty m then Ok k else Ok m.
(** uniconf/unidefgen.cc:95-105: the inner loop of replacewildcard; None if it ran out
    of segments *)
Fixpoint towild (fuel : nat) (k : key) (loc : Z) : res (option (key * Z)) :=
  match fuel with
  | O => NoFuel
  | S fuel =>
      if iswild (klast k 1) then Ok (Some (k, loc))
      else let k := removelast k 1 in if isempty k then Ok None else towild fuel k (loc - 1)
  end.
(** uniconf/unidefgen.cc:88-106: the outer loop, after its first round *)
Fixpoint towilds (n : nat) (k : key) (loc : Z) : res (option (key * Z)) :=
  match n with
  | O => Ok (Some (k, loc))
  | S n =>
      let k := removelast k 1 in
      let! o := towild (S (length k)) k (loc - 1) in
      match o with None => Ok None | Some (k, loc) => towilds n k loc end
  end.
(** uniconf/unidefgen.cc:74-110: replacewildcard *)
Definition replacewildcard (k defkey : key) (v : option bytes) : res (option bytes) :=
  match v with
  | Some (c :: d :: t) =>
      if negb (Ascii.eqb c "*") then Ok v
      else
        let! idx := atoi (d :: t) in
        if (idx =? 0)%Z then Ok v
        else if (idx <? 0)%Z then Ok (Some (printable (segment k (Z.of_nat (length k) - 1))))
        else
          let! o := towild (S (length defkey)) defkey (Z.of_nat (length k)) in
          match o with
          | None => Ok None
          | Some (d, loc) =>
              let! o := towilds (Z.to_nat idx - 1) d loc in
              match o with None => Ok None | Some (_, loc) => Ok (Some (printable (segment k (loc - 1)))) end
          end
  | _ => Ok v
  end.
(** uniconf/unidefgen.cc:131-139: get; uniconf/unifiltergen.cc:102-109, 112-119, 131-138:
    exists, haschildren, iterator *)
Definition dget (g : gen) (k : key) : res (option bytes) :=
  let! m := keymap g k in replacewildcard k m (tget g m).
Definition dexists (g : gen) (k : key) : res bool := let! m := keymap g k in Ok (texists g m).
Definition dhaschildren (g : gen) (k : key) : res bool := let! m := keymap g k in Ok (thaschildren g m).
Definition diter (g : gen) (k : key) : res (option (list (bytes * bytes))) := let! m := keymap g k in Ok (titer g m).
(** uniconf/unidefgen.cc:142-147: set; the notifications are handed on as they are,
    uniconf/unifiltergen.cc:151-156 *)
Definition dset (g : gen) (k : key) (v : option bytes) : gen * list notif := tset g k v.
