(** Model of the storage of UniConfKey: reference-counted segment vectors shared
    between keys (include/uniconfkey.h:62-160, uniconf/uniconfkey.cc). *)
From Verif Require Import Base CowModel KeyModel.
Local Open Scope nat_scope.

(** include/uniconfkey.h:62-154: a Store: the segment vector (its length is
    _size), _used and ref_count; a deleted store is not [live]. *)
Record store := { vec : list bytes; used : nat; refs : nat; live : bool }.
Definition kheap := list store.
(** include/uniconfkey.h:156-157: a key object *)
Record kref := { ks : nat; kl : nat; kr : nat }.
(** uniconf/uniconfkey.cc:38-42: EMPTY_store is store 0; it starts with one
    reference and the static key EMPTY adds one *)
Definition EMPTY_store : nat := 0.

Definition getst (h : kheap) (b : nat) : res store :=
  match nth_error h b with Some s => if live s then Ok s else Fault | None => Fault end.
Definition setst (h : kheap) (b : nat) (s : store) : kheap := setnth h b s.

(** include/uniconfkey.h:229-233: ~UniConfKey, also used by = and collapse *)
Definition kunlink (h : kheap) (k : kref) : res kheap :=
  let! s := getst h (ks k) in
  Ok (setst h (ks k) {| vec := vec s; used := used s; refs := refs s - 1; live := negb (refs s - 1 =? 0) |}).
(** ++store->ref_count *)
Definition klink (h : kheap) (b : nat) : res kheap :=
  let! s := getst h b in
  Ok (setst h b {| vec := vec s; used := used s; refs := S (refs s); live := true |}).
(** new Store(size, 1): include/uniconfkey.h:66-73 *)
Definition new_store (h : kheap) (v : list bytes) (u : nat) : kheap * nat :=
  (h ++ [{| vec := v; used := u; refs := 1; live := true |}], length h).

(** include/uniconfkey.h:146-149: operator [] *)
Definition seg (s : store) (i : nat) : res bytes := of_opt (nth_error (vec s) i).
Definition kseg (h : kheap) (k : kref) (i : nat) : res bytes :=
  let! s := getst h (ks k) in seg s i.

(** uniconf/uniconfkey.cc:70-82: collapse *)
Definition kcollapse (h : kheap) (k : kref) : res (kheap * kref) :=
  let! triv := (if kr k - kl k =? 1 then let! s := kseg h k (kr k - 1) in Ok (isnil s) else Ok (kr k =? kl k)) in
  if triv : bool then
    let! h := kunlink h k in
    let! h := klink h EMPTY_store in
    Ok (h, {| ks := EMPTY_store; kl := 0; kr := 0 |})
  else Ok (h, k).

(** uniconf/uniconfkey.cc:85-96: unique *)
Fixpoint copy_segs (s : store) (i n : nat) : res (list bytes) :=
  match n with
  | O => Ok []
  | S n => let! x := seg s i in let! r := copy_segs s (S i) n in Ok (x :: r)
  end.
Definition kunique (h : kheap) (k : kref) : res (kheap * kref) :=
  let! s := getst h (ks k) in
  if refs s =? 1 then Ok (h, k)
  else
    let h := setst h (ks k) {| vec := vec s; used := used s; refs := refs s - 1; live := true |} in
    let! l := copy_segs s (kl k) (kr k - kl k) in
    let (h, b) := new_store h l (length l) in
    Ok (h, {| ks := b; kl := 0; kr := kr k - kl k |}).

(** include/uniconfkey.h:79-108: resize.  The element-wise loops: moving up in
    place (from the last used segment down), and copying into a new vector. *)
Fixpoint shift_up (v : list bytes) (n shift : nat) : res (list bytes) :=
  match n with
  | O => Ok v
  | S i => let! x := of_opt (nth_error v i) in let! v := put v (i + shift) x in shift_up v i shift
  end.
Fixpoint copy_up (old v : list bytes) (i n shift : nat) : res (list bytes) :=
  match n with
  | O => Ok v
  | S n => let! x := of_opt (nth_error old i) in let! v := put v (i + shift) x in copy_up old v (S i) n shift
  end.
Definition resize (s : store) (size shift : nat) : res store :=
  if size <=? length (vec s) then
    if 0 <? shift then
      let! v := shift_up (vec s) (used s) shift in
      Ok {| vec := v; used := used s + shift; refs := refs s; live := true |}
    else Ok s
  else
    let limit := Nat.min (Nat.min (size - shift) (length (vec s))) (used s) in
    let! v := copy_up (vec s) (repeat [] size) 0 limit shift in
    Ok {| vec := v; used := used s + shift; refs := refs s; live := true |}.
(** include/uniconfkey.h:135-140: replace *)
Definition replace (s : store) (i : nat) (x : bytes) : res store :=
  let! v := put (vec s) i x in
  Ok {| vec := v; used := (if used s <=? i then S i else used s); refs := refs s; live := true |}.
Definition upd (h : kheap) (b : nat) (f : store -> res store) : res kheap :=
  let! s := getst h b in let! s := f s in Ok (setst h b s).

(** The other key: an object of its own, or this very key ([None]), in which case
    its bounds change while the loops below run. *)
Definition arg (k : kref) (a : option kref) : kref := match a with Some a => a | None => k end.

Definition kempty (k : kref) : bool := kr k =? kl k.
Definition ktrailing (h : kheap) (k : kref) : res bool :=
  if kl k <? kr k then let! s := kseg h k (kr k - 1) in Ok (isnil s) else Ok false.

(** uniconf/uniconfkey.cc:128-153: append.  The loop over the other key. *)
Fixpoint append_loop (fuel : nat) (h : kheap) (k : kref) (a : option kref) (j : nat) : res (kheap * kref) :=
  match fuel with
  | O => NoFuel
  | S fuel =>
      if j <? kr (arg k a) then
        let! x := kseg h (arg k a) j in
        if isnil x then append_loop fuel h k a (S j)
        else
          let! h := upd h (ks k) (fun s => replace s (kr k) x) in
          append_loop fuel h {| ks := ks k; kl := kl k; kr := S (kr k) |} a (S j)
      else Ok (h, k)
  end.
Definition vec_size (h : kheap) (k : kref) : nat :=
  match nth_error h (ks k) with Some s => length (vec s) | None => 0 end.
Definition kappend (h : kheap) (k : kref) (a : option kref) : res (kheap * kref) :=
  let! hts := (if kempty (arg k a) then Ok true else ktrailing h (arg k a)) in
  let! (h, k) := kunique h k in
  let! h := upd h (ks k) (fun s => resize s (kr k - kl k + (kr (arg k a) - kl (arg k a)) + 1) 0) in
  let! (h, k) := append_loop (S (S (vec_size h k + kr (arg k a)))) h k a (kl (arg k a)) in
  let! (h, k) := (if hts : bool
                  then let! h := upd h (ks k) (fun s => replace s (kr k) []) in
                       Ok (h, {| ks := ks k; kl := kl k; kr := S (kr k) |})
                  else Ok (h, k)) in
  kcollapse h k.

(** uniconf/uniconfkey.cc:156-177: prepend *)
Fixpoint count_segs (h : kheap) (a : kref) (j n : nat) : res nat :=
  match n with
  | O => Ok 0
  | S n => let! x := kseg h a j in let! c := count_segs h a (S j) n in
           Ok (if isnil x then c else S c)
  end.
Fixpoint prepend_loop (fuel : nat) (h : kheap) (k : kref) (a : option kref) (j : nat) : res (kheap * kref) :=
  match fuel with
  | O => NoFuel
  | S fuel =>
      if j <? kr (arg k a) then
        let! x := kseg h (arg k a) j in
        if isnil x then prepend_loop fuel h k a (S j)
        else
          let! h := upd h (ks k) (fun s => replace s (kl k + (j - kl (arg k a))) x) in
          prepend_loop fuel h {| ks := ks k; kl := kl k; kr := S (kr k) |} a (S j)
      else Ok (h, k)
  end.
Definition kprepend (h : kheap) (k : kref) (a : option kref) : res (kheap * kref) :=
  let! (h, k) := kunique h k in
  let! shift := count_segs h (arg k a) (kl (arg k a)) (kr (arg k a) - kl (arg k a)) in
  let! h := upd h (ks k) (fun s => resize s (shift + (kr k - kl k)) shift) in
  let! (h, k) := prepend_loop (S (S (vec_size h k + kr (arg k a)))) h k a (kl (arg k a)) in
  kcollapse h k.

(** uniconf/uniconfkey.cc:189-202: pop; the returned copy of the local key is the
    second key of the result.  The ints are unbounded here and below. *)
Definition kpop (h : kheap) (k : kref) (n : Z) : res (kheap * kref * kref) :=
  if (n =? 0)%Z then
    let! h := klink h EMPTY_store in Ok (h, k, {| ks := EMPTY_store; kl := 0; kr := 0 |})
  else
    let! (h, k) := kunique h k in
    let n := if (Z.of_nat (kr k - kl k) <? n)%Z then Z.of_nat (kr k - kl k) else n in
    let n := if (n <? 0)%Z then 0%Z else n in
    let old := kl k in
    let k := {| ks := ks k; kl := kl k + Z.to_nat n; kr := kr k |} in
    let! h := klink h (ks k) in
    let r := {| ks := ks k; kl := old; kr := kl k |} in
    let! (h, k) := kcollapse h k in
    let! (h, r) := kcollapse h r in
    Ok (h, k, r).

(** uniconf/uniconfkey.cc:205-213: range *)
Definition krange (h : kheap) (k : kref) (i j : Z) : res (kheap * kref) :=
  let n := Z.of_nat (kr k - kl k) in
  let j := if (n <? j)%Z then n else j in
  let i := if (i <? 0)%Z then 0%Z else i in
  let j := if (j <? i)%Z then i else j in
  let! h := klink h (ks k) in
  kcollapse h {| ks := ks k; kl := kl k + Z.to_nat i; kr := kl k + Z.to_nat j |}.

(** uniconf/uniconfkey.cc:98-125: the concatenating constructor *)
Definition klist (h : kheap) (k : kref) : res (list bytes) :=
  let! s := getst h (ks k) in copy_segs s (kl k) (kr k - kl k).
Definition kconcat (h : kheap) (p k : kref) : res (kheap * kref) :=
  let! hts := (if kempty k then Ok true else ktrailing h k) in
  let! lp := klist h p in
  let! lk := klist h k in
  let! (v, u) := put_all (repeat [] (length lp + length lk + 1)) 0 lp in
  let! (v, u) := put_all v u lk in
  let! (v, u) := (if hts : bool then let! v := put v u [] in Ok (v, S u) else Ok (v, u)) in
  let (h, b) := new_store h v u in
  kcollapse h {| ks := b; kl := 0; kr := u |}.

(** ** A program using a fixed set of key variables *)
Inductive kop :=
| KEmpty (x : nat)                    (* UniConfKey x; *)
| KParse (x : nat) (s : bytes)        (* UniConfKey x("..."); *)
| KCopy (x y : nat)                   (* UniConfKey x(y); *)
| KConcat (x y z : nat)               (* UniConfKey x(y, z); *)
| KRange (x y : nat) (i j : Z)        (* UniConfKey x(y.range(i, j)); also first, last, segment, removefirst, removelast *)
| KPop (x y : nat) (n : Z)            (* UniConfKey x(y.pop(n)); *)
| KAssign (x y : nat)                 (* x = y; *)
| KAppend (x y : nat)                 (* x.append(y); *)
| KPrepend (x y : nat)                (* x.prepend(y); *)
| KDestroy (x : nat).

Record kstate := { khp : kheap; kenv : list (option kref) }.
Definition kinit (n : nat) : kstate :=
  {| khp := [{| vec := [[]]; used := 0; refs := 2; live := true |}]; kenv := repeat None n |}.
Definition kvar (s : kstate) (x : nat) : res kref :=
  match nth_error (kenv s) x with Some (Some k) => Ok k | _ => Fault end.
Definition kfresh (s : kstate) (x : nat) : res unit :=
  match nth_error (kenv s) x with Some None => Ok tt | _ => Fault end.
Definition kset (s : kstate) (x : nat) (r : res (kheap * kref)) : res kstate :=
  let! (h, k) := r in Ok {| khp := h; kenv := setnth (kenv s) x (Some k) |}.

Definition kstep (s : kstate) (o : kop) : res kstate :=
  match o with
  | KEmpty x =>
      let! _ := kfresh s x in
      kset s x (let! h := klink (khp s) EMPTY_store in Ok (h, {| ks := EMPTY_store; kl := 0; kr := 0 |}))
  | KParse x t =>
      let! _ := kfresh s x in
      kset s x (let! (v, u) := make_store 4 (Some t) in
                let (h, b) := new_store (khp s) v u in Ok (h, {| ks := b; kl := 0; kr := u |}))
  | KCopy x y =>
      let! _ := kfresh s x in let! k := kvar s y in
      kset s x (let! h := klink (khp s) (ks k) in Ok (h, k))
  | KConcat x y z =>
      let! _ := kfresh s x in let! p := kvar s y in let! k := kvar s z in
      kset s x (kconcat (khp s) p k)
  | KRange x y i j =>
      let! _ := kfresh s x in let! k := kvar s y in kset s x (krange (khp s) k i j)
  | KPop x y n =>
      let! _ := kfresh s x in let! k := kvar s y in
      let! (h, k, r) := kpop (khp s) k n in
      Ok {| khp := h; kenv := setnth (setnth (kenv s) y (Some k)) x (Some r) |}
  | KAssign x y =>
      (* include/uniconfkey.h:356-365: the old store is released first *)
      let! k := kvar s x in let! k2 := kvar s y in
      kset s x (let! h := kunlink (khp s) k in let! h := klink h (ks k2) in Ok (h, k2))
  | KAppend x y =>
      let! k := kvar s x in let! k2 := kvar s y in
      kset s x (kappend (khp s) k (if x =? y then None else Some k2))
  | KPrepend x y =>
      let! k := kvar s x in let! k2 := kvar s y in
      kset s x (kprepend (khp s) k (if x =? y then None else Some k2))
  | KDestroy x =>
      let! k := kvar s x in let! h := kunlink (khp s) k in
      Ok {| khp := h; kenv := setnth (kenv s) x None |}
  end.
Fixpoint krun (s : kstate) (ops : list kop) : res kstate :=
  match ops with [] => Ok s | o :: ops => let! s := kstep s o in krun s ops end.
(** the segments of variable [x] *)
Definition kview (s : kstate) (x : nat) : res (list bytes) :=
  let! k := kvar s x in klist (khp s) k.
