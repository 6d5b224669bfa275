(** Model of the filtering generators: UniFilterGen (uniconf/unifiltergen.cc),
    UniReadOnlyGen (include/unireadonlygen.h), UniSubtreeGen
    (uniconf/unisubtreegen.cc), UniPermGen (uniconf/unipermgen.cc) and UniSecureGen
    (uniconf/unisecuregen.cc).  The generator inside is any object with the methods
    given as parameters; asking it for values does not change it. *)
From Verif Require Import Base Ctype KeyModel StrIntModel.
Local Open Scope nat_scope.

(** uniconf/uniconfkey.cc:99-127: UniConfKey(path, key); 130-149: append (the same
    for a path without empty segments); 152-170: prepend *)
Definition not_nil (s : bytes) : bool := negb (isnil s).
Definition joinkey (p k : key) : key :=
  collapse (filter not_nil p ++ filter not_nil k ++ (if isempty k || hastrailingslash k then [[]] else [])).
Definition appendkey (p k : key) : key :=
  collapse (p ++ filter not_nil k ++ (if isempty k || hastrailingslash k then [[]] else [])).
Definition prependkey (p k : key) : key := collapse (filter not_nil p ++ k).

(** The calls a program makes on a generator. *)
Inductive call :=
| CGet (k : key) | CExists (k : key) | CHaschildren (k : key) | CIter (k : key)
| CSet (k : key) (v : option bytes) | CSetv (ps : list (key * option bytes))
| CRefresh | CCommit | CFlush.

Section Filters.
Context {S : Type} (gget : S -> key -> option bytes) (gset : S -> key -> option bytes -> S)
  (gexists ghaschildren : S -> key -> bool) (giter : S -> key -> option (list bytes))
  (grefresh gcommit gflush : S -> S).

(** uniconf/uniconfgen.cc:93-98: setv_naive, which is the inner generator's setv *)
Definition gsetv (s : S) (ps : list (key * option bytes)) : S := fold_left (fun s p => gset s (fst p) (snd p)) ps s.

(** uniconf/unifiltergen.cc:52-150, with keymap as a parameter: what happens to the
    generator inside *)
Definition filter_call (keymap : key -> option key) (s : S) (c : call) : S :=
  match c with
  | CGet _ | CExists _ | CHaschildren _ | CIter _ => s
  | CSet k v => match keymap k with Some k' => gset s k' v | None => s end
  | CSetv ps => gsetv s ps
  | CRefresh => grefresh s
  | CCommit => gcommit s
  | CFlush => gflush s
  end.
Definition filter_get (keymap : key -> option key) (s : S) (k : key) : option bytes :=
  match keymap k with Some k' => gget s k' | None => None end.

(** include/unireadonlygen.h:24-31 *)
Definition ro_call (s : S) (c : call) : S :=
  match c with
  | CSet _ _ => s
  | CFlush => s
  | c => filter_call Some s c
  end.

(** uniconf/unisubtreegen.cc:39-56: keymap, reversekeymap *)
Definition sub_keymap (sub k : key) : option key := Some (if isempty k then sub else joinkey sub k).
Definition sub_reverse (sub k : key) : option key := suborsame sub k.
Definition sub_call (sub : key) : S -> call -> S := filter_call (sub_keymap sub).
Definition sub_get (sub : key) : S -> key -> option bytes := filter_get (sub_keymap sub).
(** uniconf/unifiltergen.cc:153-158: gencallback; the notification passed on *)
Definition sub_notify (sub : key) (n : key * option bytes) : list (key * option bytes) :=
  match sub_reverse sub (fst n) with Some k => [(k, snd n)] | None => [] end.
End Filters.

(** ** Permissions *)
Inductive level := USER | GROUP | WORLD.
Inductive perm := READ | WRITE | EXEC.
(** uniconf/unipermgen.cc:158-182: level2str, type2str *)
Definition level2str (l : level) : bytes := match l with USER => B "user" | GROUP => B "group" | WORLD => B "world" end.
Definition type2str (t : perm) : bytes := match t with READ => B "read" | WRITE => B "write" | EXEC => B "exec" end.
(** include/unipermgen.h:40-49: Credentials *)
Record creds := { user : option bytes; groups : list bytes }.
Definition beq (a b : bytes) : bool := if list_eq_dec ascii_dec a b then true else false.

Section Perms.
Context (get : key -> option bytes).
(** WvString("%s/name", path) turned into a key *)
Definition entry (path : key) (name : bytes) : res key := parse (Some (printable path ++ [slash] ++ name)).
(** !value (utils/wvstring.cc:430-434) *)
Definition unset (v : option bytes) : bool := match v with None | Some [] => true | _ => false end.
(** uniconf/unipermgen.cc:43-50: getowner; 58-64: getgroup *)
Fixpoint getname (fuel : nat) (path : key) (name : bytes) : res (option bytes) :=
  let! k := entry path name in
  let v := get k in
  if unset v && negb (isempty path)
  then match fuel with O => NoFuel | S fuel => getname fuel (removelast path 1) name end
  else Ok v.
(** uniconf/unipermgen.cc:99-121: getoneperm *)
Fixpoint getoneperm (fuel : nat) (path : key) (l : level) (t : perm) : res bool :=
  let! k := entry path (level2str l ++ B "-" ++ type2str t) in
  let val := str2int (get k) (-1) in
  if (val =? -1)%Z
  then if isempty path then Ok false
       else match fuel with O => NoFuel | S fuel => getoneperm fuel (removelast path 1) l t end
  else Ok (negb (val =? 0)%Z).
(** uniconf/unipermgen.cc:75-93: getperm *)
Definition getperm (path : key) (c : creds) (t : perm) : res bool :=
  let! owner := getname (length path) path (B "owner") in
  let! group := getname (length path) path (B "group") in
  let l :=
    if negb (unset owner) && match user c, owner with Some u, Some o => beq u o | _, _ => false end then USER
    else if negb (unset group) && match group with Some g => existsb (beq g) (groups c) | None => false end then GROUP
    else WORLD in
  getoneperm (length path) path l t.
(** uniconf/unisecuregen.cc:205-224: drilldown *)
Fixpoint drill (fuel : nat) (check left : key) (c : creds) : res bool :=
  if isempty left then Ok true
  else
    let! ok := getperm check c EXEC in
    if ok then match fuel with O => NoFuel | S fuel => drill fuel (appendkey check (kfirst left 1)) (removefirst left 1) c end
    else Ok false.
Definition drilldown (k : key) (c : creds) : res bool := drill (length k) [] k c.
(** uniconf/unisecuregen.cc:196-202: findperm *)
Definition findperm (k : key) (c : creds) (t : perm) : res bool :=
  let! ok := drilldown k c in if ok then getperm k c t else Ok false.
End Perms.

(** uniconf/unipermgen.cc:37-40, 53-56, 67-72: setowner, setgroup, setperm: the key
    and the value the inner generator is given (a bool is written as an int) *)
Definition setperm (path : key) (l : level) (t : perm) (v : bool) : res (key * bytes) :=
  let! k := entry path (level2str l ++ B "-" ++ type2str t) in Ok (k, if v then B "1" else B "0").
(** uniconf/unipermgen.cc:124-154: the two forms of chmod; the sets in order *)
Fixpoint set_all (path : key) (l : list (level * perm * bool)) : res (list (key * bytes)) :=
  match l with
  | [] => Ok []
  | (lv, t, b) :: r => let! e := setperm path lv t b in let! es := set_all path r in Ok (e :: es)
  end.
Definition nz (n : N) : bool := negb (n =? 0)%N.
Definition chmod3 (path : key) (u g w : N) : res (list (key * bytes)) :=
  set_all path
    [(USER, READ, nz (N.land u 4)); (USER, WRITE, nz (N.land u 2)); (USER, EXEC, nz (N.land u 1));
     (GROUP, READ, nz (N.land g 4)); (GROUP, WRITE, nz (N.land g 2)); (GROUP, EXEC, nz (N.land g 1));
     (WORLD, READ, nz (N.land w 4)); (WORLD, WRITE, nz (N.land w 2)); (WORLD, EXEC, nz (N.land w 1))].
Definition chmod (path : key) (mode : N) : res (list (key * bytes)) :=
  chmod3 path (N.shiftr (N.land mode 448) 6) (N.shiftr (N.land mode 56) 3) (N.land mode 7).

(** ** UniSecureGen *)
Section Secure.
Context {S P : Type} (gget : S -> key -> option bytes) (gset : S -> key -> option bytes -> S)
  (gexists ghaschildren : S -> key -> bool) (giter : S -> key -> option (list bytes))
  (grefresh gcommit gflush : S -> S)
  (pget : P -> key -> option bytes) (prefresh pcommit : P -> P).
Record secure := { inner : S; perms : P; cred : creds }.
Definition may (g : secure) (k : key) (t : perm) : res bool := findperm (pget (perms g)) k (cred g) t.
Definition with_inner (g : secure) (s : S) : secure := {| inner := s; perms := perms g; cred := cred g |}.
(** uniconf/unisecuregen.cc:88-112, 115-120: get, exists, haschildren *)
Definition sec_get (g : secure) (k : key) : res (option bytes) :=
  let! ok := may g k READ in Ok (if ok then gget (inner g) k else None).
Definition sec_exists (g : secure) (k : key) : res bool :=
  let! ok := may g (removelast k 1) EXEC in Ok (if ok then gexists (inner g) k else false).
Definition sec_haschildren (g : secure) (k : key) : res bool :=
  let! ok := may g k EXEC in Ok (if ok then ghaschildren (inner g) k else false).
(** uniconf/unisecuregen.cc:128-186: walking an iterator, each value read as [get] would *)
Fixpoint sec_walk (g : secure) (k : key) (l : list bytes) : res (list (bytes * option bytes)) :=
  match l with
  | [] => Ok []
  | n :: r => let! v := sec_get g (prependkey k [n]) in let! vs := sec_walk g k r in Ok ((n, v) :: vs)
  end.
(** uniconf/unisecuregen.cc:123-168: iterator and the walk over it; a missing inner
    iterator is used without a check.  Yields the names and values shown. *)
Definition sec_iter (g : secure) (k : key) : res (option (list (bytes * option bytes))) :=
  let! ok := may g k EXEC in
  if ok then
    match giter (inner g) k with
    | None => Fault
    | Some names =>
        let! l := sec_walk g k names in Ok (Some l)
    end
  else Ok None.
(** uniconf/unisecuregen.cc:189-193: gencallback *)
Definition sec_notify (g : secure) (n : key * option bytes) : res (list (key * option bytes)) :=
  let! ok := may g (fst n) READ in Ok (if ok then [n] else []).
(** uniconf/unisecuregen.cc:74-85, 108-112: what the calls change *)
Definition sec_call (g : secure) (c : call) : res secure :=
  match c with
  | CSet k v => let! ok := may g k WRITE in Ok (if ok then with_inner g (gset (inner g) k v) else g)
  | CRefresh => Ok {| inner := grefresh (inner g); perms := prefresh (perms g); cred := cred g |}
  | CCommit => Ok {| inner := gcommit (inner g); perms := pcommit (perms g); cred := cred g |}
  | CFlush => Ok g
  | c => Ok (with_inner g (filter_call gset grefresh gcommit gflush Some (inner g) c))
  end.
End Secure.
Arguments secure S P : clear implicits.
