(** Model of uniconf/unifilesystemgen.cc, and of mkdirp and rm_rf of
    streams/wvfileutils.cc.  The file system has no links, and every file may be read
    and written; a file is known by the names on the way from the root. *)
From Verif Require Import Base Ctype KeyModel.
Local Open Scope char_scope.

Inductive node := File (data : bytes) | Dir.
Definition path := list bytes.
Definition fs := list (path * node).
Definition path_dec : forall a b : path, {a = b} + {a <> b} := list_eq_dec (list_eq_dec ascii_dec).
Definition is (a b : path) : bool := if path_dec a b then true else false.
(** The root is always there. *)
Definition lookup (f : fs) (p : path) : option node :=
  match p with [] => Some Dir | _ => match find (fun e => is (fst e) p) f with Some (_, n) => Some n | None => None end end.
Definition isdir (f : fs) (p : path) : bool := match lookup f p with Some Dir => true | _ => false end.

(** How the system reads a path: names between slashes; empty ones and "." mean nothing, ".." is the parent *)
Fixpoint pieces (cur s : bytes) : list bytes :=
  match s with
  | [] => [cur]
  | c :: s => if Ascii.eqb c "/" then cur :: pieces [] s else pieces (cur ++ [c]) s
  end.
Definition same (a b : bytes) : bool := if list_eq_dec ascii_dec a b then true else false.
Definition enter (p : path) (n : bytes) : path :=
  if (same n [] || same n (B "."))%bool then p else if same n (B "..") then List.removelast p else p ++ [n].
Definition resolve (s : bytes) : path := fold_left enter (pieces [] s) [].

(** open(O_RDONLY) and reading all: None is failure, Some None is a directory *)
Definition slurp (f : fs) (p : path) : option (option bytes) :=
  match lookup f p with Some (File d) => Some (Some d) | Some Dir => Some None | None => None end.
(** open(O_WRONLY|O_CREAT|O_TRUNC) and writing; a directory cannot be written, and there must be a directory to make a file in *)
Definition spill (f : fs) (p : path) (d : bytes) : fs :=
  match lookup f p with
  | Some Dir => f
  | Some (File _) => (p, File d) :: filter (fun e => negb (is (fst e) p)) f
  | None => if isdir f (List.removelast p) then (p, File d) :: f else f
  end.
(** streams/wvfileutils.cc:30-52: mkdirp, for an absolute path without "." and "..".  [done] is before the slash *)
Fixpoint mkdirp (f : fs) (done rest : path) : fs :=
  match rest with
  | [] => f
  | n :: rest =>
      let p := done ++ [n] in
      match lookup f p with
      | Some Dir => mkdirp f p rest
      | Some (File _) => f
      | None => mkdirp ((p, Dir) :: f) p rest
      end
  end.
(** streams/wvfileutils.cc:55-67: rm_rf.  The recursion over what is in the directory is
    not modelled: all at and below the path goes *)
Fixpoint below (p q : path) : bool :=
  match p, q with [], _ => true | a :: p, c :: q => (same a c && below p q)%bool | _ :: _, [] => false end.
Definition rm_rf (f : fs) (p : path) : fs := filter (fun e => negb (below p (fst e))) f.

(** uniconf/unifilesystemgen.cc:24-29.  [dir] is an absolute path of names; its text *)
Definition text (dir : path) : bytes := flat_map (fun n => "/" :: n) dir.
(** uniconf/unifilesystemgen.cc:31-42: key_safe *)
Definition bad (s : bytes) : bool := let k := collapse [s] in (key_eq k [B "."] || key_eq k [B ".."] || key_eq k [])%bool.
Definition key_safe (k : key) : bool := negb (existsb bad k).
(** WvString("%s/%s", dir, key) *)
Definition file_of (dir : path) (k : key) : bytes := text dir ++ ["/"] ++ printable k.

(** uniconf/unifilesystemgen.cc:45-76: get.  The value is the whole file, as far as it has no NUL *)
Definition get (dir : path) (f : fs) (k : key) : option bytes :=
  if key_safe k then
    match slurp f (resolve (file_of dir k)) with None => None | Some None => Some [] | Some (Some d) => Some d end
  else None.
(** uniconf/unifilesystemgen.cc:79-97: set *)
Definition set (dir : path) (f : fs) (k : key) (v : option bytes) : fs :=
  if key_safe k then
    let f := mkdirp f [] (resolve (file_of dir (removelast k 1))) in
    let p := resolve (file_of dir k) in
    match v with None => rm_rf f p | Some d => spill f p d end
  else f.
(** uniconf/unifilesystemgen.cc:106-139: the names that an iterator gives *)
Definition iterate (dir : path) (f : fs) (k : key) : list bytes :=
  if key_safe k then
    let p := resolve (file_of dir k) in
    flat_map (fun e => match fst e with [] => [] | q => if is (List.removelast q) p then [last q []] else [] end) f
  else [].

(** Everything is in a directory, and is there once. *)
Definition wf (f : fs) : Prop := NoDup (map fst f) /\ forall p n, In (p, n) f -> p <> [] /\ isdir f (List.removelast p) = true.
