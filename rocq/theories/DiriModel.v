(** Model of utils/wvdiriter.cc and include/wvdiriter.h: WvDirIter.  The tree does
    not change meanwhile; readdir()'s "." and ".." are left out of it, as next() skips
    them; lstat() works. *)
From Verif Require Import Base StrModel DiriSpec.

(** include/wvdiriter.h:44-55: an open directory: what readdir() still gives, all it gives from the start, its name *)
Record frame := Frame { todo : list (bytes * tree); all : list (bytes * tree); dirname : bytes }.
(** include/wvdiriter.h:34-59; [topdev] is topdir.st_dev once found_top *)
Record iter := Iter { dirs : list frame; relpath : bytes; go_up : bool; recurse : bool; skip_mounts : bool; topdev : option nat }.

(** utils/wvdiriter.cc:19-44: the constructor; a slash at the end of the name is dropped *)
Definition drop_slash (s : bytes) : bytes := match rev s with "/"%char :: r => rev r | _ => s end.
Definition start (name : bytes) (top : option (list (bytes * tree))) (rec skip : bool) : iter :=
  Iter (match top with Some l => [Frame l l (drop_slash name)] | None => [] end) [] false rec skip None.

(** include/wvdiriter.h:79-80: up *)
Definition up (s : iter) : iter := Iter (dirs s) (relpath s) true (recurse s) (skip_mounts s) (topdev s).
(** utils/wvdiriter.cc:64-80: rewind *)
Definition rewind (s : iter) : iter :=
  Iter (match rev (dirs s) with [] => [] | f :: _ => [Frame (all f) (all f) (dirname f)] end) (relpath s) (go_up s) (recurse s) (skip_mounts s) (topdev s).

(** utils/wvdiriter.cc:113-150: one entry was read; whether to open it *)
Definition found (s : iter) (f : frame) (fs : list frame) (n : bytes) (t : tree) (l : list (bytes * tree)) : iter * ent :=
  let full := dirname f ++ B "/" ++ n in
  let e := Ent full n (relpath s ++ n) (is_folder t) in
  let top := match topdev s with Some d => d | None => dev t end in
  let fs := Frame l (all f) (dirname f) :: fs in
  match t with
  | Folder d true kids =>
      if (recurse s && (negb (skip_mounts s) || Nat.eqb d top))%bool
      then (Iter (Frame kids kids full :: fs) (relpath s ++ n ++ B "/") (go_up s) (recurse s) (skip_mounts s) (Some top), e)
      else (Iter fs (relpath s) (go_up s) (recurse s) (skip_mounts s) (Some top), e)
  | _ => (Iter fs (relpath s) (go_up s) (recurse s) (skip_mounts s) (Some top), e)
  end.
(** utils/wvdiriter.cc:93-164: the loop of next, after go_up was looked at; it is only done again one level up *)
Fixpoint read (fuel : nat) (s : iter) : res (iter * option ent) :=
  match fuel with
  | 0 => NoFuel
  | S fuel =>
      match dirs s with
      | [] => Ok (s, None)
      | f :: fs =>
          match todo f with
          | (n, t) :: l => let '(s, e) := found s f fs n t l in Ok (s, Some e)
          | [] =>
              match fs with
              | [] => Ok (s, None)
              | _ =>
                  let! rel := match fs with [_] => Ok [] | _ => let! d := getdirname (relpath s) in Ok (d ++ B "/") end in
                  read fuel (Iter fs rel (go_up s) (recurse s) (skip_mounts s) (topdev s))
              end
          end
      end
  end.
(** utils/wvdiriter.cc:83-167: next *)
Definition next (s : iter) : res (iter * option ent) :=
  match dirs s with
  | [] => Ok (s, None)
  | _ :: fs =>
      if go_up s then
        match fs with
        | [] => Ok (Iter (dirs s) (relpath s) false (recurse s) (skip_mounts s) (topdev s), None)
        | _ => read (S (length fs)) (Iter fs (relpath s) false (recurse s) (skip_mounts s) (topdev s))
        end
      else read (S (length (dirs s))) s
  end.
(** Calling next() until it is false, at most [fuel] times *)
Fixpoint collect (fuel : nat) (s : iter) : res (list ent) :=
  match fuel with
  | 0 => NoFuel
  | S fuel => let! (s, o) := next s in match o with None => Ok [] | Some e => let! l := collect fuel s in Ok (e :: l) end
  end.
