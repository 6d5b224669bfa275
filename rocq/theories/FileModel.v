(** Model of the writing of files: UniIniGen::commit (uniconf/uniinigen.cc) and
    WvAtomicFile (streams/wvatomicfile.cc), over the streams of StreamModel.  The
    result of an operation is every state the file system passes through, which is
    what a process that dies at some point leaves behind. *)
From Verif Require Import Base StreamModel.
Local Open Scope Z_scope.

(** A directory entry: whether it is a regular file, its sticky bit, its content.
    Simplification: other mode bits are left out. *)
Record file := { regular : bool; sticky : bool; content : bytes }.
(** The file of interest and the temporary file beside it. *)
Record fs := { target : option file; temp : option file }.

(** The content grows by what the device is given. *)
Definition append (b : bytes) (f : file) : file := {| regular := regular f; sticky := sticky f; content := content f ++ b |}.
Definition to_temp (e : event) (d : fs) : fs :=
  match e with Sent b => {| target := target d; temp := option_map (append b) (temp d) |} | _ => d end.
Definition to_target (e : event) (d : fs) : fs :=
  match e with Sent b => {| target := option_map (append b) (target d); temp := temp d |} | _ => d end.
(** The states while a stream runs, from its history; the last of a list of states. *)
Fixpoint states (go : event -> fs -> fs) (tr : list event) (d : fs) : list fs :=
  match tr with [] => [] | e :: r => go e d :: states go r (go e d) end.

(** The outcomes of the system calls of a commit: true is success.  A failing lstat
    is one that fails with an error other than ENOENT.  [dev1] and [dev2] are the
    answers of the world to the two streams. *)
Record calls := { c_lstat : bool; c_open_tmp : bool; c_chmod_tmp : bool; c_rename : bool; c_unlink : bool;
                  c_open : bool; c_fstat : bool; c_chmod_on : bool; c_chmod_off : bool; dev1 : list answer; dev2 : list answer }.
Definition rename (d : fs) : fs := {| target := temp d; temp := None |}.
Definition unlink (ok : bool) (d : fs) : fs := {| target := target d; temp := if ok then None else temp d |}.
Definition stick (on : bool) (d : fs) : fs :=
  {| target := option_map (fun f => {| regular := regular f; sticky := on; content := content f |}) (target d); temp := temp d |}.
Definition opened (f : option file) : file :=
  match f with Some f => {| regular := regular f; sticky := sticky f; content := [] |}
             | None => {| regular := true; sticky := false; content := [] |} end.
Definition writes (blocks : list bytes) : list op := map (fun b => Do (Write b)) blocks.

Section Depth.
Variable depth : nat.
(** uniconf/uniinigen.cc:248-290: commit_atomic, of a save that prints [blocks].
    The answer and the states passed through, the first of them being [d]. *)
Definition commit_atomic (blocks : list bytes) (c : calls) (d : fs) : res (bool * list fs) :=
  if negb (c_lstat c) then Ok (false, [d]) else
  if match target d with Some f => negb (regular f) | None => false end then Ok (false, [d]) else
  if negb (c_open_tmp c) then Ok (false, [d; unlink (c_unlink c) d]) else
  let d1 := {| target := target d; temp := Some (opened (temp d)) |} in
  let! s := run depth (writes blocks) (new 0 (dev1 c)) in
  let! s := step depth (Do Close) s in
  let h := [d; d1] ++ states to_temp (tr s) d1 in
  let d2 := last h d1 in
  if negb (err s =? 0) || negb (c_rename c) then Ok (false, h ++ [unlink (c_unlink c) d2])
  else Ok (true, h ++ [rename d2]).
(** uniconf/uniinigen.cc:294-350: the rest of commit, when commit_atomic fails. *)
Definition commit_inplace (blocks : list bytes) (c : calls) (d : fs) : res (list fs) :=
  if negb (c_open c) then Ok [d] else
  let d1 := {| target := Some (opened (target d)); temp := temp d |} in
  if negb (c_fstat c) then Ok [d; d1] else
  let d2 := if c_chmod_on c then stick true d1 else d1 in
  let! s := run depth (writes blocks) (new 0 (dev2 c)) in
  let h := [d; d1; d2] ++ states to_target (tr s) d2 in
  let d3 := last h d2 in
  let d4 := if (err s =? 0) && c_chmod_off c then stick false d3 else d3 in
  let! s' := step depth (Do Close) s in
  Ok (h ++ [d4] ++ states to_target (skipn (length (tr s)) (tr s')) d4).
Definition commit (blocks : list bytes) (c : calls) (d : fs) : res (list fs) :=
  let! (ok, h) := commit_atomic blocks c d in
  if ok then Ok h else let! h' := commit_inplace blocks c (last h d) in Ok (h ++ h').

(** streams/wvatomicfile.cc:27-80: a WvAtomicFile that is opened, used by [l] and
    closed.  Every close of the stream, also one caused by an error, ends with the
    rename. *)
Definition atomic_event (rename_ok unlink_ok : bool) (e : event) (d : fs) : fs :=
  match e with
  | Sent b => {| target := target d; temp := option_map (append b) (temp d) |}
  | Closed => match temp d with None => d | Some _ => if rename_ok then rename d else unlink unlink_ok d end
  | _ => d
  end.
Definition atomic_file (l : list op) (answers : list answer) (mkstemp_ok rename_ok unlink_ok : bool) (d : fs) : res (st * list fs) :=
  if match target d with Some f => negb (regular f) | None => false end then Ok (new 0 answers, [d]) else
  if negb mkstemp_ok then Ok (new 0 answers, [d]) else
  let d1 := {| target := target d; temp := Some (opened None) |} in
  let! s := run depth l (new 0 answers) in
  let! s := step depth (Do Close) s in
  Ok (s, [d; d1] ++ states (atomic_event rename_ok unlink_ok) (tr s) d1).
End Depth.
