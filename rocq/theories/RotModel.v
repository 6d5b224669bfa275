(** Model of streams/wvlogfile.cc: WvLogFile.  The file system is the directory of
    the log, and names are names in it; nobody else changes it meanwhile.  The text
    of a date is any function of the day; time stands still during one call.  The
    child process that deletes old logs is run to its end at once. *)
From Coq Require Import DecimalString.
From Verif Require Import Base RotSpec.
Local Open Scope Z_scope.

(** streams/wvlogfile.cc:19 *)
Definition MAX_LOGFILE_SZ : Z := 1024 * 1024 * 100.

(** open() and O_APPEND writes, symlink(), unlink() *)
Definition del (d : dir) (n : bytes) : dir := filter (fun x => negb (same (fst x) n)) d.
Definition put (d : dir) (n : bytes) (e : entry) : dir := (n, e) :: del d n.

(** WvString(int), see C18 *)
Fixpoint digits (u : Decimal.uint) : bytes :=
  match u with
  | Decimal.Nil => []
  | Decimal.D0 u => "0"%char :: digits u | Decimal.D1 u => "1"%char :: digits u | Decimal.D2 u => "2"%char :: digits u
  | Decimal.D3 u => "3"%char :: digits u | Decimal.D4 u => "4"%char :: digits u | Decimal.D5 u => "5"%char :: digits u
  | Decimal.D6 u => "6"%char :: digits u | Decimal.D7 u => "7"%char :: digits u | Decimal.D8 u => "8"%char :: digits u
  | Decimal.D9 u => "9"%char :: digits u
  end.
Definition dec (n : nat) : bytes := digits (Nat.to_uint n).

(** include/wvlogfile.h:37-52, streams/wvlogfile.cc:91-99; [opened] is the file that is open *)
Record log := Log { base : bytes; keep_for : Z; allow_append : bool; opened : option bytes; last_day : Z }.
Definition closed (b : bytes) (k : Z) (a : bool) : log := Log b k a None 0.

(** The local time: gmtoffset(), and strftime("%Y-%m-%d") for a day *)
Record zone := Zone { gmtoffset : Z; date : Z -> bytes }.
(** (timenow + gmtoffset())/86400 *)
Definition day_of (z : zone) (now : Z) : Z := Z.quot (now + gmtoffset z) 86400.
Definition fullname (z : zone) (b : bytes) (day : Z) (num : nat) : bytes := b ++ B "." ++ date z day ++ B "." ++ dec num.
Definition curname (b : bytes) : bytes := b ++ B ".current".

(** streams/wvlogfile.cc:151-155: the next filename.  A link or a directory of that
    name is not modelled: Fault *)
Fixpoint pick (fuel : nat) (z : zone) (l : log) (day : Z) (d : dir) (num : nat) : res bytes :=
  match fuel with
  | O => NoFuel
  | S fuel =>
      let n := fullname z (base l) day num in
      match get d n with
      | None => Ok n
      | Some (File s ls _) => if (MAX_LOGFILE_SZ <=? size s ls) || negb (allow_append l) then pick fuel z l day d (S num) else Ok n
      | Some _ => Fault
      end
  end.

(** streams/wvlogfile.cc:160: open with O_CREAT | O_APPEND *)
Definition open_append (d : dir) (n : bytes) (now : Z) : dir := match get d n with None => put d n (File 0 [] now) | Some _ => d end.

(** streams/wvlogfile.cc:162-170: readlink() works or fails with ENOENT *)
Definition link_current (d : dir) (b n : bytes) (now : Z) : dir :=
  match get d (curname b) with
  | None | Some (Link _ _) => put d (curname b) (Link n now)
  | Some _ => d
  end.

(** strncmp(name, base, strlen(base)) == 0 *)
Fixpoint starts (p s : bytes) : bool :=
  match p, s with
  | [], _ => true
  | a :: p, c :: s => if Ascii.eqb a c then starts p s else false
  | _ :: _, [] => false
  end.
(** streams/wvlogfile.cc:120-135: trim_old_logs.  keep_for*86400 is an int; unlink() fails for a directory *)
Definition trim_old_logs (d : dir) (b : bytes) (keep now : Z) : res dir :=
  if keep =? 0 then Ok d
  else if negb (existsb (fun x => starts b (fst x)) d) then Ok d
  else if (keep * 86400 <? - 2 ^ 31) || (2 ^ 31 <=? keep * 86400) then Fault
  else Ok (filter (fun x => negb (starts b (fst x) && (mtime (snd x) <? now - keep * 86400) && match snd x with Dir _ => false | _ => true end)) d).

(** streams/wvlogfile.cc:138-198: start_log *)
Definition start_log (z : zone) (now : Z) (d : dir) (l : log) : res (dir * log) :=
  let day := day_of z now in
  let! n := pick (S (length d)) z l day d 0 in
  let d := open_append d n now in
  let d := link_current d (base l) n now in
  let! d := trim_old_logs d (base l) (keep_for l) now in
  Ok (d, Log (base l) (keep_for l) (allow_append l) (Some n) day).

(** fstat() of the open file; one that was deleted keeps its size, which is not
    modelled: 0 *)
Definition open_size (d : dir) (l : log) : Z :=
  match opened l with Some n => match get d n with Some (File s ls _) => size s ls | _ => 0 end | None => 0 end.
(** streams/wvlogfile.cc:101-118: _make_prefix *)
Definition make_prefix (z : zone) (now : Z) (d : dir) (l : log) : res (dir * log) :=
  let! (d, l) := match opened l with None => start_log z now d l | Some _ => Ok (d, l) end in
  if negb (last_day l =? day_of z now) || (MAX_LOGFILE_SZ <? open_size d l) then start_log z now d l else Ok (d, l).
(** streams/wvlogfile.cc:50-53: _mid_line, for a whole line.  What is written to a deleted file is lost *)
Definition write (d : dir) (l : log) (now : Z) (text : bytes) : dir :=
  match opened l with
  | Some n => match get d n with Some (File s ls _) => put d n (File s (ls ++ [text]) now) | _ => d end
  | None => d
  end.
(** A line of the log *)
Definition log_line (z : zone) (now : Z) (text : bytes) (d : dir) (l : log) : res (dir * log) :=
  let! (d, l) := make_prefix z now d l in Ok (write d l now text, l).
Fixpoint run (z : zone) (calls : list (Z * bytes)) (d : dir) (l : log) : res (dir * log) :=
  match calls with
  | [] => Ok (d, l)
  | (now, text) :: calls => let! (d, l) := log_line z now text d l in run z calls d l
  end.

(** Different days have different dates. *)
Definition zoned (z : zone) : Prop := forall a b, date z a = date z b -> a = b.
(** What has the name of a log file is a file, and was not changed before its day. *)
Definition sane (z : zone) (b : bytes) (d : dir) : Prop :=
  forall day n e, get d (fullname z b day n) = Some e -> exists s ls m, e = File s ls m /\ day * 86400 <= m + gmtoffset z.
(** There is nothing but a link at the name of the current log. *)
Definition linkish (d : dir) (b : bytes) : Prop := match get d (curname b) with None | Some (Link _ _) => True | _ => False end.
