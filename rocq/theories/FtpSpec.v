(** What directory listings mean, without reference to the parser: the
    calendar, numbers, and the parts a line is made of. *)
From Verif Require Import Base.
Local Open Scope Z_scope.
Local Open Scope list_scope.

(** ** The Gregorian calendar.  Months count from 0, days from 1. *)

Definition leap (y : Z) : bool :=
  (y mod 4 =? 0) && negb (y mod 100 =? 0) || (y mod 400 =? 0).

Definition mlen (y m : Z) : Z :=
  if m =? 1 then if leap y then 29 else 28
  else if (m =? 3) || (m =? 5) || (m =? 8) || (m =? 10) then 30 else 31.

(** [f 0 + ... + f (n-1)] *)
Fixpoint sum (f : Z -> Z) (n : nat) : Z :=
  match n with O => 0 | S k => sum f k + f (Z.of_nat k) end.

Definition ylen (y : Z) : Z := sum (mlen y) 12.

(** Days from January 1st of year 0 to the first of a month, to a day. *)
Definition daynum (y m d : Z) : Z :=
  sum ylen (Z.to_nat y) + sum (mlen y) (Z.to_nat m) + (d - 1).

Definition date (y m d : Z) : Prop :=
  1 <= y /\ 0 <= m < 12 /\ 1 <= d <= mlen y m.

(** The time, in seconds since the beginning of 1970. *)
Definition unixtime (y m d : Z) : Z := 86400 * (daynum y m d - daynum 1970 0 1).

(** ** Numbers *)

Definition digit (c : byte) : Prop := (48 <= nat_of_ascii c <= 57)%nat.

(** What a string of digits says. *)
Definition value (ds : bytes) : Z :=
  fold_left (fun u c => 10 * u + (Z.of_nat (nat_of_ascii c) - 48)) ds 0.

(** A decimal number: at least one digit, less than [bound]. *)
Definition number (bound : Z) (ds : bytes) : Prop :=
  ds <> [] /\ Forall digit ds /\ value ds < bound.

(** ** Pieces of lines *)

Definition space : byte := ascii_of_nat 32.

(** One or more spaces. *)
Definition gap (n : nat) : bytes := repeat space (S n).

(** A word: something, without spaces. *)
Definition word (w : bytes) : Prop := w <> [] /\ ~ In space w.

(** The names of the months, in any mixture of capitals. *)
Definition month_names : list bytes :=
  [B "JAN"; B "FEB"; B "MAR"; B "APR"; B "MAY"; B "JUN";
   B "JUL"; B "AUG"; B "SEP"; B "OCT"; B "NOV"; B "DEC"].

Definition upper (c : byte) : byte :=
  let n := nat_of_ascii c in
  if ((97 <=? n) && (n <=? 122))%nat then ascii_of_nat (n - 32) else c.

(** [w] names month number [m]. *)
Definition names_month (w : bytes) (m : Z) : Prop :=
  0 <= m < 12 /\ nth_error month_names (Z.to_nat m) = Some (map upper w).

(** What a line says about a file. *)
Inductive sort := Unknown | Exact | Minute | Day.

Record entry := Entry {
  e_name : bytes; e_cwd : bool; e_retr : bool; e_size : option Z;
  e_sort : sort; e_time : Z; e_id : option bytes }.

(** ** EPLF facts, see http://cr.yp.to/ftp/list/eplf.html *)

Inductive fact := FDir | FFile | FSize (ds : bytes) | FTime (ds : bytes)
                | FId (s : bytes) | FOther (s : bytes).

Definition fact_text (f : fact) : bytes :=
  match f with
  | FDir => B "/" | FFile => B "r" | FSize d => B "s" ++ d
  | FTime d => B "m" ++ d | FId s => B "i" ++ s | FOther s => s
  end.

Definition tab : byte := ascii_of_nat 9.
Definition comma : byte := ascii_of_nat 44.

Definition fact_ok (f : fact) : Prop :=
  match f with
  | FDir | FFile => True
  | FSize d | FTime d => number (10 ^ 18) d
  | FId s => ~ In tab s /\ ~ In comma s
  | FOther s => ~ In tab s /\ ~ In comma s /\
                forall c r, s = c :: r -> ~ In c (B "/rsmi")
  end.

Definition tell (e : entry) (f : fact) : entry :=
  match f with
  | FDir => Entry (e_name e) true (e_retr e) (e_size e) (e_sort e) (e_time e) (e_id e)
  | FFile => Entry (e_name e) (e_cwd e) true (e_size e) (e_sort e) (e_time e) (e_id e)
  | FSize d => Entry (e_name e) (e_cwd e) (e_retr e) (Some (value d)) (e_sort e) (e_time e) (e_id e)
  | FTime d => Entry (e_name e) (e_cwd e) (e_retr e) (e_size e) Exact (value d) (e_id e)
  | FId s => Entry (e_name e) (e_cwd e) (e_retr e) (e_size e) (e_sort e) (e_time e) (Some s)
  | FOther _ => e
  end.

Definition eplf_line (fs : list fact) (name : bytes) : bytes :=
  B "+" ++ flat_map (fun f => fact_text f ++ [comma]) fs ++ [tab] ++ name.

Definition eplf_entry (fs : list fact) (name : bytes) : entry :=
  fold_left tell fs (Entry name false false None Unknown 0 None).

(** ** UNIX *)

(** The line [ls] prints: a letter and the permissions, the number of links,
    the owner, any more words, the size, the date, and the name.  Words are
    separated by one or more spaces; one space precedes the name. *)
Definition spaced (ws : list (bytes * nat)) : bytes :=
  flat_map (fun p => fst p ++ gap (snd p)) ws.

Definition unix_line (ws : list (bytes * nat)) (when_ name : bytes) : bytes :=
  spaced ws ++ when_ ++ [space] ++ name.

(** What comes between the permissions and the rest: the number of links and
    the owner; or, from a Macintosh, the word "folder". *)
Definition folder (w : bytes) : Prop := length w = 6%nat /\ exists r, w = B "f" ++ r.

Definition ownership (ws : list (bytes * nat)) : Prop :=
  (exists n g u h, ws = [(n, g); (u, h)] /\ ~ folder n) \/
  (exists n g, ws = [(n, g)] /\ folder n).

(** The name of a link comes before the first arrow. *)
Fixpoint starts (p l : bytes) : bool :=
  match p, l with
  | [], _ => true
  | c :: p', d :: l' => Ascii.eqb c d && starts p' l'
  | _, _ => false
  end.

Fixpoint before_arrow (l : bytes) : bytes :=
  match l with
  | [] => []
  | c :: r => if starts (B " -> ") l then [] else c :: before_arrow r
  end.

(** NetWare servers, whose permissions are a word of their own or follow a
    bracket, put three more spaces before the name. *)
Definition unpad (perm name : bytes) : bytes :=
  match perm with
  | [] | "["%char :: _ =>
      match name with
      | a :: b :: c :: d :: r =>
          if starts (B "   ") name then d :: r else name
      | _ => name
      end
  | _ => name
  end.

Definition unix_name (kind : byte) (perm name : bytes) : bytes :=
  unpad perm (if Ascii.eqb kind "l" then before_arrow name else name).

(** A time of day: h:mm or hh:mm. *)
Definition clock_time (w : bytes) (seconds : Z) : Prop :=
  exists h m, w = h ++ B ":" ++ m /\ (length h = 1 \/ length h = 2)%nat /\
    length m = 2%nat /\ Forall digit h /\ Forall digit m /\
    seconds = 3600 * value h + 60 * value m.

(** The year meant by a date without one, seen at time [now]: the first that
    makes the date less than 350 days old. *)
Definition meant (now m d y : Z) : Prop :=
  now - unixtime y m d < 350 * 86400 <= now - unixtime (y - 1) m d.

(** ** VMS and MS-DOS *)

Definition vms_line (name ver : bytes) (g1 : nat) (blocks : bytes) (g2 : nat)
    (day month year : bytes) (g3 : nat) (hour minute rest : bytes) : bytes :=
  name ++ B ";" ++ ver ++ gap g1 ++ blocks ++ gap g2 ++ day ++ B "-" ++ month ++ B "-"
  ++ year ++ gap g3 ++ hour ++ B ":" ++ minute ++ rest.

(** A directory: something, then .DIR. *)
Definition vms_dir (name base : bytes) : Prop := base <> [] /\ name = base ++ B ".DIR".

Definition msdos_line (month day year : bytes) (g1 : nat) (hour minute : bytes) (pm : bool)
    (g2 : nat) (what : bytes) (g3 : nat) (name : bytes) : bytes :=
  month ++ B "-" ++ day ++ B "-" ++ year ++ gap g1 ++ hour ++ B ":" ++ minute
  ++ (if pm then B "PM" else B "AM") ++ gap g2 ++ what ++ gap g3 ++ name.

(** Years of two digits are those from 1950 to 2049. *)
Definition full_year (y : Z) : Z :=
  if y <? 50 then 2000 + y else if y <? 1000 then 1900 + y else y.

(** Twelve o'clock comes first. *)
Definition hour24 (h : Z) (pm : bool) : Z :=
  (if h =? 12 then 0 else h) + (if pm then 12 else 0).
