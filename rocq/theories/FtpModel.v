(** Model of urlget/ftpparse.cc: the decoding of one line of an FTP directory
    listing.  Lines are lists of bytes; a pointer into the line is an index.

    Reading outside the line, and overflowing a signed [long], are outcomes of
    their own.  [long] has 64 bits (LP64); the length of the line and the
    indexes are [int]s that never leave 0..len, so they are plain naturals
    (simplification: lines of 2^31 bytes and more are not considered). *)
From Verif Require Import Base.
Local Open Scope Z_scope.
Local Open Scope list_scope.

Inductive out (A : Type) : Type :=
| Ret (a : A)
| Wild            (* a byte outside the line was read *)
| Over            (* a signed integer overflowed *)
| NoFuel.         (* the model ran out of fuel: excluded by the theorems *)
Arguments Ret {A} _.
Arguments Wild {A}.
Arguments Over {A}.
Arguments NoFuel {A}.

Definition obind {A C} (a : out A) (f : A -> out C) : out C :=
  match a with Ret x => f x | Wild => Wild | Over => Over | NoFuel => NoFuel end.
Notation "'do!' p := a 'in' b" := (obind a (fun p => b))
  (at level 200, p pattern, a at level 100, b at level 200, right associativity).

(** The result of an operation on [long]s. *)
Definition lng (z : Z) : out Z :=
  if (- 2 ^ 63 <=? z) && (z <? 2 ^ 63) then Ret z else Over.

(** [buf[k]]. *)
Definition rd (l : bytes) (k : nat) : out byte :=
  match nth_error l k with Some c => Ret c | None => Wild end.

(** The value of a [char] (signed, as on x86). *)
Definition sch (c : byte) : Z :=
  let n := Z.of_nat (nat_of_ascii c) in if n <? 128 then n else n - 256.

Definition is (s : string) (c : byte) : bool :=
  match s with String d EmptyString => Ascii.eqb c d | _ => false end.

(** ** Dates *)

(** urlget/ftpparse.cc:27-45 (totai).  C division and remainder truncate. *)
Definition totai (year month mday : Z) : out Z :=
  do! (year, month) :=
    (if 2 <=? month then do! m := lng (month - 2) in Ret (year, m)
     else do! m := lng (month + 10) in do! y := lng (year - 1) in Ret (y, m)) in
  do! a := lng (mday - 1) in
  do! a := lng (a * 10) in
  do! a := lng (a + 5) in
  do! b := lng (306 * month) in
  do! r := lng (a + b) in
  let r := Z.quot r 10 in
  do! (year, r) :=
    (if r =? 365 then do! y := lng (year - 3) in Ret (y, 1460)
     else do! r := lng (r + 365 * Z.rem year 4) in Ret (year, r)) in
  let year := Z.quot year 4 in
  do! r := lng (r + 1461 * Z.rem year 25) in
  let year := Z.quot year 25 in
  do! (year, r) :=
    (if r =? 36524 then do! y := lng (year - 3) in Ret (y, 146096)
     else do! r := lng (r + 36524 * Z.rem year 4) in Ret (year, r)) in
  let year := Z.quot year 4 in
  do! y := lng (year - 5) in
  do! y := lng (146097 * y) in
  do! r := lng (r + y) in
  do! r := lng (r + 11017) in
  lng (r * 86400).

(** urlget/ftpparse.cc:53-64 (initbase): gmtime() of 0 is midnight, January
    1st 1970 (tm_mon 0, tm_mday 1).  [base] is kept after the first call; it
    is the same at each. *)
Definition initbase : out Z :=
  do! t := totai 1970 0 1 in lng (- (t + 0 * 3600 + 0 * 60 + 0)).

(** urlget/ftpparse.cc:75-92, the part of initnow() that works out the year
    the time [now] falls in.  None of this can overflow: every value is
    smaller than [now]. *)
Definition yearof (now : Z) : Z :=
  let day := Z.quot now 86400 in
  let day := if Z.rem now 86400 <? 0 then day - 1 else day in
  let day := day - 11017 in
  let year := 5 + Z.quot day 146097 in
  let day := Z.rem day 146097 in
  let '(day, year) := if day <? 0 then (day + 146097, year - 1) else (day, year) in
  let year := year * 4 in
  let '(year, day) :=
    if day =? 146096 then (year + 3, 36524)
    else (year + Z.quot day 36524, Z.rem day 36524) in
  let year := year * 25 in
  let year := year + Z.quot day 1461 in
  let day := Z.rem day 1461 in
  let year := year * 4 in
  let '(year, day) :=
    if day =? 1460 then (year + 3, 365)
    else (year + Z.quot day 365, Z.rem day 365) in
  let day := day * 10 in
  if 10 <=? Z.quot (day + 5) 306 then year + 1 else year.

(** What the file keeps from one call to the next: [currentyear], once it has
    been worked out (urlget/ftpparse.cc:50-51, flagneedcurrentyear). *)
Definition cache := option Z.

(** urlget/ftpparse.cc:66-95 (initnow), at time [clock] (time()): the value of
    [now], and the year, which is only worked out the first time. *)
Definition initnow (clock : Z) (c : cache) : out (Z * Z) :=
  do! base := initbase in
  do! now := lng (clock - base) in
  Ret (now, match c with Some y => y | None => yearof now end).

(** urlget/ftpparse.cc:108-113, the loop of guesstai(), [n] more turns. *)
Fixpoint guess (n : nat) (year now month mday : Z) : out Z :=
  match n with
  | O => Ret 0
  | S n' =>
      do! t := totai year month mday in
      do! d := lng (now - t) in
      if d <? 350 * 86400 then Ret t else guess n' (year + 1) now month mday
  end.

(** urlget/ftpparse.cc:101-114 (guesstai): from currentyear - 1 up to, and
    not including, currentyear + 100. *)
Definition guesstai (clock : Z) (c : cache) (month mday : Z) : out (Z * cache) :=
  do! (now, cur) := initnow clock c in
  do! t := guess 101 (cur - 1) now month mday in
  Ret (t, Some cur).

(** urlget/ftpparse.cc:116-122 (check): each of three letters, small or
    capital.  [month] is the name. *)
Definition letter (c d : byte) : bool :=
  (sch c =? sch d) || (sch c =? sch d - 32).

Definition check (l : bytes) (k : nat) (month : bytes) : out bool :=
  match month with
  | [m0; m1; m2] =>
      do! c0 := rd l k in
      if negb (letter c0 m0) then Ret false
      else do! c1 := rd l (k + 1) in
      if negb (letter c1 m1) then Ret false
      else do! c2 := rd l (k + 2) in
      Ret (letter c2 m2)
  | _ => Ret false
  end.

(** urlget/ftpparse.cc:124-126 *)
Definition months : list bytes :=
  [B "jan"; B "feb"; B "mar"; B "apr"; B "may"; B "jun";
   B "jul"; B "aug"; B "sep"; B "oct"; B "nov"; B "dec"].

(** urlget/ftpparse.cc:128-135 (getmonth) *)
Fixpoint findmonth (l : bytes) (k : nat) (ms : list bytes) (i : Z) : out Z :=
  match ms with
  | [] => Ret (-1)
  | m :: r => do! b := check l k m in
              if (b : bool) then Ret i else findmonth l k r (i + 1)
  end.

Definition getmonth (l : bytes) (k len : nat) : out Z :=
  if Nat.eqb len 3 then findmonth l k months 0 else Ret (-1).

(** urlget/ftpparse.cc:137-143 (getlong): [n] bytes from [k] on. *)
Fixpoint getl (l : bytes) (k n : nat) (u : Z) : out Z :=
  match n with
  | O => Ret u
  | S n' => do! c := rd l k in
            do! a := lng (u * 10) in
            do! b := lng (a + (sch c - 48)) in
            getl l (S k) n' b
  end.
Definition getlong (l : bytes) (k n : nat) : out Z := getl l k n 0.

(** ** Results *)

(** include/ftpparse.h:39-42, the sorts of times. *)
Inductive mtype := MUnknown | MLocal | MMinute | MDay.

(** include/ftpparse.h:21-33 (struct ftpparse).  [f_size] is [None] for
    FTPPARSE_SIZE_UNKNOWN, [f_id] is [None] for FTPPARSE_ID_UNKNOWN. *)
Record fp := FP {
  f_name : nat; f_namelen : nat; f_cwd : bool; f_retr : bool;
  f_size : option Z; f_mtype : mtype; f_mtime : Z; f_id : option (nat * nat) }.

(** urlget/ftpparse.cc:157-167 *)
Definition fp0 : fp := FP 0 0 false false None MUnknown 0 None.

Definition set_cwd f := FP (f_name f) (f_namelen f) true (f_retr f)
  (f_size f) (f_mtype f) (f_mtime f) (f_id f).
Definition set_retr f := FP (f_name f) (f_namelen f) (f_cwd f) true
  (f_size f) (f_mtype f) (f_mtime f) (f_id f).
Definition set_size z f := FP (f_name f) (f_namelen f) (f_cwd f) (f_retr f)
  (Some z) (f_mtype f) (f_mtime f) (f_id f).
Definition set_time k t f := FP (f_name f) (f_namelen f) (f_cwd f) (f_retr f)
  (f_size f) k t (f_id f).
Definition set_id p f := FP (f_name f) (f_namelen f) (f_cwd f) (f_retr f)
  (f_size f) (f_mtype f) (f_mtime f) (Some p).
Definition set_name a n f := FP a n (f_cwd f) (f_retr f)
  (f_size f) (f_mtype f) (f_mtime f) (f_id f).

(** The answer of ftpparse(): [None] for 0; and what is kept. *)
Definition ans := (option fp * cache)%type.

(** ** EPLF *)

(** urlget/ftpparse.cc:184-205, one fact: from [i] up to the comma at [j]. *)
Definition efact (l : bytes) (i j : nat) (f : fp) : out fp :=
  do! c := rd l i in
  if is "/" c then Ret (set_cwd f)
  else if is "r" c then Ret (set_retr f)
  else if is "s" c then
    do! z := getlong l (i + 1) (j - i - 1) in Ret (set_size z f)
  else if is "m" c then
    do! base := initbase in
    do! z := getlong l (i + 1) (j - i - 1) in
    do! t := lng (base + z) in Ret (set_time MLocal t f)
  else if is "i" c then Ret (set_id (i + 1, j - i - 1)%nat f)
  else Ret f.

(** urlget/ftpparse.cc:176-209; [n] is len - j. *)
Fixpoint eplf (l : bytes) (n j i : nat) (f : fp) : out (option fp) :=
  match n with
  | O => Ret None
  | S n' =>
      do! c := rd l j in
      if Ascii.eqb c (ascii_of_nat 9) then
        Ret (Some (set_name (j + 1) (length l - j - 1) f))
      else if is "," c then
        do! f := efact l i j f in eplf l n' (S j) (S j) f
      else eplf l n' (S j) i f
  end.

(** ** UNIX *)

(** The variables of the loop of urlget/ftpparse.cc:239-301. *)
Record ust := U {
  u_i : nat; u_state : nat; u_size : Z; u_month : Z; u_mday : Z;
  u_fp : fp; u_cache : cache }.

Definition to_state n s := U (u_i s) n (u_size s) (u_month s) (u_mday s) (u_fp s) (u_cache s).
Definition to_i i s := U i (u_state s) (u_size s) (u_month s) (u_mday s) (u_fp s) (u_cache s).
Definition to_size z s := U (u_i s) (u_state s) z (u_month s) (u_mday s) (u_fp s) (u_cache s).
Definition to_month z s := U (u_i s) (u_state s) (u_size s) z (u_mday s) (u_fp s) (u_cache s).
Definition to_mday z s := U (u_i s) (u_state s) (u_size s) (u_month s) z (u_fp s) (u_cache s).
Definition to_fp f s := U (u_i s) (u_state s) (u_size s) (u_month s) (u_mday s) f (u_cache s).
Definition to_cache c s := U (u_i s) (u_state s) (u_size s) (u_month s) (u_mday s) (u_fp s) c.

(** base + day + hour * 3600 + minute * 60 *)
Definition moment (base day hour minute : Z) : out Z :=
  do! a := lng (base + day) in
  do! h := lng (hour * 3600) in
  do! b := lng (a + h) in
  do! m := lng (minute * 60) in
  lng (b + m).

(** urlget/ftpparse.cc:270-295, state 7: the word from [u_i s] to [j] is a
    time of day or a year; [None]: return 0. *)
Definition uwhen (clock : Z) (l : bytes) (j : nat) (s : ust) : out (option ust) :=
  let i := u_i s in
  let done k t c :=
    Ret (Some (to_state 8 (to_cache c
      (to_fp (set_name (j + 1) (length l - j - 1) (set_time k t (u_fp s))) s)))) in
  do! c1 := (if Nat.eqb (j - i) 4 then do! c := rd l (i + 1) in Ret (is ":" c)
             else Ret false) in
  if (c1 : bool) then
    do! hour := getlong l i 1 in
    do! minute := getlong l (i + 2) 2 in
    do! base := initbase in
    do! (g, c) := guesstai clock (u_cache s) (u_month s) (u_mday s) in
    do! t := moment base g hour minute in done MMinute t c
  else
  do! c2 := (if Nat.eqb (j - i) 5 then do! c := rd l (i + 2) in Ret (is ":" c)
             else Ret false) in
  if (c2 : bool) then
    do! hour := getlong l i 2 in
    do! minute := getlong l (i + 3) 2 in
    do! base := initbase in
    do! (g, c) := guesstai clock (u_cache s) (u_month s) (u_mday s) in
    do! t := moment base g hour minute in done MMinute t c
  else if Nat.leb 4 (j - i) then
    do! year := getlong l i (j - i) in
    do! base := initbase in
    do! d := totai year (u_month s) (u_mday s) in
    do! t := lng (base + d) in done MDay t (u_cache s)
  else Ret None.

(** urlget/ftpparse.cc:243-298, the switch: the word ends at [j]. *)
Definition uword (clock : Z) (l : bytes) (j : nat) (s : ust) : out (option ust) :=
  let i := u_i s in
  match u_state s with
  | 1%nat => Ret (Some (to_state 2 s))
  | 2%nat => do! f := (if Nat.eqb (j - i) 6 then do! c := rd l i in Ret (is "f" c)
                   else Ret false) in
         Ret (Some (to_state (if (f : bool) then 4%nat else 3%nat) s))
  | 3%nat => Ret (Some (to_state 4 s))
  | 4%nat => do! z := getlong l i (j - i) in Ret (Some (to_state 5 (to_size z s)))
  | 5%nat => do! m := getmonth l i (j - i) in
         if 0 <=? m then Ret (Some (to_state 6 (to_month m s)))
         else do! z := getlong l i (j - i) in
              Ret (Some (to_size z (to_month m s)))
  | 6%nat => do! d := getlong l i (j - i) in Ret (Some (to_state 7 (to_mday d s)))
  | 7%nat => uwhen clock l j s
  | _ => Ret (Some s)
  end.

(** urlget/ftpparse.cc:300: while ((i < len) && (buf[i] == ' ')) ++i; with
    [n] = len - i. *)
Fixpoint skipsp (l : bytes) (n i : nat) : out nat :=
  match n with
  | O => Ret i
  | S n' => do! c := rd l i in if is " " c then skipsp l n' (S i) else Ret i
  end.

(** urlget/ftpparse.cc:241-301; [n] is len - j. *)
Fixpoint uloop (clock : Z) (l : bytes) (n j : nat) (s : ust) : out (option ust) :=
  match n with
  | O => Ret (Some s)
  | S n' =>
      do! c := rd l j in
      do! e := (if is " " c then do! p := rd l (j - 1) in Ret (negb (is " " p))
                else Ret false) in
      if (e : bool) then
        do! r := uword clock l j s in
        match r with
        | None => Ret None
        | Some s =>
            do! i := skipsp l (length l - (j + 1)) (j + 1) in
            uloop clock l n' (S j) (to_i i s)
        end
      else uloop clock l n' (S j) s
  end.

(** urlget/ftpparse.cc:309-317: the length of the name of a link, cut at the
    first arrow.  [n] bounds the turns. *)
Fixpoint arrow (l : bytes) (a namelen n i : nat) : out nat :=
  match n with
  | O => Ret namelen
  | S n' =>
      if Nat.ltb (i + 3) namelen then
        do! c0 := rd l (a + i) in
        do! y := (if negb (is " " c0) then Ret false else
          do! c1 := rd l (a + i + 1) in
          if negb (is "-" c1) then Ret false else
          do! c2 := rd l (a + i + 2) in
          if negb (is ">" c2) then Ret false else
          do! c3 := rd l (a + i + 3) in Ret (is " " c3)) in
        if (y : bool) then Ret i else arrow l a namelen n' (S i)
      else Ret namelen
  end.

(** urlget/ftpparse.cc:319-327 (eliminate extra NetWare spaces) *)
Definition netware (l : bytes) (f : fp) : out fp :=
  do! c1 := rd l 1 in
  if negb (is " " c1 || is "[" c1) then Ret f
  else if negb (Nat.ltb 3 (f_namelen f)) then Ret f
  else
  do! n0 := rd l (f_name f) in
  if negb (is " " n0) then Ret f else
  do! n1 := rd l (f_name f + 1) in
  if negb (is " " n1) then Ret f else
  do! n2 := rd l (f_name f + 2) in
  if negb (is " " n2) then Ret f
  else Ret (set_name (f_name f + 3) (f_namelen f - 3) f).

(** urlget/ftpparse.cc:226-329 *)
Definition unix (clock : Z) (l : bytes) (c0 : byte) (k : cache) : out ans :=
  let f := fp0 in
  let f := if is "d" c0 then set_cwd f else f in
  let f := if is "-" c0 then set_retr f else f in
  let f := if is "l" c0 then set_retr (set_cwd f) else f in
  do! r := uloop clock l (length l - 1) 1 (U 0 1 0 0 0 f k) in
  match r with
  | None => Ret (None, k)
  | Some s =>
      if negb (Nat.eqb (u_state s) 8) then Ret (None, u_cache s)
      else
        let f := set_size (u_size s) (u_fp s) in
        do! n := (if is "l" c0 then arrow l (f_name f) (f_namelen f) (f_namelen f) 0
                  else Ret (f_namelen f)) in
        let f := set_name (f_name f) n f in
        do! f := netware l f in
        Ret (Some f, u_cache s)
  end.

(** ** VMS and MS-DOS *)

(** while (buf[i] is not wanted) if (++i == len) return 0; the loop goes on
    while [p] holds of the byte read. *)
Fixpoint scan (p : byte -> bool) (l : bytes) (n i : nat) : out (option nat) :=
  match n with
  | O => NoFuel
  | S n' =>
      do! c := rd l i in
      if p c then
        if Nat.eqb (S i) (length l) then Ret None else scan p l n' (S i)
      else Ret (Some i)
  end.

Definition isnt (s : string) (c : byte) : bool := negb (is s c).

(** A scan, then the rest; [None] is return 0. *)
Definition past {A} (p : byte -> bool) (l : bytes) (i : nat)
    (f : nat -> out (option A)) : out (option A) :=
  do! r := scan p l (S (length l)) i in
  match r with None => Ret None | Some j => f j end.

(** urlget/ftpparse.cc:337-339: the first semicolon, or len. *)
Fixpoint semi (l : bytes) (n i : nat) : out nat :=
  match n with
  | O => Ret i
  | S n' => do! c := rd l i in if is ";" c then Ret i else semi l n' (S i)
  end.

(** urlget/ftpparse.cc:343-350: does the name end in .DIR? *)
Definition dotdir (l : bytes) (i : nat) : out bool :=
  if negb (Nat.ltb 4 i) then Ret false else
  do! a := rd l (i - 4) in
  if negb (is "." a) then Ret false else
  do! b := rd l (i - 3) in
  if negb (is "D" b) then Ret false else
  do! c := rd l (i - 2) in
  if negb (is "I" c) then Ret false else
  do! d := rd l (i - 1) in Ret (is "R" d).

(** urlget/ftpparse.cc:340-383, the semicolon being at [i]. *)
Definition vms (l : bytes) (i : nat) : out (option fp) :=
  do! d := dotdir l i in
  let f := if (d : bool) then set_cwd (set_name 0 (i - 4) fp0)
           else set_retr (set_name 0 i fp0) in
  past (isnt " ") l i (fun i =>
  past (is " ") l i (fun i =>
  past (isnt " ") l i (fun i =>
  past (is " ") l i (fun i =>
  past (isnt "-") l i (fun j =>
  do! mday := getlong l i (j - i) in
  past (is "-") l j (fun i =>
  past (isnt "-") l i (fun j =>
  do! month := getmonth l i (j - i) in
  if month <? 0 then Ret None else
  past (is "-") l j (fun i =>
  past (isnt " ") l i (fun j =>
  do! year := getlong l i (j - i) in
  past (is " ") l j (fun i =>
  past (isnt ":") l i (fun j =>
  do! hour := getlong l i (j - i) in
  past (is ":") l j (fun i =>
  past (fun c => isnt ":" c && isnt " " c) l i (fun j =>
  do! minute := getlong l i (j - i) in
  do! base := initbase in
  do! day := totai year month mday in
  do! t := moment base day hour minute in
  Ret (Some (set_time MMinute t f))))))))))))))).

(** if (buf[j] is it) if (++j == len) return 0; *)
Definition maybe {A} (s : string) (l : bytes) (j : nat)
    (f : nat -> out (option A)) : out (option A) :=
  do! c := rd l j in
  if is s c then if Nat.eqb (S j) (length l) then Ret None else f (S j)
  else f j.

(** urlget/ftpparse.cc:389-439, the line beginning with a digit. *)
Definition msdos (l : bytes) : out (option fp) :=
  past (isnt "-") l 0 (fun j =>
  do! month := getlong l 0 (j - 0) in
  do! month := lng (month - 1) in
  past (is "-") l j (fun i =>
  past (isnt "-") l i (fun j =>
  do! mday := getlong l i (j - i) in
  past (is "-") l j (fun i =>
  past (isnt " ") l i (fun j =>
  do! year := getlong l i (j - i) in
  let year := if year <? 50 then year + 2000 else year in
  let year := if year <? 1000 then year + 1900 else year in
  past (is " ") l j (fun i =>
  past (isnt ":") l i (fun j =>
  do! hour := getlong l i (j - i) in
  past (is ":") l j (fun i =>
  past (fun c => isnt "A" c && isnt "P" c) l i (fun j =>
  do! minute := getlong l i (j - i) in
  let hour := if hour =? 12 then 0 else hour in
  maybe "A" l j (fun j =>
  do! c := rd l j in
  do! hour := lng (if is "P" c then hour + 12 else hour) in
  maybe "P" l j (fun j =>
  maybe "M" l j (fun j =>
  past (is " ") l j (fun j =>
  do! c := rd l j in
  let rest f j :=
    past (is " ") l j (fun j =>
    let f := set_name j (length l - j) f in
    do! base := initbase in
    do! day := totai year month mday in
    do! t := moment base day hour minute in
    Ret (Some (set_time MMinute t f))) in
  if is "<" c then past (isnt " ") l j (fun j => rest (set_cwd fp0) j)
  else
    past (isnt " ") l j (fun k =>
    do! size := getlong l j (k - j) in
    rest (set_retr (set_size size fp0)) k)))))))))))))).

(** ** The whole *)

(** urlget/ftpparse.cc:145-448 (ftpparse) on the line [l], at time [clock];
    [k] is what earlier calls have left. *)
Definition ftpparse (clock : Z) (k : cache) (l : bytes) : out ans :=
  if Nat.ltb (length l) 2 then Ret (None, k) else
  do! c0 := rd l 0 in
  if is "+" c0 then
    do! r := eplf l (length l - 1) 1 1 fp0 in Ret (r, k)
  else if is "b" c0 || is "c" c0 || is "d" c0 || is "l" c0 || is "p" c0
       || is "s" c0 || is "-" c0 then unix clock l c0 k
  else
    do! i := semi l (length l) 0 in
    if Nat.ltb i (length l) then
      do! r := vms l i in Ret (r, k)
    else if (48 <=? sch c0) && (sch c0 <=? 57) then
      do! r := msdos l in Ret (r, k)
    else Ret (None, k).
