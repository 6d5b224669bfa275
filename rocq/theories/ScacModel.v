(** Model of utils/wvstringcache.cc: WvStringCache, and of what it uses of WvString.
    Null strings are left out. *)
From Verif Require Import Base.

(** Memory, the program's variables and the cache: utils/wvstringcache.cc:11-13.
    [bufs]: the text of each buffer (a WvStringBuf; numbers are not used again);
    [vars]: the program's WvStrings, by buffer; [tab]: the table's WvStrings;
    [caches]: refcount; [limit]: clean_threshold. *)
Record st := St { bufs : list bytes; vars : list nat; tab : list nat; caches : nat; limit : nat }.
Definition initial : st := St [] [] [] 0 0.
Definition txt (s : st) (b : nat) : bytes := nth b (bufs s) [].

(** include/wvstring.h:70: how many WvStrings use a buffer *)
Definition links (s : st) (b : nat) : nat := count_occ Nat.eq_dec (vars s) b + count_occ Nat.eq_dec (tab s) b.
(** utils/wvstring.cc:321-324: is_unique *)
Definition is_unique (s : st) (b : nat) : bool := Nat.leb (links s b) 1.
Fixpoint put {A} (l : list A) (i : nat) (x : A) : list A :=
  match l, i with [], _ => [] | _ :: l, 0 => x :: l | y :: l, S i => y :: put l i x end.
Fixpoint del {A} (l : list A) (i : nat) : list A :=
  match l, i with [], _ => [] | _ :: l, 0 => l | y :: l, S i => y :: del l i end.

(** include/wvstring.h:408-416: a variable made from a text *)
Definition make (s : st) (t : bytes) : st := St (bufs s ++ [t]) (length (bufs s) :: vars s) (tab s) (caches s) (limit s).
(** utils/wvstring.cc:246-257: a variable goes away *)
Definition drop (s : st) (i : nat) : st := St (bufs s) (del (vars s) i) (tab s) (caches s) (limit s).
(** utils/wvstring.cc:306-319 (unique) and edit(): the text is changed by one variable *)
Definition edit (s : st) (i : nat) (t : bytes) : st :=
  match nth_error (vars s) i with
  | None => s
  | Some b => if is_unique s b then St (put (bufs s) b t) (vars s) (tab s) (caches s) (limit s)
              else St (bufs s ++ [t]) (put (vars s) i (length (bufs s))) (tab s) (caches s) (limit s)
  end.

Definition same (a b : bytes) : bool := if list_eq_dec Ascii.ascii_dec a b then true else false.
(** The table: include/wvstringtable.h; the entry that has the text, if any *)
Definition lookup (s : st) (t : bytes) : option nat := find (fun b => same (txt s b) t) (tab s).
(** utils/wvstringcache.cc:15-23: the constructor *)
Definition construct (s : st) : st := match caches s with 0 => St (bufs s) (vars s) [] 1 0 | n => St (bufs s) (vars s) (tab s) (S n) (limit s) end.
(** utils/wvstringcache.cc:56-89: clean *)
Definition clean (s : st) : st :=
  if Nat.ltb (length (tab s)) (limit s) then s
  else let t := filter (fun b => negb (is_unique s b)) (tab s) in
       St (bufs s) (vars s) t (caches s) (length t + length t / 10 + 1).
(** utils/wvstringcache.cc:26-37: the destructor *)
Definition destruct_cache (s : st) : st :=
  match caches s with
  | 0 => s
  | 1 => St (bufs s) (vars s) [] 0 0
  | S n => clean (St (bufs s) (vars s) (tab s) n (limit s))
  end.
(** utils/wvstringcache.cc:40-54: get, of a text that is no WvString, into a new variable *)
Definition get_text (s : st) (t : bytes) : res st :=
  match caches s with
  | 0 => Fault
  | _ => match lookup s t with
         | Some b => Ok (St (bufs s) (b :: vars s) (tab s) (caches s) (limit s))
         | None => let b := length (bufs s) in Ok (St (bufs s ++ [t]) (b :: vars s) (b :: tab s) (caches s) (limit s))
         end
  end.
(** the same, of a variable *)
Definition get_var (s : st) (i : nat) : res st :=
  match caches s, nth_error (vars s) i with
  | 0, _ | _, None => Fault
  | _, Some v => match lookup s (txt s v) with
                 | Some b => Ok (St (bufs s) (b :: vars s) (tab s) (caches s) (limit s))
                 | None => Ok (St (bufs s) (v :: vars s) (v :: tab s) (caches s) (limit s))
                 end
  end.

Inductive op := Make (t : bytes) | Drop (i : nat) | Edit (i : nat) (t : bytes) | GetText (t : bytes) | GetVar (i : nat) | Clean | New | Delete.
Definition step (s : st) (o : op) : res st :=
  match o with
  | Make t => Ok (make s t)
  | Drop i => Ok (drop s i)
  | Edit i t => Ok (edit s i t)
  | GetText t => get_text s t
  | GetVar i => get_var s i
  | Clean => match caches s with 0 => Fault | _ => Ok (clean s) end
  | New => Ok (construct s)
  | Delete => Ok (destruct_cache s)
  end.
Fixpoint run (s : st) (l : list op) : res st := match l with [] => Ok s | o :: l => let! s := step s o in run s l end.
