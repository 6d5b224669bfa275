(** Model of the reference-counted buffers of WvString in utils/wvstring.cc and
    include/wvstring.h. *)
From Verif Require Import Base.
Local Open Scope nat_scope.

Section Generic.
  Context {A : Type}.
  Fixpoint setnth (l : list A) (i : nat) (a : A) : list A :=
    match l, i with [], _ => [] | _ :: r, O => a :: r | x :: r, S i => x :: setnth r i a end.
End Generic.

(** include/wvstring.h:67-72: WvStringBuf.  [links] is an unbounded count here;
    a buffer that has been freed is not [alive] and must not be touched.  [size]
    is determined by the room of [data]: 12 more. *)
Record cell := { data : mem; links : nat; alive : bool }.
Definition heap := list cell.
(** A char pointer: NULL, into a string buffer, or into memory not owned by any
    string.  A foreign C string carries where it lies with respect to the text
    of the string it is assigned to: [Some d] when it starts [d] bytes after it,
    [None] when it is further away or before it. *)
Inductive ptr := PNull | PIn (b o : nat) | PExt (s : bytes) (near : option nat).
(** include/wvstring.h:98-99: a WvFastString or WvString object; the buffer is
    absent for a WvFastString made from a char pointer *)
Record ws := { wbuf : option nat; wstr : ptr }.
(** utils/wvstring.cc:12: nullbuf is buffer 0; it starts with one link *)
Definition nullbuf : nat := 0.

Definition getcell (h : heap) (b : nat) : res cell :=
  match nth_error h b with
  | Some c => if alive c then Ok c else Fault
  | None => Fault
  end.
(** reading the C string at a pointer; running off the end of the buffer faults *)
Definition string_at (h : heap) (p : ptr) : res (option bytes) :=
  match p with
  | PNull => Ok None
  | PExt s _ => Ok (Some s)
  | PIn b o =>
      let! c := getcell h b in
      let d := skipn o (data c) in
      if existsb (Ascii.eqb nul) d then Ok (Some (cstr d)) else Fault
  end.

(** utils/wvstring.cc:266-273: alloc; the header takes 12 bytes (a size_t and an
    unsigned), WVSTRING_EXTRA is 1 *)
Definition room (n : nat) : nat := Nat.lor (12 + n + 1) 3 - 12.
Definition alloc (h : heap) (n : nat) : heap * nat := (h ++ [{| data := calloc (room n); links := 0; alive := true |}], length h).
(** utils/wvstring.cc:247-254: unlink; freeing the static nullbuf is a fault *)
Definition unlink (h : heap) (w : ws) : res heap :=
  match wbuf w with
  | None => Ok h
  | Some b =>
      let! c := getcell h b in
      if (b =? nullbuf) && (links c =? 1) then Fault
      else Ok (setnth h b {| data := data c; links := links c - 1; alive := negb (links c - 1 =? 0) |})
  end.
(** utils/wvstring.cc:257-263: link *)
Definition link (h : heap) (b : option nat) (p : ptr) : res (heap * ws) :=
  match b with
  | None => Ok (h, {| wbuf := None; wstr := p |})
  | Some b =>
      let! c := getcell h b in
      Ok (setnth h b {| data := data c; links := S (links c); alive := true |}, {| wbuf := Some b; wstr := p |})
  end.
(** utils/wvstring.cc:296-301: newbuf *)
Definition newbuf (h : heap) (n : nat) : heap * ws :=
  (h ++ [{| data := calloc (room n); links := 1; alive := true |}], {| wbuf := Some (length h); wstr := PIn (length h) 0 |}).
Definition write_data (h : heap) (b : nat) (o : nat) (s : bytes) : res heap :=
  let! c := getcell h b in
  let! d := of_opt (store_seq (data c) o s) in
  Ok (setnth h b {| data := d; links := links c; alive := true |}).

(** utils/wvstring.cc:306-324: unique, is_unique; memcpy leaves the final zero of
    calloc in place *)
Definition unique (h : heap) (w : ws) : res (heap * ws) :=
  match wbuf w with
  | None => Fault
  | Some b =>
      let! c := getcell h b in
      if links c <=? 1 then Ok (h, w)
      else
        let! t := string_at h (wstr w) in
        match t with
        | None => Ok (h, w)
        | Some t =>
            let (h, n) := alloc h (length t) in
            let! h := write_data h n 0 t in
            let! h := unlink h w in
            link h (Some n) (PIn n 0)
        end
  end.

Definition ptr_eqb (p q : ptr) : bool :=
  match p, q with
  | PNull, PNull => true
  | PIn b o, PIn b' o' => (b =? b') && (o =? o')
  | _, _ => false
  end.
(** utils/wvstring.cc:363: str < s2.str && s2.str <= str + buf->size *)
Definition overlaps (c : cell) (str s2 : ptr) : bool :=
  match str, s2 with
  | PIn b o, PIn b' o' => (b =? b') && (o <? o') && (o' <=? o + (12 + length (data c)))
  | PIn b o, PExt _ (Some d) => (0 <? d) && (d <=? 12 + length (data c))
  | _, _ => false
  end.
(** utils/wvstring.cc:349-383: WvString::operator=(const WvFastString &) *)
Definition assign (h : heap) (w s2 : ws) : res (heap * ws) :=
  if ptr_eqb (wstr s2) (wstr w) &&
     match wbuf s2, wbuf w with None, _ => true | Some a, Some b => a =? b | Some _, None => false end
  then Ok (h, w)
  else
    let copy :=
      let! h := unlink h w in
      let! (h, w) := link h (Some nullbuf) (wstr s2) in
      unique h w in
    match wbuf s2 with
    | Some _ =>
        let! h := unlink h w in
        link h (wbuf s2) (wstr s2)
    | None =>
        match wbuf w, wstr w with
        | Some b, PIn _ _ =>
            let! c := getcell h b in
            if (links c =? 1) && overlaps c (wstr w) (wstr s2)
            then let! t := string_at h (wstr s2) in
                 match t with
                 | None => Fault
                 | Some t => let! h := write_data h b 0 (t ++ [nul]) in Ok (h, w)
                 end
            else copy
        | _, _ => copy
        end
    end.
(** include/wvstring.h:341 and utils/wvstring.cc:33-36: WvString() *)
Definition new_default (h : heap) : res (heap * ws) := link h (Some nullbuf) PNull.
(** utils/wvstring.cc:65-76: copy_constructor, after the base constructor *)
Definition copy_construct (h : heap) (s : ws) : res (heap * ws) :=
  let! (h, w) := new_default h in
  let! h := unlink h w in
  match wbuf s with
  | None => let! (h, w) := link h (Some nullbuf) (wstr s) in unique h w
  | Some _ => link h (wbuf s) (wstr s)
  end.
(** utils/wvstring.cc:88-94 and include/wvstring.h:408-416: WvString(const char * ) *)
Definition new_cstr (h : heap) (p : ptr) : res (heap * ws) :=
  let! (h, w) := new_default h in
  let! h := unlink h w in
  let! (h, w) := link h (Some nullbuf) p in
  unique h w.
(** a WvFastString temporary made from a char pointer: utils/wvstring.cc:51-62 *)
Definition fast (p : ptr) : ws := {| wbuf := None; wstr := p |}.
(** utils/wvstring.cc:79-85: offset, a linked temporary *)
Definition offset (h : heap) (w : ws) (i : nat) : res (heap * ws) :=
  let! (h, t) := link h (wbuf w) (wstr w) in
  let! l := (let! s := string_at h (wstr t) in Ok (match s with None => 0 | Some s => length s end)) in
  let k := if i <? l then i else l in
  Ok (h, {| wbuf := wbuf t; wstr := match wstr t with PIn b o => PIn b (o + k) | p => p end |}).
(** utils/wvstring.cc:25-29: setsize *)
Definition setsize (h : heap) (w : ws) (n : nat) : res (heap * ws) :=
  let! h := unlink h w in Ok (newbuf h n).
(** utils/wvstring.cc:276-287: append; the formatted temporary is written directly
    (do_format is modelled in FormatModel.v) *)
Definition append (h : heap) (w s : ws) : res (heap * ws) :=
  let! t := string_at h (wstr s) in
  match t with
  | None => Ok (h, w)
  | Some t =>
      let! u := string_at h (wstr w) in
      match u with
      | None => assign h w s
      | Some u =>
          let (h, tmp) := newbuf h (length (u ++ t)) in
          let! h := match wbuf tmp with Some n => write_data h n 0 (u ++ t ++ [nul]) | None => Fault end in
          let! (h, w) := assign h w tmp in
          let! h := unlink h tmp in
          Ok (h, w)
      end
  end.

(** ** A program using a fixed set of string variables *)
Inductive op :=
| New (x : nat)                          (* WvString x; *)
| NewC (x : nat) (s : option bytes)      (* WvString x("..."); or from a NULL pointer *)
| NewCopy (x y : nat)                    (* WvString x(y); *)
| NewOffset (x y i : nat)                (* WvString x(y.offset(i)); *)
| Destroy (x : nat)
| Assign (x y : nat)                     (* x = y; *)
| AssignC (x : nat) (s : option bytes) (near : option nat)  (* x = p; a foreign C string *)
| AssignIn (x y i : nat) (near : option nat)  (* x = y.cstr() + i; *)
| AssignOffset (x y i : nat)             (* x = y.offset(i); *)
| Poke (x i : nat) (c : byte)            (* x.edit()[i] = c; *)
| Fill (x n : nat) (s : bytes)           (* x.setsize(n); strcpy(x.edit(), s); *)
| Append (x y : nat).                    (* x.append(y); *)

Record state := { hp : heap; env : list (option ws) }.
Definition init (k : nat) : state := {| hp := [{| data := [nul]; links := 1; alive := true |}]; env := repeat None k |}.

Definition var (s : state) (x : nat) : res ws :=
  match nth_error (env s) x with Some (Some w) => Ok w | _ => Fault end.
Definition fresh (s : state) (x : nat) : res unit :=
  match nth_error (env s) x with Some None => Ok tt | _ => Fault end.
Definition set (s : state) (x : nat) (r : res (heap * ws)) : res state :=
  let! (h, w) := r in Ok {| hp := h; env := setnth (env s) x (Some w) |}.
Definition cptr (s : option bytes) (near : option nat) : ptr := match s with None => PNull | Some s => PExt s near end.

(** [w.cstr() + i] as an argument of [v = ...]: within the buffer of [v] it is an
    offset; within another buffer only its distance matters for the overlap test *)
Definition overlaps_other (w : ws) (p : ptr) : bool :=
  match wstr w, p with PIn b _, PIn b' _ => negb (b =? b') | _, _ => false end.
Definition assign_in (h : heap) (w : ws) (p : ptr) (near : option nat) : res (heap * ws) :=
  if overlaps_other w p then
    match near with
    | None => assign h w (fast p)
    | Some _ => let! t := string_at h p in assign h w (fast (cptr t near))
    end
  else assign h w (fast p).

Definition step (s : state) (o : op) : res state :=
  match o with
  | New x => let! _ := fresh s x in set s x (new_default (hp s))
  | NewC x t => let! _ := fresh s x in set s x (new_cstr (hp s) (cptr t None))
  | NewCopy x y => let! _ := fresh s x in let! v := var s y in set s x (copy_construct (hp s) v)
  | NewOffset x y i =>
      let! _ := fresh s x in let! v := var s y in
      let! (h, t) := offset (hp s) v i in
      let! (h, w) := copy_construct h t in
      let! h := unlink h t in set s x (Ok (h, w))
  | Destroy x =>
      let! w := var s x in let! h := unlink (hp s) w in
      Ok {| hp := h; env := setnth (env s) x None |}
  | Assign x y => let! w := var s x in let! v := var s y in set s x (assign (hp s) w v)
  | AssignC x t near => let! w := var s x in set s x (assign (hp s) w (fast (cptr t near)))
  | AssignIn x y i near =>
      let! w := var s x in let! v := var s y in
      match wstr v with
      | PIn b o => set s x (assign_in (hp s) w (PIn b (o + i)) near)
      | _ => Fault
      end
  | AssignOffset x y i =>
      let! w := var s x in let! v := var s y in
      let! (h, t) := offset (hp s) v i in
      let! (h, w) := assign h w t in
      let! h := unlink h t in set s x (Ok (h, w))
  | Poke x i c =>
      let! w := var s x in
      let! (h, w) := unique (hp s) w in
      match wstr w with
      | PIn b o => let! h := write_data h b (o + i) [c] in set s x (Ok (h, w))
      | _ => Fault
      end
  | Fill x n t =>
      let! w := var s x in
      let! (h, w) := setsize (hp s) w n in
      let! (h, w) := unique h w in
      match wstr w with
      | PIn b o => let! h := write_data h b o (t ++ [nul]) in set s x (Ok (h, w))
      | _ => Fault
      end
  | Append x y => let! w := var s x in let! v := var s y in set s x (append (hp s) w v)
  end.
Fixpoint run (s : state) (ops : list op) : res state :=
  match ops with [] => Ok s | o :: ops => let! s := step s o in run s ops end.
(** what x.cstr() points at *)
Definition text (s : state) (x : nat) : res (option bytes) :=
  let! w := var s x in string_at (hp s) (wstr w).
