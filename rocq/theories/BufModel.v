(** Model of utils/wvbufferstore.cc and include/wvbufstore.h: the storage
    classes behind WvBuf.  Simplifications: element size 1 (byte buffers), no
    overflow of int/size_t (sizes below 2^31), NULL pointers returned for a
    count of 0 are some pointer nobody reads through, autofree flags are left
    out, the bytes of a new array are NUL. *)
From Verif Require Import Base.

(** A storage class.  [get], [alloc] and [mpeek] return pointers; memory is
    read and written through [rd] and [wr], which fault outside the block the
    pointer belongs to. *)
Record bstore := BStore
  { bT : Type;
    bP : Type;
    padd : bP -> nat -> bP;
    bused : bT -> nat;
    bfree : bT -> nat;
    bungettable : bT -> nat;
    bunallocable : bT -> nat;
    boptget : bT -> nat;
    boptalloc : bT -> nat;
    bpeekable : bT -> Z -> nat;
    boptpeek : bT -> Z -> nat;
    bget : bT -> nat -> res (bT * bP);
    bunget : bT -> nat -> res bT;
    balloc : bT -> nat -> res (bT * bP);
    bunalloc : bT -> nat -> res bT;
    bmpeek : bT -> Z -> nat -> res (bT * bP);
    bzap : bT -> bT;
    brd : bT -> bP -> nat -> res bytes;
    bwr : bT -> bP -> bytes -> res bT }.

(** utils/wvbufferstore.cc:89-108: WvBufStore::peekable *)
Definition base_peekable (used ungettable : nat) (offset : Z) : nat :=
  if (offset =? 0)%Z then used
  else if (offset <? 0)%Z then
    if Z.to_nat (- offset) <=? ungettable then Z.to_nat (- offset) + used else 0
  else Z.to_nat (Z.of_nat used - offset).

(** memcpy/memmove inside one block and bounds-checked access. *)
Definition mread (m : mem) (p n : nat) : res bytes :=
  if p + n <=? length m then Ok (firstn n (skipn p m)) else Fault.
Definition mwrite (m : mem) (p : nat) (d : bytes) : res mem :=
  if p + length d <=? length m then Ok (firstn p m ++ d ++ skipn (p + length d) m) else Fault.
Definition mmove (m : mem) (dst src n : nat) : res mem :=
  let! d := mread m src n in mwrite m dst d.
(** utils/wvbufferstore.cc:45-56: MemOps::swap *)
Fixpoint mswap (m : mem) (t s n : nat) : res mem :=
  match n with
  | O => Ok m
  | S n =>
      let! a := of_opt (nth_error m t) in
      let! b := of_opt (nth_error m s) in
      let! m := of_opt (store m t b) in
      let! m := of_opt (store m s a) in
      mswap m (S t) (S s) n
  end.

(** ** WvCircularBufStore *)
Record circ := Circ { c_mem : mem; c_head : nat; c_used : nat; c_init : nat }.
Definition c_size (c : circ) : nat := length (c_mem c).

(** utils/wvbufferstore.cc:485-488, 503-520 *)
Definition circ_new (size : nat) : circ := Circ (calloc size) 0 0 0.

(** utils/wvbufferstore.cc:717-733: the end of compact, loop and final moves *)
Fixpoint compact_loop (fuel : nat) (m : mem) (start fin headcount tailcount : nat) : res mem :=
  match fuel with
  | O => NoFuel
  | S fuel =>
      if headcount <=? tailcount then
        let! m := mswap m start fin headcount in
        compact_loop fuel m (start + headcount) fin headcount (tailcount - headcount)
      else
        let! buf := mread m start tailcount in
        let! m := mmove m start fin headcount in
        mwrite m (start + headcount) buf
  end.

(** utils/wvbufferstore.cc:680-734 *)
Definition compact (m : mem) (head count : nat) : res mem :=
  let size := length m in
  if count =? 0 then Ok m
  else if head + count <=? size then mmove m 0 head count
  else
    let headcount := size - head in
    let tailcount := count - headcount in
    let freecount := size - count in
    if headcount <=? freecount then
      let! m := mmove m headcount 0 tailcount in
      mmove m 0 head headcount
    else compact_loop (S tailcount) m 0 head headcount tailcount.

(** [(head + offset + xsize) % xsize]; the sum must not be negative *)
Definition c_index (head : nat) (offset : Z) (size : nat) : res nat :=
  if size =? 0 then Fault else
  let s := (Z.of_nat head + offset + Z.of_nat size)%Z in
  if (s <? 0)%Z then Fault else Ok (Z.to_nat s mod size).

(** utils/wvbufferstore.cc:640-677: ensurecontiguous *)
Definition ensurecontiguous (c : circ) (offset : Z) (count : nat) (keephistory : bool) : res (circ * nat) :=
  let size := c_size c in
  let! start := c_index (c_head c) offset size in
  if (negb (count =? 0)) && (size <? start + count) then
    let keepstart := (if keephistory then c_head c + size - (c_init c - c_used c) else c_head c) mod size in
    let init := if keephistory then c_init c else c_used c in
    let! m := compact (c_mem c) keepstart init in
    let head := init - c_used c in
    let! start := c_index head offset size in
    Ok (Circ m head (c_used c) init, start)
  else Ok (c, start).

(** utils/wvbufferstore.cc:528-534 *)
Definition c_optget (c : circ) : nat := min (c_size c - c_head c) (c_used c).
(** utils/wvbufferstore.cc:537-546; [% 0] faults *)
Definition c_get (c : circ) (count : nat) : res (circ * nat) :=
  if count <=? c_used c then
    let! (c, first) := ensurecontiguous c 0 count false in
    Ok (Circ (c_mem c) ((c_head c + count) mod c_size c) (c_used c - count) (c_init c), first)
  else Fault.
(** utils/wvbufferstore.cc:549-555 *)
Definition c_unget (c : circ) (count : nat) : res circ :=
  if count <=? c_init c - c_used c then
    if c_size c =? 0 then Fault else
    Ok (Circ (c_mem c) ((c_head c + c_size c - count) mod c_size c) (c_used c + count) (c_init c))
  else Fault.
(** utils/wvbufferstore.cc:558-561 *)
Definition c_ungettable (c : circ) : nat := c_init c - c_used c.
(** utils/wvbufferstore.cc:564-568 *)
Definition c_zap (c : circ) : circ := Circ (c_mem c) 0 0 0.
(** utils/wvbufferstore.cc:571-574 *)
Definition c_free (c : circ) : nat := c_size c - c_used c.
(** utils/wvbufferstore.cc:577-583 *)
Definition c_optalloc (c : circ) : nat :=
  let tail := c_head c + c_used c in
  if c_size c <=? tail then c_size c - c_used c else c_size c - tail.
(** utils/wvbufferstore.cc:586-597 *)
Definition c_alloc (c : circ) (count : nat) : res (circ * nat) :=
  if count <=? c_size c - c_used c then
    let! (c, first) := ensurecontiguous (Circ (c_mem c) (c_head c) (c_used c) (c_used c))
                         (Z.of_nat (c_used c)) count false in
    Ok (Circ (c_mem c) (c_head c) (c_used c + count) (c_init c + count), first)
  else Fault.
(** utils/wvbufferstore.cc:600-606 *)
Definition c_unalloc (c : circ) (count : nat) : res circ :=
  if count <=? c_used c
  then Ok (Circ (c_mem c) (c_head c) (c_used c - count) (c_init c - count)) else Fault.
(** utils/wvbufferstore.cc:615-627 *)
Definition c_mpeek (c : circ) (offset : Z) (count : nat) : res (circ * nat) :=
  if count =? 0 then Ok (c, 0) else
  if (if (offset <=? 0)%Z then Z.to_nat (- offset) <=? c_init c - c_used c
      else Z.to_nat offset <? c_used c)
  then ensurecontiguous c offset count true else Fault.
(** utils/wvbufferstore.cc:630-638: normalize *)
Definition c_normalize (c : circ) : res circ :=
  let! m := compact (c_mem c) (c_head c) (c_used c) in
  Ok (Circ m 0 (c_used c) (c_used c)).
Definition c_peekable (c : circ) (o : Z) : nat := base_peekable (c_used c) (c_ungettable c) o.
Definition c_rd (c : circ) (p n : nat) : res bytes := mread (c_mem c) p n.
Definition c_wr (c : circ) (p : nat) (d : bytes) : res circ :=
  let! m := mwrite (c_mem c) p d in Ok (Circ m (c_head c) (c_used c) (c_init c)).

Definition CircStore : bstore :=
  BStore circ nat Nat.add c_used c_free c_ungettable c_used c_optget c_optalloc c_peekable c_peekable
    c_get c_unget c_alloc c_unalloc c_mpeek c_zap c_rd c_wr.

(** ** WvInPlaceBufStore, utils/wvbufferstore.cc:287-405 *)
Record inpl := Inpl { i_mem : mem; i_read : nat; i_write : nat }.
Definition i_used (s : inpl) : nat := i_write s - i_read s.
Definition i_free (s : inpl) : nat := length (i_mem s) - i_write s.
Definition i_get (s : inpl) (n : nat) : res (inpl * nat) :=
  if n <=? i_write s - i_read s then Ok (Inpl (i_mem s) (i_read s + n) (i_write s), i_read s) else Fault.
Definition i_unget (s : inpl) (n : nat) : res inpl :=
  if n <=? i_read s then Ok (Inpl (i_mem s) (i_read s - n) (i_write s)) else Fault.
Definition i_alloc (s : inpl) (n : nat) : res (inpl * nat) :=
  if n <=? length (i_mem s) - i_write s then Ok (Inpl (i_mem s) (i_read s) (i_write s + n), i_write s) else Fault.
Definition i_unalloc (s : inpl) (n : nat) : res inpl :=
  if n <=? i_write s - i_read s then Ok (Inpl (i_mem s) (i_read s) (i_write s - n)) else Fault.
Definition i_mpeek (s : inpl) (offset : Z) (count : nat) : res (inpl * nat) :=
  if count =? 0 then Ok (s, 0) else
  if (if (offset <=? 0)%Z then Z.to_nat (- offset) <=? i_read s
      else Z.to_nat offset <? i_write s - i_read s)
  then Ok (s, Z.to_nat (Z.of_nat (i_read s) + offset)) else Fault.
Definition i_peekable (s : inpl) (o : Z) : nat := base_peekable (i_used s) (i_read s) o.
Definition i_wr (s : inpl) (p : nat) (d : bytes) : res inpl :=
  let! m := mwrite (i_mem s) p d in Ok (Inpl m (i_read s) (i_write s)).
Definition InPlaceStore : bstore :=
  BStore inpl nat Nat.add i_used i_free i_read i_used i_used i_free i_peekable i_peekable
    i_get i_unget i_alloc i_unalloc i_mpeek (fun s => Inpl (i_mem s) 0 0)
    (fun s => mread (i_mem s)) i_wr.
Definition inpl_new (size : nat) : inpl := Inpl (calloc size) 0 0.

(** ** The helpers of class WvBufStore *)
Section Helpers.
Variable S : bstore.

(** utils/wvbufferstore.cc:146-160: put *)
Fixpoint b_put (fuel : nat) (t : bT S) (data : bytes) : res (bT S) :=
  match data with
  | [] => Ok t
  | _ =>
      match fuel with
      | O => NoFuel
      | Datatypes.S fuel =>
          if boptalloc S t =? 0 then Fault else
          let amount := min (boptalloc S t) (length data) in
          let! (t, p) := balloc S t amount in
          let! t := bwr S t p (firstn amount data) in
          b_put fuel t (skipn amount data)
      end
  end.
Definition put (t : bT S) (data : bytes) : res (bT S) := b_put (length data) t data.

(** utils/wvbufferstore.cc:163-167: fastput; also a client that calls alloc()
    and fills the memory. *)
Definition fastput (t : bT S) (data : bytes) : res (bT S) :=
  let! (t, p) := balloc S t (length data) in bwr S t p data.

(** utils/wvbufferstore.cc:111-125: move; since [amount = count] it is one get. *)
Definition move (t : bT S) (count : nat) : res (bT S * bytes) :=
  if count =? 0 then Ok (t, []) else
  let! (t, p) := bget S t count in
  let! d := brd S t p count in Ok (t, d).

(** get() followed by reading the elements; include/wvbufbase.h:112-119 *)
Definition get_read (t : bT S) (count : nat) : res (bT S * bytes) :=
  let! (t, p) := bget S t count in
  let! d := brd S t p count in Ok (t, d).

(** peek() followed by reading the elements *)
Definition peek_read (t : bT S) (offset : Z) (count : nat) : res (bT S * bytes) :=
  let! (t, p) := bmpeek S t offset count in
  let! d := brd S t p count in Ok (t, d).

(** utils/wvbufferstore.cc:128-143: copy *)
Fixpoint b_copy (fuel : nat) (t : bT S) (offset : Z) (count : nat) : res (bT S * bytes) :=
  if count =? 0 then Ok (t, []) else
  match fuel with
  | O => NoFuel
  | Datatypes.S fuel =>
      if boptpeek S t offset =? 0 then Fault else
      let amount := min (boptpeek S t offset) count in
      let! (t, p) := bmpeek S t offset amount in
      let! d := brd S t p amount in
      let! (t, r) := b_copy fuel t (offset + Z.of_nat amount) (count - amount) in
      Ok (t, d ++ r)
  end.
Definition copy (t : bT S) (offset : Z) (count : nat) := b_copy count t offset count.

(** utils/wvbufferstore.cc:170-196: poke *)
Fixpoint b_poke (fuel : nat) (t : bT S) (data : bytes) (offset : Z) : res (bT S) :=
  match data with
  | [] => Ok t
  | _ =>
      match fuel with
      | O => NoFuel
      | Datatypes.S fuel =>
          if boptpeek S t offset =? 0 then Fault else
          let amount := min (boptpeek S t offset) (length data) in
          let! (t, p) := bmpeek S t offset amount in
          let! t := bwr S t p (firstn amount data) in
          b_poke fuel t (skipn amount data) (offset + Z.of_nat amount)
      end
  end.
Definition poke (t : bT S) (data : bytes) (offset : Z) : res (bT S) :=
  let limit := Z.of_nat (bused S t) in
  if (offset <=? limit)%Z then
    let fin := (offset + Z.of_nat (length data))%Z in
    if (limit <=? fin)%Z then
      let tail := Z.to_nat (fin - limit) in
      let count := length data - tail in
      let! t := put t (skipn count data) in
      b_poke (length data) t (firstn count data) offset
    else b_poke (length data) t data offset
  else Fault.
End Helpers.

(** utils/wvbufferstore.cc:229-284: basicmerge from [B] into [A].  Two different
    buffers. *)
Section Merge.
Variables A B : bstore.
Fixpoint bm_loop (fuel : nat) (a : bT A) (b : bT B) (indata : option (bP B)) (inavail : nat)
    (outdata : option (bP A)) (outavail count : nat) : res (bT A * bT B) :=
  match fuel with
  | O => NoFuel
  | S fuel =>
      let! (b, indata, inavail) :=
        (if inavail =? 0 then
           if boptget B b =? 0 then Fault else
           let n := min (boptget B b) count in
           let! (b, p) := bget B b n in Ok (b, Some p, n)
         else Ok (b, indata, inavail)) in
      let! (a, outdata, outavail) :=
        (if outavail =? 0 then
           if boptalloc A a =? 0 then Fault else
           let n := min (boptalloc A a) count in
           let! (a, p) := balloc A a n in Ok (a, Some p, n)
         else Ok (a, outdata, outavail)) in
      let! ip := of_opt indata in
      let! op := of_opt outdata in
      if inavail <? outavail then
        let! d := brd B b ip inavail in
        let! a := bwr A a op d in
        let count := count - inavail in
        let outavail := outavail - inavail in
        if count =? 0 then let! a := bunalloc A a outavail in Ok (a, b)
        else bm_loop fuel a b None 0 (Some (padd A op inavail)) outavail count
      else
        let! d := brd B b ip outavail in
        let! a := bwr A a op d in
        let count := count - outavail in
        if count =? 0 then Ok (a, b)
        else bm_loop fuel a b (Some (padd B ip outavail)) (inavail - outavail) None 0 count
  end.
Definition basicmerge (a : bT A) (b : bT B) (count : nat) : res (bT A * bT B) :=
  if count =? 0 then Ok (a, b) else bm_loop count a b None 0 None 0 count.
End Merge.

(** ** WvLinkedBufferStore and WvDynBufStore *)
(** The list of sub-buffers; all of them are WvCircularBufStores made by
    newbuffer (or stolen from another WvDynBuf). *)
Record dyn := Dyn { d_list : list circ; d_total : nat; d_maxunget : nat }.
Definition dyn_new : dyn := Dyn [] 0 0.

Section Dyn.
(** granularity, minalloc, maxalloc (constructor arguments) and
    UNLIMITED_FREE_SPACE (include/wvbufstore.h:23, INT_MAX/2) *)
Variables (gran minalloc maxalloc unlimited : nat).

(** utils/wvbufferstore.cc:73-77 *)
Definition roundup (value boundary : nat) : nat :=
  let md := value mod boundary in if md =? 0 then value else value + boundary - md.

(** assert(!totalused || !list.isempty()), used in several members *)
Definition d_sane (t : dyn) : bool :=
  (d_total t =? 0) || negb (match d_list t with [] => true | _ => false end).

(** utils/wvbufferstore.cc:1140-1156 and 990-995; the size passed to
    WvCircularBufStore *)
Definition d_newsize (t : dyn) (minsize : nat) : nat :=
  let size := d_total t in
  let size := if size <? minsize * 2 then minsize * 2 else size in
  let size := if size <? minalloc then minalloc else if maxalloc <? size then maxalloc else size in
  let size := if size <? minsize then minsize else size in
  roundup size gran.
Definition d_newbuffer (t : dyn) (minsize : nat) : res circ :=
  if d_sane t then if gran =? 0 then Fault else Ok (circ_new (d_newsize t minsize)) else Fault.

(** utils/wvbufferstore.cc:808-816 *)
Definition d_optget (t : dyn) : nat :=
  match filter (fun c => negb (c_optget c =? 0)) (d_list t) with
  | [] => 0
  | c :: _ => c_optget c
  end.

(** utils/wvbufferstore.cc:872-894 *)
Definition d_ungettable (t : dyn) : nat :=
  match d_list t with [] => 0 | c :: _ => min (c_ungettable c) (d_maxunget t) end.

(** utils/wvbufferstore.cc:1037-1095, second half: "coalesce subsequent buffers
    into the first".  Result: the composite buffer and the rest of the list. *)
Fixpoint coalesce_loop (target : circ) (rest : list circ) (needed mustskip : nat) : res (list circ) :=
  match rest with
  | [] => Fault
  | c :: r =>
      let chunk := c_used c in
      if 0 <? chunk then
        let chunk := min chunk needed in
        let! (target, c) := basicmerge CircStore CircStore target c chunk in
        let needed := needed - chunk in
        if needed =? 0 then
          let! (target, _) := c_get target mustskip in
          Ok (target :: c :: r)
        else coalesce_loop target r needed mustskip
      else coalesce_loop target r needed mustskip
  end.

(** utils/wvbufferstore.cc:1037-1095: coalesce at the sub-buffer after [pre] *)
Definition d_coalesce (t : dyn) (i : nat) (count : nat) : res dyn :=
  let pre := firstn i (d_list t) in
  match skipn i (d_list t) with
  | [] => Fault
  | buf :: post =>
      let availused := c_used buf in
      if count <=? availused then Ok t else
      let needed := count - availused in
      if c_free buf <? needed then
        let! (mustskip, buf) :=
          (if (i =? 0) && negb (d_total t =? 0) then
             let n := d_ungettable t in
             let! buf := c_unget buf n in Ok (n, buf)
           else Ok (0, buf)) in
        let! nb := d_newbuffer t (count + mustskip) in
        let! l := coalesce_loop nb (buf :: post) (count + mustskip) mustskip in
        Ok (Dyn (pre ++ l) (d_total t) (d_maxunget t))
      else
        let! l := coalesce_loop buf post needed 0 in
        Ok (Dyn (pre ++ l) (d_total t) (d_maxunget t))
  end.

(** utils/wvbufferstore.cc:830-847: unlink leading empty buffers; do_xunlink of
    the first one resets maxungettable (1097-1107). *)
Fixpoint drop_empty (l : list circ) (mx : nat) : res (list circ * nat) :=
  match l with
  | [] => Fault
  | c :: r => if c_used c =? 0 then drop_empty r 0 else Ok (l, mx)
  end.

Definition dptr := (nat * nat)%type.

(** utils/wvbufferstore.cc:819-855 *)
Definition d_get (t : dyn) (count : nat) : res (dyn * dptr) :=
  if d_sane t then
    if count =? 0 then Ok (t, (0, 0)) else
    if count <=? d_total t then
      let! (l, mx) := drop_empty (d_list t) (d_maxunget t) in
      let t := Dyn l (d_total t - count) mx in
      let! t := (match l with
                 | c :: _ => if c_used c <? count then d_coalesce t 0 count else Ok t
                 | [] => Fault end) in
      match d_list t with
      | c :: r =>
          let! (c, p) := c_get c count in
          Ok (Dyn (c :: r) (d_total t) (d_maxunget t + count), (0, p))
      | [] => Fault
      end
    else Fault
  else Fault.

(** utils/wvbufferstore.cc:858-869 *)
Definition d_unget (t : dyn) (count : nat) : res dyn :=
  if d_sane t then
    if count =? 0 then Ok t else
    match d_list t with
    | [] => Fault
    | c :: r =>
        if count <=? d_maxunget t then
          let! c := c_unget c count in
          Ok (Dyn (c :: r) (d_total t + count) (d_maxunget t - count))
        else Fault
    end
  else Fault.

(** utils/wvbufferstore.cc:897-904 *)
Definition d_zap (t : dyn) : dyn := Dyn [] 0 0.

(** utils/wvbufferstore.cc:907-912 (WvLinkedBufferStore::free) and 1124-1127 *)
Definition l_free (t : dyn) : nat :=
  match rev (d_list t) with [] => 0 | c :: _ => c_free c end.
Definition d_free (t : dyn) : nat := unlimited.
(** utils/wvbufferstore.cc:915-920, 1117-1123 *)
Definition d_optalloc (t : dyn) : nat :=
  let avail := match rev (d_list t) with [] => 0 | c :: _ => c_optalloc c end in
  if avail =? 0 then unlimited else avail.

(** utils/wvbufferstore.cc:923-930, 1130-1138 *)
Definition d_alloc (t : dyn) (count : nat) : res (dyn * dptr) :=
  let! t := (if l_free t <? count then
               let! b := d_newbuffer t count in
               Ok (Dyn (d_list t ++ [b]) (d_total t + c_used b) (d_maxunget t))
             else Ok t) in
  if count =? 0 then Ok (t, (0, 0)) else
  match rev (d_list t) with
  | [] => Fault
  | c :: r =>
      let! (c, p) := c_alloc c count in
      Ok (Dyn (rev r ++ [c]) (d_total t + count) (d_maxunget t), (length r, p))
  end.

(** utils/wvbufferstore.cc:933-958; the list is reversed *)
Fixpoint unalloc_loop (rl : list circ) (count : nat) : res (list circ) :=
  if count =? 0 then Ok rl else
  match rl with
  | [] => Fault
  | c :: r =>
      if count <? c_used c then let! c := c_unalloc c count in Ok (c :: r)
      else unalloc_loop r (count - c_used c)
  end.
Definition d_unalloc (t : dyn) (count : nat) : res dyn :=
  if count <=? d_total t then
    let! rl := unalloc_loop (rev (d_list t)) count in
    Ok (Dyn (rev rl) (d_total t - count)
         (match rl with [] => 0 | _ => d_maxunget t end))
  else Fault.

(** utils/wvbufferstore.cc:1004-1034: the index of the sub-buffer and the offset
    in it *)
Fixpoint search_from (l : list circ) (i offset : nat) : option (nat * Z) :=
  match l with
  | [] => None
  | c :: r => if offset <? c_used c then Some (i, Z.of_nat offset)
              else search_from r (S i) (offset - c_used c)
  end.
Definition d_search (t : dyn) (offset : Z) : option (nat * Z) :=
  match d_list t with
  | [] => None
  | c :: _ =>
      if (offset <? 0)%Z then
        if Z.to_nat (- offset) <=? c_ungettable c then Some (0, offset) else None
      else search_from (d_list t) 0 (Z.to_nat offset)
  end.

(** utils/wvbufferstore.cc:967-976 *)
Definition d_optpeek (t : dyn) (offset : Z) : nat :=
  match d_search t offset with
  | None => 0
  | Some (i, o) => match nth_error (d_list t) i with Some c => c_peekable c o | None => 0 end
  end.
Definition d_peekable (t : dyn) (o : Z) : nat := base_peekable (d_total t) (d_ungettable t) o.

(** Replacing one element of the list. *)
Definition d_replace (l : list circ) (i : nat) (c : circ) : list circ :=
  firstn i l ++ c :: skipn (S i) l.

(** utils/wvbufferstore.cc:979-996 *)
Definition d_mpeek (t : dyn) (offset : Z) (count : nat) : res (dyn * dptr) :=
  if count =? 0 then Ok (t, (0, 0)) else
  match d_search t offset with
  | None => Fault
  | Some (i, o) =>
      let! c := of_opt (nth_error (d_list t) i) in
      let! t := (if c_peekable c o <? count then d_coalesce t i count else Ok t) in
      let! c := of_opt (nth_error (d_list t) i) in
      let! (c, p) := c_mpeek c o count in
      Ok (Dyn (d_replace (d_list t) i c) (d_total t) (d_maxunget t), (i, p))
  end.

Definition d_rd (t : dyn) (p : dptr) (n : nat) : res bytes :=
  if n =? 0 then Ok [] else
  let! c := of_opt (nth_error (d_list t) (fst p)) in c_rd c (snd p) n.
Definition d_wr (t : dyn) (p : dptr) (d : bytes) : res dyn :=
  match d with
  | [] => Ok t
  | _ =>
      let! c := of_opt (nth_error (d_list t) (fst p)) in
      let! c := c_wr c (snd p) d in
      Ok (Dyn (d_replace (d_list t) (fst p) c) (d_total t) (d_maxunget t))
  end.

Definition DynStore : bstore :=
  BStore dyn dptr (fun p k => (fst p, snd p + k)) d_total d_free d_ungettable d_total
    d_optget d_optalloc d_peekable d_optpeek
    d_get d_unget d_alloc d_unalloc d_mpeek d_zap d_rd d_wr.

End Dyn.

(** utils/wvbufferstore.cc:199-226: merge of two WvDynBufs: whole sub-buffers
    are moved while they fit, then bytes are copied.  759-781: append/unlink. *)
Fixpoint steal (fuel : nat) (a b : dyn) (count : nat) : res (dyn * dyn * nat) :=
  match fuel with
  | O => NoFuel
  | S fuel =>
      match d_list b with
      | [] => Ok (a, b, count)
      | buf :: r =>
          let avail := c_used buf in
          if count <? avail then Ok (a, b, count) else
          let b := Dyn r (d_total b - avail) 0 in
          let a := Dyn (d_list a ++ [buf]) (d_total a + avail) (d_maxunget a) in
          if count - avail =? 0 then Ok (a, b, 0)
          else steal fuel a b (count - avail)
      end
  end.
(** growth parameters of a WvDynBuf: granularity, minalloc, maxalloc, unlimited *)
Record dparams := DParams { p_gran : nat; p_minalloc : nat; p_maxalloc : nat; p_unlimited : nat }.
Definition DynStoreP (p : dparams) : bstore :=
  DynStore (p_gran p) (p_minalloc p) (p_maxalloc p) (p_unlimited p).
Definition dyn_merge (pa pb : dparams) (a b : dyn) (count : nat) : res (dyn * dyn) :=
  if count =? 0 then Ok (a, b) else
  let! (a, b, count) := steal (S (length (d_list b))) a b count in
  basicmerge (DynStoreP pa) (DynStoreP pb) a b count.


(** ** A client *)
(** A client performing a list of operations, each only if the documented
    precondition holds according to the buffer's own observers; the events say
    what was done and what came back. *)
Inductive buf_op :=
| OGet (n : nat) | OUnget (n : nat) | OPut (d : bytes) | OAlloc (d : bytes)
| OUnalloc (n : nat) | OPeek (off : Z) (n : nat) | OCopy (off : Z) (n : nat)
| OPoke (off : nat) (d : bytes) | OMove (n : nat) | OZap.
Inductive buf_event := Done (o : buf_op) (out : bytes) | Skipped (o : buf_op).

Section Client.
Variable S : bstore.
Definition legal (t : bT S) (o : buf_op) : bool :=
  match o with
  | OGet n | OMove n => n <=? bused S t
  | OUnget n => n <=? bungettable S t
  | OPut d | OAlloc d => length d <=? bfree S t
  | OUnalloc n => n <=? bunallocable S t
  | OPeek off n => (n <=? boptpeek S t off) && (n <=? bpeekable S t off)
  | OCopy off n => n <=? bpeekable S t off
  | OPoke off d => (off <=? bused S t) && (off + length d - bused S t <=? bfree S t)
  | OZap => true
  end.
Definition exec (t : bT S) (o : buf_op) : res (bT S * bytes) :=
  match o with
  | OGet n => get_read S t n
  | OMove n => move S t n
  | OUnget n => let! t := bunget S t n in Ok (t, [])
  | OPut d => let! t := put S t d in Ok (t, [])
  | OAlloc d => let! t := fastput S t d in Ok (t, [])
  | OUnalloc n => let! t := bunalloc S t n in Ok (t, [])
  | OPeek off n => peek_read S t off n
  | OCopy off n => copy S t off n
  | OPoke off d => let! t := poke S t d (Z.of_nat off) in Ok (t, [])
  | OZap => Ok (bzap S t, [])
  end.
Fixpoint client (t : bT S) (ops : list buf_op) : res (bT S * list buf_event) :=
  match ops with
  | [] => Ok (t, [])
  | o :: r =>
      if legal t o then
        let! (t, out) := exec t o in
        let! (t, es) := client t r in Ok (t, Done o out :: es)
      else let! (t, es) := client t r in Ok (t, Skipped o :: es)
  end.
End Client.

(** ** The kinds of buffer *)
(** WvCircularBuf, WvInPlaceBuf, WvDynBuf *)
Inductive kind := KCirc (size : nat) | KInPlace (size : nat) | KDyn (p : dparams).
Definition store_of (k : kind) : bstore :=
  match k with KCirc _ => CircStore | KInPlace _ => InPlaceStore | KDyn p => DynStoreP p end.
Definition start (k : kind) : bT (store_of k) :=
  match k with KCirc n => circ_new n | KInPlace n => inpl_new n | KDyn _ => dyn_new end.
(** utils/wvbufferstore.cc:199-226: merge; sub-buffers are stolen only between
    two WvDynBufs *)
Definition merge (ka kb : kind) : bT (store_of ka) -> bT (store_of kb) -> nat ->
    res (bT (store_of ka) * bT (store_of kb)) :=
  match ka as ka, kb as kb return bT (store_of ka) -> bT (store_of kb) -> nat ->
    res (bT (store_of ka) * bT (store_of kb)) with
  | KDyn pa, KDyn pb => dyn_merge pa pb
  | ka, kb => basicmerge (store_of ka) (store_of kb)
  end.
