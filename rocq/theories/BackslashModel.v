(** Model of utils/wvbackslash.cc.  Input buffer: one contiguous in-place buffer
    (WvInPlaceBuf/WvConstInPlaceBuf), so optgettable() is all that is left and
    unget() can go back to the start of the block.  Output buffer: [free] is
    [None] for a WvDynBuf, [Some n] for a buffer with n bytes free.
    Simplification: a WvDynBuf's free() is INT_MAX/2 (include/wvbufstore.h:23),
    treated as unlimited. *)
From Verif Require Import Base Ctype EncoderModel.

(** utils/wvbackslash.cc:10-11 *)
Definition escapein : bytes := map ascii_of_nat [7; 8; 12; 10; 13; 9; 11].
Definition escapeout : bytes := B "abfnrtv".

Definition add_char (base : byte) (n : nat) : byte := ascii_of_nat ((cc base + n) mod 256).

(** utils/wvbackslash.cc:13-16: (digit < 10 ? '0' : 'a' - 10) + digit *)
Definition tohex (digit : nat) : byte :=
  if digit <? 10 then add_char "0" digit else ascii_of_nat (cc "a" - 10 + digit).

(** utils/wvbackslash.cc:18-27; -1 is [None]. *)
Definition fromhex (c : byte) : option nat :=
  if isdigit c then Some (cc c - cc "0")
  else if (cc "A" <=? cc c) && (cc c <=? cc "F") then Some (cc c - cc "A" + 10)
  else if (cc "a" <=? cc c) && (cc c <=? cc "f") then Some (cc c - cc "a" + 10)
  else None.

(** utils/wvbackslash.cc:29-34 *)
Definition fromoctal (c : byte) : option nat :=
  if (cc "0" <=? cc c) && (cc c <=? cc "7") then Some (cc c - cc "0") else None.

Definition lt_room (free : option nat) (n : nat) : bool :=
  match free with None => false | Some k => k <? n end.
Definition minus_room (free : option nat) (n : nat) : option nat :=
  match free with None => None | Some k => Some (k - n) end.

(** Result of one _encode call of the encoder: bytes appended to the output,
    how many bytes the output buffer was rewound (unget on the output buffer),
    the return value.  The whole input has been taken out of the input buffer. *)
Record bs_out := BsOut { bs_bytes : bytes; bs_rewound : nat; bs_ret : bool }.

Definition bs_emit (o : bytes) (x : res bs_out) : res bs_out :=
  let! r := x in Ok (BsOut (o ++ bs_bytes r) (bs_rewound r) (bs_ret r)).

(** utils/wvbackslash.cc:46-100.  [unread] is how many bytes the output buffer
    could unget().  When room runs out the code calls outbuf.unget(len - i):
    an assertion failure if the output buffer cannot unget that much. *)
Fixpoint bs_encode (nasties : bytes) (flush : bool) (unread : nat) (avail : option nat) (data : bytes)
  : res bs_out :=
  let short := if length data <=? unread then Ok (BsOut [] (length data) (negb flush)) else Fault in
  match data with
  | [] => Ok (BsOut [] 0 true)
  | c :: r =>
      if lt_room avail 1 then short else
      let foundnasty := if Ascii.eqb c nul then None else strchr nasties c in
      let foundspecial := if Ascii.eqb c nul then None
                          else match foundnasty with Some _ => None | None => strchr escapein c end in
      match foundnasty, foundspecial, negb (Ascii.eqb c nul) && isprint c with
      | None, None, true =>
          bs_emit [c] (bs_encode nasties flush unread (minus_room avail 1) r)
      | _, _, _ =>
          if lt_room avail 2 then short else
          match foundnasty, foundspecial with
          | Some _, _ => bs_emit ["\"%char; c] (bs_encode nasties flush unread (minus_room avail 2) r)
          | None, Some k =>
              let! e := of_opt (nth_error escapeout k) in
              bs_emit ["\"%char; e] (bs_encode nasties flush unread (minus_room avail 2) r)
          | None, None =>
              if lt_room avail 4 then short else
              bs_emit ["\"%char; "x"%char; tohex (cc c / 16); tohex (cc c mod 16)]
                (bs_encode nasties flush unread (minus_room avail 4) r)
          end
      end
  end.

(** The encoder writing to a WvDynBuf.  Default nasties: backslash and quote
    (include/wvbackslash.h:34). *)
Definition BackslashEncoder (nasties : bytes) : encoder :=
  Encoder unit tt
    (fun _ inp flush =>
       let! r := bs_encode nasties flush 0 None inp in
       Ok (EncOut tt [] (bs_bytes r) (bs_ret r) false false))
    (fun _ => Ok ([], true)).

(** include/wvbackslash.h:66-69; [value] -1 is [None]; the buffer tmpbuf is a
    WvInPlaceBuf of 4 bytes: [t_read] bytes already read, [t_data] unread. *)
Inductive bstate := Initial | Escape | Hex1 | Hex2 | Octal1 | Octal2 | Octal3.
Record bdec := BDec { b_state : bstate; b_value : option nat; t_read : nat; t_data : bytes }.

(** utils/wvbackslash.cc:226-232 *)
Definition bdec_reset : bdec := BDec Initial None 0 [].

(** WvInPlaceBuf of size 4: putch and unalloc assert room. *)
Definition tput (s : bdec) (c : byte) : res bdec :=
  if t_read s + length (t_data s) <? 4 then Ok (BDec (b_state s) (b_value s) (t_read s) (t_data s ++ [c]))
  else Fault.
Definition tunalloc (s : bdec) (n : nat) : res bdec :=
  if n <=? length (t_data s)
  then Ok (BDec (b_state s) (b_value s) (t_read s) (firstn (length (t_data s) - n) (t_data s)))
  else Fault.
Definition set_state (s : bdec) (k : bstate) : bdec := BDec k (b_value s) (t_read s) (t_data s).
Definition set_value (s : bdec) (v : nat) : bdec := BDec (b_state s) (Some v) (t_read s) (t_data s).

(** utils/wvbackslash.cc:235-260: new state, free space, output, return value. *)
Definition flushtmpbuf (s : bdec) (free : option nat) : res (bdec * option nat * bytes * bool) :=
  match b_state s with
  | Initial =>
      let! s := (match b_value s with
                 | Some v => let! s' := tput s (ascii_of_nat (v mod 256)) in
                             Ok (BDec (b_state s') None (t_read s') (t_data s'))
                 | None => Ok s
                 end) in
      let len := length (t_data s) in
      if len =? 0 then Ok (s, free, [], true) else
      let avail := match free with None => len | Some f => min f len end in
      let out := firstn avail (t_data s) in
      if len - avail =? 0 then Ok (BDec (b_state s) (b_value s) 0 [], minus_room free avail, out, true)
      else Ok (BDec (b_state s) (b_value s) (t_read s + avail) (skipn avail (t_data s)),
               minus_room free avail, out, false)
  | _ => Ok (s, free, [], true)
  end.

(** utils/wvbackslash.cc:131-206: the switch for one character.  The flag is
    true when the code executes [i -= 1]. *)
Definition bs_switch (s : bdec) (c : byte) : res (bdec * bool) :=
  match b_state s with
  | Initial =>
      let s := if Ascii.eqb c "\" then set_state s Escape else s in
      let! s := tput s c in Ok (s, false)
  | Escape =>
      if (cc "0" <=? cc c) && (cc c <=? cc "3") then
        let! s := tunalloc s 1 in
        Ok (set_state (set_value s (cc c - cc "0")) Octal1, false)
      else if Ascii.eqb c "x" then
        let! s := tput s c in Ok (set_state s Hex1, false)
      else if Ascii.eqb c newline then
        let! s := tunalloc s 1 in let! s := tput s newline in Ok (set_state s Initial, false)
      else
        let found := strchr escapeout c in
        let! s := tunalloc s 1 in
        (* a NUL finds the terminator of both tables *)
        let! c := (match found with
                   | Some k => of_opt (nth_error (escapein ++ [nul]) k)
                   | None => Ok c end) in
        let! s := tput s c in Ok (set_state s Initial, false)
  | Hex1 =>
      match fromhex c with
      | Some d => let! s := tunalloc s 2 in Ok (set_state (set_value s d) Hex2, false)
      | None => Ok (set_state s Initial, true)
      end
  | Hex2 =>
      match fromhex c with
      | Some d => Ok (set_state (set_value s (match b_value s with Some v => v * 16 + d | None => d end)) Initial, false)
      | None => Ok (set_state s Initial, true)
      end
  | Octal1 | Octal2 | Octal3 =>
      match fromoctal c with
      | Some d =>
          let s := set_value s (match b_value s with Some v => v * 8 + d | None => d end) in
          Ok (match b_state s with
              | Octal1 => set_state s Octal2 | Octal2 => set_state s Octal3 | _ => set_state s Initial
              end, false)
      | None => Ok (set_state s Initial, true)
      end
  end.

Definition no_room (free : option nat) : bool :=
  match free with Some 0 => true | _ => false end.

(** utils/wvbackslash.cc:122-214: the loops.  [p] is the offset of the next
    character in the input block.  After the switch the code flushes; if the
    output is full it executes inbuf.unget(len - i) and leaves only the inner
    loop, so the next round starts at the character it has just processed.
    [i -= 1] at i = 0 wraps around and is undone by the loop's ++i, except that
    unget then asks for one byte too many. *)
Fixpoint bs_loop (fuel : nat) (data : bytes) (s : bdec) (free : option nat) (p : nat)
  : res (bdec * option nat * bytes) :=
  match fuel with
  | O => NoFuel
  | S fuel =>
      match nth_error data p with
      | None => Ok (s, free, [])
      | Some c =>
          let! (s, back) := bs_switch s c in
          let! (s, free, out, _) := flushtmpbuf s free in
          let! p' := (if no_room free
                      then if back then (match p with O => Fault | S q => Ok q end) else Ok p
                      else Ok (if back then p else S p)) in
          let! (s, free, out2) := bs_loop fuel data s free p' in
          Ok (s, free, out ++ out2)
      end
  end.

(** utils/wvbackslash.cc:114-224: one _encode call: state, free space left, rest
    of input, output, return value.  [loop_fuel] bounds the number of character
    steps: each is processed at most twice while there is room. *)
Definition loop_fuel (data : bytes) : nat := 2 * length data + 30.
Definition bs_decode (s : bdec) (data : bytes) (free : option nat) (flush : bool)
  : res (bdec * option nat * bytes * bytes * bool) :=
  if no_room free then Ok (s, free, data, [], match data with [] => true | _ => false end) else
  let! (s, free, o1, ok) := flushtmpbuf s free in
  if negb ok then Ok (s, free, data, o1, false) else
  let! (s, free, o2) := bs_loop (loop_fuel data) data s free 0 in
  if flush then
    let! (s, free, o3, ok) := flushtmpbuf (set_state s Initial) free in
    Ok (s, free, [], o1 ++ o2 ++ o3, ok)
  else Ok (s, free, [], o1 ++ o2, true).

(** The decoder writing to a WvDynBuf. *)
Definition BackslashDecoder : encoder :=
  Encoder bdec bdec_reset
    (fun s inp flush =>
       let! (s, _, rest, out, ret) := bs_decode s inp None flush in
       Ok (EncOut s rest out ret false false))
    (fun _ => Ok ([], true)).
