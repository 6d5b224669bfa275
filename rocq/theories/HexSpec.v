(** Hexadecimal notation, independent of the model. *)
From Verif Require Import Base.

Definition digits_lower : bytes := B "0123456789abcdef".
Definition digits_upper : bytes := B "0123456789ABCDEF".

(** Two digits per byte, most significant first. *)
Definition hex_text (digits : bytes) (l : bytes) : bytes :=
  flat_map (fun c => [nth (nat_of_ascii c / 16) digits nul;
                      nth (nat_of_ascii c mod 16) digits nul]) l.

(** [d] denotes the value [v] in either case. *)
Definition denotes (d : byte) (v : nat) : Prop :=
  v < 16 /\ (d = nth v digits_lower nul \/ d = nth v digits_upper nul).

Definition white : bytes :=
  [" "%char; ascii_of_nat 9; ascii_of_nat 10; ascii_of_nat 11; ascii_of_nat 12; ascii_of_nat 13].

(** [hex_reads t l]: [t] spells [l] in hexadecimal, in any mix of cases and
    with white space anywhere. *)
Inductive hex_reads : bytes -> bytes -> Prop :=
| hr_nil : hex_reads [] []
| hr_space c t l : In c white -> hex_reads t l -> hex_reads (c :: t) l
| hr_byte d1 ws d2 t c l :
    denotes d1 (nat_of_ascii c / 16) -> denotes d2 (nat_of_ascii c mod 16) ->
    (forall x, In x ws -> In x white) ->
    hex_reads t l -> hex_reads (d1 :: ws ++ d2 :: t) (c :: l).
