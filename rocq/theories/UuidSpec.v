(** UUIDs in text form. *)
From Verif Require Import Base.
Local Open Scope char_scope.

(** 128 bits as one number of 4, 2, 2 and eight times one byte. *)
Record uuid := Uuid { data1 : Z; data2 : Z; data3 : Z; data4 : list Z }.
Definition valid (u : uuid) : Prop :=
  (0 <= data1 u < 2 ^ 32 /\ 0 <= data2 u < 2 ^ 16 /\ 0 <= data3 u < 2 ^ 16)%Z /\
  length (data4 u) = 8 /\ Forall (fun b => 0 <= b < 256)%Z (data4 u).

(** Hexadecimal digits in either case, the first the most significant. *)
Inductive digit : byte -> Z -> Prop :=
| decimal c : 48 <= nat_of_ascii c <= 57 -> digit c (Z.of_nat (nat_of_ascii c) - 48)
| small c : 97 <= nat_of_ascii c <= 102 -> digit c (Z.of_nat (nat_of_ascii c) - 87)
| capital c : 65 <= nat_of_ascii c <= 70 -> digit c (Z.of_nat (nat_of_ascii c) - 55).
Inductive number : bytes -> Z -> Prop :=
| number_nil : number [] 0
| number_snoc s c v d : number s v -> digit c d -> number (s ++ [c]) (16 * v + d).

(** Two digits for each byte. *)
Inductive octets : bytes -> list Z -> Prop :=
| octets_nil : octets [] []
| octets_cons a b s v vs : number [a; b] v -> octets s vs -> octets (a :: b :: s) (v :: vs).

(** 8-4-4-4-12 digits *)
Definition bare (s : bytes) (u : uuid) : Prop :=
  exists a b c d e, s = a ++ "-" :: b ++ "-" :: c ++ "-" :: d ++ "-" :: e /\
    length a = 8 /\ number a (data1 u) /\ length b = 4 /\ number b (data2 u) /\ length c = 4 /\ number c (data3 u) /\
    octets d (firstn 2 (data4 u)) /\ octets e (skipn 2 (data4 u)) /\ length (data4 u) = 8.
Definition braced (s : bytes) (u : uuid) : Prop := exists t, s = "{" :: t ++ ["}"] /\ bare t u.
