(** C84: the attributes of a stream (WvAttrs). *)
From Verif Require Import Base AttrSpec AttrModel AttrProofs.

(** After any history of set() nothing was read or written outside the block
    and get() gives for every name the value that the history says. *)
Theorem C84_map : forall h, Forall (fun p => cs (fst p) /\ cs (snd p)) h ->
  exists a, sets create h = Ok a /\ forall name, get a (Some name) = Ok (holds h name).
Proof.
  intros h F. destruct (sets_ok h [] create F inv_create) as (l & a & S & I & L). exists a. split; [exact S|].
  intros name. rewrite (get_ok l a name I), L. reflexivity.
Qed.
Print Assumptions C84_map.

(** A copy has the same values, and goes its own way from there. *)
Theorem C84_copy : forall h1 h2, Forall (fun p => cs (fst p) /\ cs (snd p)) h1 -> Forall (fun p => cs (fst p) /\ cs (snd p)) h2 ->
  exists a b c, sets create h1 = Ok a /\ copy a = Ok b /\ sets b h2 = Ok c /\
    forall name, get b (Some name) = Ok (holds h1 name) /\ get c (Some name) = Ok (holds (h1 ++ h2) name).
Proof.
  intros h1 h2 F1 F2. destruct (sets_ok h1 [] create F1 inv_create) as (l & a & S & I & L).
  destruct (copy_ok l a I) as (b & C & J). destruct (sets_ok h2 l b F2 J) as (l2 & c & S2 & I2 & L2).
  exists a, b, c. split; [exact S|]. split; [exact C|]. split; [exact S2|]. intros name.
  rewrite (get_ok l b name J), (get_ok l2 c name I2), L2, L. unfold holds. rewrite fold_left_app. split; reflexivity.
Qed.
Print Assumptions C84_copy.

(** The block is just as long as what it holds: the bytes of the names and
    values there are, two more for each, and one. *)
Theorem C84_size : forall h, Forall (fun p => cs (fst p) /\ cs (snd p)) h ->
  exists a l, sets create h = Ok a /\ NoDup (map fst l) /\ (forall n v, In (n, v) l -> holds h n = Some v) /\
    (forall n v, holds h n = Some v -> In (n, v) l) /\
    match attrlist a with
    | Some m => length m = fold_right (fun p s => length (fst p) + length (snd p) + 2 + s) 1 l
    | None => l = []
    end.
Proof.
  intros h F. destruct (sets_ok h [] create F inv_create) as (l & a & S & I & L). exists a, l. split; [exact S|].
  assert (LK : forall n, look l n = holds h n) by (intros n; apply L).
  destruct I as (F1 & N & LA & E). split; [exact N|]. split; [|split].
  - intros n v I. rewrite <- LK. apply in_split in I. destruct I as (l1 & l2 & ->). apply look_mid.
    rewrite map_app in N. cbn in N. apply NoDup_remove_2 in N. intros H. apply N. apply in_or_app. left. exact H.
  - intros n v H. rewrite <- LK in H. clear - H. induction l as [|[k w] l IH]; [discriminate|]. cbn in H.
    destruct (list_eq_dec Ascii.ascii_dec k n) as [->|D]; [injection H as ->; left; reflexivity|right; apply IH; exact H].
  - destruct E as [E|[-> E]]; rewrite E; [|reflexivity]. rewrite map_length. clear. induction l as [|[k v] l IH]; [reflexivity|].
    rewrite recs_cons. cbn [fst snd fold_right]. rewrite app_length in IH. cbn [length] in IH.
    rewrite !app_length. cbn [length]. rewrite !app_length. cbn [length]. lia.
Qed.
Print Assumptions C84_size.

(** get() of a null name crashes if there is any attribute, and is null
    otherwise. *)
Theorem C84_null_refuted : exists h a, Forall (fun p => cs (fst p) /\ cs (snd p)) h /\ sets create h = Ok a /\ get a None = Fault.
Proof.
  exists [(Some (B "peer"), Some (B "x"))]. eexists. split; [|split; vm_compute; reflexivity].
  constructor; [|constructor]. split; cbn; intros H; repeat (destruct H as [H|H]; [discriminate|]); exact H.
Qed.
Print Assumptions C84_null_refuted.

Example C84_ex :
  exists a, sets create [(Some (B "a"), Some (B "1")); (Some (B "bb"), Some (B "22")); (Some (B "a"), Some (B "3")); (Some (B "bb"), None);
     (Some (B "bb"), Some (B "4")); (None, Some (B "5"))] = Ok a /\
    attrlist a = Some (map Some (B "a" ++ [nul] ++ B "3" ++ [nul] ++ B "bb" ++ [nul] ++ B "4" ++ [nul; nul])) /\
    get a (Some (B "bb")) = Ok (Some (B "4")) /\ get a (Some (B "b")) = Ok None.
Proof. eexists. split; [vm_compute; reflexivity|]. split; [reflexivity|]. split; vm_compute; reflexivity. Qed.
