(** Factories registered under names, the newest first. *)
From Verif Require Import Base IniSpec ConfSpec.
Local Open Scope char_scope.

(** A moniker " name:rest " *)
Definition names (s name rest : bytes) : Prop :=
  exists a t b, s = a ++ t ++ b /\ Forall white a /\ Forall white b /\ trimmed t /\
    ~ In ":" name /\ (t = name ++ ":" :: rest \/ t = name /\ rest = []).

(** What programs do.  [New h i id f o] makes the registration object [h], for
    interface [i]; [Begin c i s] is the call [c] of wvcreate() for interface [i] up to the point
    where the factory runs, [End c] its return. *)
Inductive op :=
| New (h i : nat) (id : bytes) (f : nat) (override : bool)
| Destroy (h : nat)
| Begin (c i : nat) (s : bytes)
| End (c : nat).

(** A live registration object and an unfinished call. *)
Record moniker := Moniker { handle : nat; iface : nat; name : bytes; factory : nat }.
Record call := Call { number : nat; call_iface : nat }.

(** The first is the newest of its name. *)
Inductive newest (i : nat) (id : bytes) : list moniker -> moniker -> Prop :=
| here m ms : iface m = i -> name m = id -> newest i id (m :: ms) m
| there m ms m' : (iface m <> i \/ name m <> id) -> newest i id ms m' -> newest i id (m :: ms) m'.

(** One step: the answer is the factory that runs, with its argument, if the
    step is a call. *)
Inductive step : list moniker * list call -> op -> list moniker * list call -> option (option (nat * bytes)) -> Prop :=
| step_new ms cs h i id f o : ~ In h (map handle ms) ->
    (o = false -> forall m, In m ms -> iface m <> i \/ name m <> id) ->
    step (ms, cs) (New h i id f o) (Moniker h i id f :: ms, cs) None
| step_destroy ms1 m ms2 cs : newest (iface m) (name m) (ms1 ++ m :: ms2) m ->
    step (ms1 ++ m :: ms2, cs) (Destroy (handle m)) (ms1 ++ ms2, cs) None
| step_found ms cs c i s id rest m : ~ In c (map number cs) -> names s id rest -> newest i id ms m ->
    step (ms, cs) (Begin c i s) (ms, Call c i :: cs) (Some (Some (factory m, rest)))
| step_unknown ms cs c i s id rest : ~ In c (map number cs) -> names s id rest ->
    (forall m, In m ms -> iface m <> i \/ name m <> id) ->
    step (ms, cs) (Begin c i s) (ms, Call c i :: cs) (Some None)
| step_end ms cs1 c cs2 :
    step (ms, cs1 ++ c :: cs2) (End (number c)) (ms, cs1 ++ cs2) None.

Inductive steps : list moniker * list call -> list op -> list moniker * list call -> list (option (option (nat * bytes))) -> Prop :=
| steps_nil x : steps x [] x []
| steps_cons x o y ops z r rs : step x o y r -> steps y ops z rs -> steps x (o :: ops) z (r :: rs).
