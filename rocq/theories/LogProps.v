(** C42 and C52: logs. *)
From Verif Require Import Base BaseFacts Ctype LogModel LogSpec LogProofs LogProofs2.
Local Open Scope Z_scope.

(** The level names, as printed. *)
Definition names : list bytes := map B ["Crit"; "Err"; "Warn"; "Notice"; "Info"; "*1"; "*2"; "*3"; "*4"; "*5"]%string.
(** Whatever is logged, in whatever fragments: what the console writes is the lines
    heard, each with its source and level. *)
Theorem C52_console rules max split ops h : heard rules max (map said ops) h -> Forall proper h ->
  exists r e, run (new max rules split) (ops ++ [Flush]) = Ok (r, e) /\
    flat_map console e = flat_map (fun p => name_of (src p) ++ B "<" ++ nth (Z.to_nat (lvl p)) names [] ++ B ">: " ++ txt p ++ [newline]) (lines split h).
Proof.
  intros H P. destruct (new_lines rules max split ops h H P) as (r & e & E & F). exists r, e. split; [exact E|]. rewrite console_flat, F, flat_map_flat_map. apply flat_map_ext. intros p. rewrite line_out. unfold pfx. rewrite <- !app_assoc. reflexivity.
Qed.
(** What is heard is determined whenever every name is known or there are no rules. *)
Theorem C52_decided rules max l : rules = [] \/ Forall (fun o => match o with Some p => src p <> None | None => True end) l -> exists h, heard rules max l h.
Proof.
  intros C. assert (D : forall s, rules = [] \/ s <> None -> exists th, limit max rules s th).
  { intros s K. clear C l. revert K. induction rules as [|[sub l] r IH]; intros K; [exists max; constructor|]. destruct K as [K|K]; [discriminate|]. destruct s as [n|]; [|congruence]. destruct (strstr (map tolower n) sub) eqn:E.
    - apply strstr_ok in E. exists l. constructor. exact E.
    - destruct (IH (or_intror K)) as (th & T). exists th. constructor; [|exact T]. intros Q. apply strstr_ok in Q. congruence. }
  induction l as [|[p|] l IH]; [exists []; constructor| |].
  - destruct IH as (h & H). { destruct C as [C|C]; [left; exact C|right; exact (Forall_inv_tail C)]. } destruct (D (src p)) as (th & T). { destruct C as [C|C]; [left; exact C|right; exact (Forall_inv C)]. }
    destruct (Z_le_gt_dec (lvl p) th); [exists (Some p :: h); eapply heard_yes; eassumption|]. exists h. eapply heard_no; [exact T|lia|exact H].
  - destruct IH as (h & H). { destruct C as [C|C]; [left; exact C|right; exact (Forall_inv_tail C)]. } exists (None :: h). constructor. exact H.
Qed.
(** A source without a name, when there are rules, is a null pointer passed to strstr;
    a level that does not exist is read from beyond the table of names. *)
Theorem C52_nameless_refuted : exists r, log (new 10 [(B "x", 5)] false) None 1 (B "hi") r = Fault.
Proof. exists 7. reflexivity. Qed.
Theorem C52_level_refuted : exists r, log (new 10 [] false) (Some (B "app")) 10 (B "hi") r = Fault.
Proof. exists 7. reflexivity. Qed.

Lemma to_buffer rules max split ops h k : heard rules max (map said ops) h -> Forall proper h ->
  exists ms, messages k (new max rules split) ops = Ok ms /\ map strip ms = newest (size_t k) (map trim (lines split h)).
Proof.
  intros H P. destruct (new_lines rules max split ops h H P) as (r & e & E & F). unfold messages. rewrite E. cbn [bind]. eexists. split; [reflexivity|]. rewrite buf_flat, F, buf_lines; [|apply Forall_forall; intros p I; split; [eapply (proj1 (Forall_forall _ _) (lines_nul split h)); exact I|apply (proj1 (Forall_forall _ _) (lines_proper split h P) p I)]|reflexivity].
  apply kept. apply Forall_map. apply (lines_proper split h P).
Qed.
Definition same_but_trimmed (l m : piece) : Prop := src m = src l /\ lvl m = lvl l /\ trimmed (txt l) (txt m).
Lemma trims l : Forall2 same_but_trimmed l (map trim l).
Proof. induction l; constructor; [|assumption]. repeat split. apply trim_ok. Qed.
(** The messages of a log buffer: the lines heard, trimmed, of which it holds in
    order the newest [k] of each source and level. *)
Theorem C42_newest rules max split ops h k : heard rules max (map said ops) h -> Forall proper h -> 0 <= k < 2 ^ 31 ->
  exists ms all, messages k (new max rules split) ops = Ok ms /\ Forall2 same_but_trimmed (lines split h) all /\
    map (fun m => {| src := source m; lvl := level m; txt := message m |}) ms = newest k all.
Proof.
  intros H P K. destruct (to_buffer rules max split ops h k H P) as (ms & E & M). exists ms, (map trim (lines split h)). split; [exact E|]. split; [apply trims|]. replace k with (size_t k) by (unfold size_t; apply Z.mod_small; lia). exact M.
Qed.
(** A negative limit keeps everything. *)
Theorem C42_negative rules max split ops h k : heard rules max (map said ops) h -> Forall proper h -> - 2 ^ 31 <= k < 0 ->
  Z.of_nat (length (lines split h)) < 2 ^ 63 -> exists ms, messages k (new max rules split) ops = Ok ms /\
    Forall2 same_but_trimmed (lines split h) (map (fun m => {| src := source m; lvl := level m; txt := message m |}) ms).
Proof.
  intros H P K L. destruct (to_buffer rules max split ops h k H P) as (ms & E & M). exists ms. split; [exact E|]. fold mk. change (fun m => {| src := source m; lvl := level m; txt := message m |}) with strip. rewrite M, newest_all; [apply trims|]. rewrite map_length. unfold size_t. replace (k mod 2 ^ 64) with (k + 2 ^ 64); [lia|]. apply (Z.mod_unique k (2 ^ 64) (-1)); lia.
Qed.
(** Feeding the messages to another receiver joins neighbours of one source and
    level into one line. *)
Theorem C42_feed_refuted : exists ops ms ms', messages 9 (new 10 [] false) ops = Ok ms /\
  messages 9 (new 10 [] false) (feed ms 5) = Ok ms' /\ map message ms = [B "one"; B "two"] /\ map message ms' = [B "onetwo"].
Proof.
  exists [Log (Some (B "app")) 4 (B "one" ++ [newline] ++ B "two" ++ [newline]) 3]. do 2 eexists. split; [vm_compute; reflexivity|]. split; [vm_compute; reflexivity|]. split; reflexivity.
Qed.

Definition ex_ops : list op :=
  [Log (Some (B "App")) 4 (B "one" ++ [newline] ++ B " t") 3; Log (Some (B "App")) 4 (B "wo" ++ [newline; newline]) 9;
   Log (Some (B "db")) 6 (B "noise") 9; Log (Some (B "App")) 4 (B "three") 9; Log (Some (B "db")) 5 (B "x" ++ [tab]) 9; Log (Some (B "App")) 9 (B "deep") 9].
Definition ex_heard : list (option piece) :=
  [Some (mk (Some (B "App")) 4 (B "one" ++ [newline] ++ B " t")); Some (mk (Some (B "App")) 4 (B "wo" ++ [newline; newline]));
   Some (mk (Some (B "App")) 4 (B "three")); Some (mk (Some (B "db")) 5 (B "x" ++ [tab])); Some (mk (Some (B "App")) 9 (B "deep"))].
Lemma no_sub s sub : strstr s sub = false -> ~ contains s sub.
Proof. intros E Q. apply strstr_ok in Q. congruence. Qed.
Example ex_heard_ok : heard [(B "app", 9)] 5 (map said ex_ops) ex_heard /\ Forall proper ex_heard.
Proof.
  assert (A : limit 5 [(B "app", 9)] (Some (B "App")) 9) by (constructor; apply strstr_ok; reflexivity).
  assert (D : limit 5 [(B "app", 9)] (Some (B "db")) 5) by (apply limit_miss; [apply no_sub; reflexivity|constructor]).
  split; [|repeat constructor; cbn; lia]. unfold ex_ops, ex_heard. cbn [map said].
  eapply heard_yes; [exact A|cbn; lia|]. eapply heard_yes; [exact A|cbn; lia|]. eapply heard_no; [exact D|cbn; lia|]. eapply heard_yes; [exact A|cbn; lia|]. eapply heard_yes; [exact D|cbn; lia|]. eapply heard_yes; [exact A|cbn; lia|]. constructor.
Qed.
Example ex_messages : exists ms, messages 2 (new 5 [(B "app", 9)] false) ex_ops = Ok ms /\ map message ms = [B "two"; B "three"; B "x"; B "deep"].
Proof. eexists. split; [vm_compute; reflexivity|reflexivity]. Qed.
Example ex_lines : lines false ex_heard = map (fun x => mk (Some (B (fst (fst x)))) (snd (fst x)) (B (snd x))) [("App", 4, "one"); ("App", 4, " two"); ("App", 4, "three"); ("db", 5, "x "); ("App", 9, "deep")]%string.
Proof. vm_compute. reflexivity. Qed.
Print Assumptions C52_console.
Print Assumptions C42_newest.
Print Assumptions C42_negative.
