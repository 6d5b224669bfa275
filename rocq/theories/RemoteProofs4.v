(** Calls, replies and what both ends make of them. *)
From Verif Require Import Base BaseFacts Ctype TclModel TclSpec TclProofs KeyModel KeySpec KeyProofs UrlModel TreeProofs TempModel TempSpec TempProofs IniModel IniSpec IniProofs IniProofs2 IniProofs3 IntFmtModel RemoteModel RemoteSpec RemoteProofs RemoteProofs2 RemoteProofs3.
Local Open Scope char_scope.
Local Open Scope list_scope.

(** * Requests *)
Definition M (c : cmd) (a : list bytes) : msg := {| mc := c; ma := a; mt := false |}.
Definition req (c : call) : msg :=
  match c with
  | CGet k => M GET [printable k]
  | CSet k None => M DEL [printable k]
  | CSet k (Some v) => M SET [printable k; v]
  | CSetv _ => M SETV []
  | CHas k => M HCHILD [printable k]
  | CList k r => M SUBT [printable k; if r : bool then B "1" else B "0"]
  | CCommit => M COMMIT []
  | CRefresh => M REFRESH []
  end.
Lemma fit_cont v : fit_value v -> elem_cont SP v = false.
Proof. intros [_ H]. destruct (elem_cont SP v) eqn:E; [|reflexivity]. apply elem_cont_spec in E. destruct E as (x & E & _ & N). elim N. exact (H x E). Qed.
Lemma neat_cont s : neat s -> elem_cont SP s = false.
Proof.
  intros H. destruct (elem_cont SP s) eqn:E; [|reflexivity]. apply elem_cont_spec in E. destruct E as (x & -> & _). elim H. exists x, newline. split; [reflexivity|]. right. cbn. lia.
Qed.
Lemma key_cont k : fit_key k -> elem_cont SP (printable k) = false.
Proof.
  intros [C N]. apply neat_cont. rewrite path_printable. destruct k as [|s k _] using rev_ind; [intros (r & c & E & _); destruct r; discriminate|].
  rewrite Forall_app in N. destruct C as [P|(k' & Ne & P & E)].
  - rewrite Forall_app in P. destruct (path_end k s (Forall_inv (proj2 P)) (Forall_inv (proj2 N))) as (x & z & -> & _ & W). intros (r & c & E & Wc). apply app_inj_tail in E. destruct E as [_ <-]. contradiction.
  - apply app_inj_tail in E. destruct E as [<- ->]. rewrite path_snoc. destruct k as [|a k]; [congruence|]. intros (r & c & E & Wc). apply app_inj_tail in E. destruct E as [_ <-]. destruct Wc as [Wc|Wc]; [discriminate|cbn in Wc; lia].
Qed.
Lemma fk k : fit_key k -> canonical k /\ nul_free (printable k) /\ elem_cont SP (printable k) = false.
Proof. intros H. split; [apply H|]. split; [apply key_nul, H|apply key_cont, H]. Qed.
Lemma write_none c : writecmd c None = text (M c []) ++ [newline].
Proof. unfold writecmd, text, M, words. cbn. rewrite app_nil_r. reflexivity. Qed.
Lemma frames_one m : frames [m] = text m ++ [newline].
Proof. unfold frames. cbn. apply app_nil_r. Qed.
Lemma request_ok c x : fit_call c -> request c x = Ok (if answered c then wait c x else x, frames [req c]) /\ whole (req c).
Proof.
  rewrite frames_one. intros F. destruct c as [k|k v|l|k|k r| |]; cbn [fit_call] in F; cbn [request answered req].
  - destruct (fk k F) as (C & Nk & _). rewrite escape_key_ok by exact C. cbn [bind]. rewrite write_key. split; [reflexivity|repeat constructor; exact Nk].
  - destruct F as [[Fk Fv] _]. destruct (fk k Fk) as (C & Nk & _). unfold set_text. destruct v as [v|].
    + rewrite key_value_ok by (auto; apply Fv). cbn [bind]. rewrite write_pair. split; [reflexivity|repeat constructor; [exact Nk|apply Fv]].
    + rewrite escape_key_ok by exact C. cbn [bind]. rewrite write_key. split; [reflexivity|repeat constructor; exact Nk].
  - contradiction.
  - destruct (fk k F) as (C & Nk & _). rewrite escape_key_ok by exact C. cbn [bind]. rewrite write_key. split; [reflexivity|repeat constructor; exact Nk].
  - destruct F as [F _]. destruct (fk k F) as (C & Nk & _). rewrite escape_key_ok by exact C. cbn [bind]. split.
    + f_equal. f_equal. unfold M. rewrite <- write_pair. destruct r; reflexivity.
    + repeat constructor; [exact Nk|]. destruct r; intros [H|[]]; discriminate.
  - rewrite write_none. split; [reflexivity|constructor].
  - rewrite write_none. split; [reflexivity|constructor].
Qed.

(** * Replies *)
Definition okm : msg := {| mc := OKAY; ma := []; mt := true |}.
Definition failm : msg := {| mc := FAIL; ma := []; mt := true |}.
Definition vmsg (e : key * bytes) : msg := M VAL [printable (fst e); snd e].
Definition rep (c : call) (g : gen) : list msg :=
  match c with
  | CGet k => match tget g k with Some v => [M ONEVAL [printable k; v]] | None => [failm] end
  | CHas k => [M CHILD [printable k; if thaschildren g k then B "TRUE" else B "FALSE"]]
  | CList k r => match tget g k with Some _ => map vmsg (listing g k r) ++ [okm] | None => [failm] end
  | CCommit | CRefresh => [okm]
  | CSet _ _ | CSetv _ => []
  end.
Inductive item := IHello | INote (x : notif) | IRep (m : msg).
Definition hmsg : msg := M HELLO [B "UniConf Server ready."; B "19"].
Definition imsg (i : item) : msg := match i with IHello => hmsg | INote x => nmsg x | IRep m => m end.
Definition its (c : call) (g : gen) : list item := match c with CSet k v => map INote (snd (tset g k v)) | _ => map IRep (rep c g) end.
Definition fite (e : key * bytes) : Prop := Forall plain (fst e) /\ Forall neat (fst e) /\ fit_value (snd e).
Lemma hello_ok : hello = frames [hmsg].
Proof. vm_compute. reflexivity. Qed.
Lemma preorder_fit : forall t rel, WF t -> tidy t -> plain (tkey t) -> neat (tkey t) -> Forall plain rel -> Forall neat rel -> Forall fite (preorder rel t).
Proof.
  induction t as [k v ch IH] using tree_ind2. intros rel W T Pk Nk P N. cbn [preorder tkey] in *. apply WF_inv in W. apply tidy_inv in T. cbn [tch tval] in W, T. destruct W as (Pc & _ & Wc), T as (Fv & Nc & Tc).
  assert (P' : Forall plain (rel ++ [k])) by (apply Forall_app; auto). assert (N' : Forall neat (rel ++ [k])) by (apply neat_snoc; auto).
  constructor; [split; [exact P'|split; [exact N'|exact Fv]]|]. apply Forall_flat_map. rewrite Forall_forall in IH, Pc, Wc, Nc, Tc. apply Forall_forall. intros c Hc. apply IH; auto.
Qed.
Lemma find_WF : forall k t n, find t k = Some n -> WF t -> tidy t -> WF n /\ tidy n.
Proof.
  induction k as [|s k IH]; intros t n E W T; cbn [find] in E; [injection E as <-; auto|]. unfold findchild in E. destruct (isempty (collapse [s])); [exact (IH _ _ E W T)|].
  destruct (child (tch t) s) as [c|] eqn:Ec; [|discriminate]. apply (IH _ _ E); [apply (child_plain _ _ _ W Ec)|]. apply tidy_inv in T. apply (child_Forall _ _ _ _ (proj2 (proj2 T)) Ec).
Qed.
Lemma listing_fit g k r : good g -> Forall fite (listing g k r).
Proof.
  intros [W T]. unfold listing. destruct (root g) as [t|]; [|constructor]. destruct (find t k) as [n|] eqn:E; [|constructor]. destruct (find_WF _ _ _ E W T) as [Wn Tn].
  apply WF_inv in Wn. apply tidy_inv in Tn. destruct Wn as (Pc & _ & Wc), Tn as (_ & Nc & Tc). rewrite Forall_forall in Pc, Wc, Nc, Tc. destruct r.
  - apply Forall_flat_map. apply Forall_forall. intros c Hc. apply preorder_fit; auto.
  - apply Forall_map, Forall_forall. intros c Hc. split; [repeat constructor; apply Pc, Hc|]. split; [repeat constructor; apply Nc, Hc|]. cbn [snd]. apply (tidy_inv _ (Tc c Hc)).
Qed.
Lemma values_ok l : Forall fite l -> values l = Ok (frames (map vmsg l)).
Proof.
  induction 1 as [|[k v] l (P & N & F) _ IH]; [reflexivity|]. cbn [values fst snd] in *. rewrite key_value_ok by (try apply F; left; exact P). cbn [bind]. rewrite IH. cbn [bind]. rewrite write_pair. reflexivity.
Qed.
Lemma tget_fit g k v : good g -> tget g k = Some v -> fit_value v.
Proof.
  intros [W T] E. unfold tget in E. destruct (root g) as [t|]; [|discriminate]. destruct (negb (isempty k) && isempty (last_seg k)); [discriminate|]. destruct (find t k) as [n|] eqn:Ef; [|discriminate]. injection E as <-.
  destruct (find_WF _ _ _ Ef W T) as [_ Tn]. apply (tidy_inv _ Tn).
Qed.
Lemma tget_find g k : Forall plain k -> tget g k = None -> forall r, listing g k r = [].
Proof.
  intros P E r. unfold tget in E. unfold listing. destruct (root g) as [t|]; [|reflexivity]. rewrite isempty_klast, (proj1 (plain_slashed k P)) in E by (left; exact P). destruct (find t k); [discriminate|reflexivity].
Qed.
Lemma write_ok : writecmd OKAY (Some []) = frames [okm].
Proof. reflexivity. Qed.
Lemma write_fail : writecmd FAIL (Some []) = frames [failm].
Proof. reflexivity. Qed.
Lemma frames_app a b : frames (a ++ b) = frames a ++ frames b.
Proof. unfold frames. apply flat_map_app. Qed.

(** The daemon handles a request. *)
Lemma num_one : num (Some (B "1")) = Ok 1%Z /\ num (Some (B "0")) = Ok 0%Z.
Proof. split; vm_compute; reflexivity. Qed.
Lemma arg_next a r : nul_free a -> (r = [] -> elem_cont SP a = false) -> readarg (words (a :: r)) = Ok (Some a, words r).
Proof.
  intros Ha Hc. pose proof (next_word _ use_split eq_refl a r false Ha (fun E _ => Hc E)) as H. rewrite !app_nil_r in H. exact H.
Qed.
Lemma readarg_end : readarg (words []) = Ok (None, []).
Proof. reflexivity. Qed.
Lemma readarg_nil : readarg [] = Ok (None, []).
Proof. reflexivity. Qed.
Lemma serve_ok s u cs : Wire (sconn s) u (map req cs) -> Forall fit_call cs -> good (sgen s) ->
  (exists c', serve s = Ok ({| sconn := c'; sgen := sgen s |}, []) /\ Wire c' u (map req cs) /\ (u = [] -> cs = [])) \/
  (exists c' c r, cs = c :: r /\ serve s = Ok ({| sconn := c'; sgen := fst (fst (local c (sgen s))) |}, frames (map imsg (its c (sgen s)))) /\ Wire c' u (map req r) /\
     good (fst (fst (local c (sgen s)))) /\ Forall whole (map imsg (its c (sgen s))) /\ Forall (fun i => match i with INote x => fitnk x | _ => True end) (its c (sgen s))).
Proof.
  intros W F G. unfold serve. destruct (readcmd_wire _ _ _ W) as [(c' & E & W' & H)|(c' & m & ms & E & Em & W')]; rewrite E; cbn [bind].
  - left. exists c'. split; [reflexivity|]. split; [exact W'|]. intros Hu. apply map_eq_nil with (f := req). auto.
  - right. destruct cs as [|c r]; [discriminate|]. cbn [map] in Em. injection Em as Em Er. subst m ms. exists c', c, r. split; [reflexivity|]. apply Forall_inv in F.
    clear E W. set (g := sgen s) in *. destruct c as [k|k v|l|k|k rc| |]; cbn [fit_call] in F; cbn [local fst snd its rep].
    + destruct (fk k F) as (C & Nk & Ck). cbn [req M mc ma mt]. rewrite app_nil_r, arg_next by auto. cbn [bind]. rewrite readarg_end. cbn [bind]. rewrite parse_print by exact C. cbn [bind].
      unfold do_get. destruct (tget g k) as [v|] eqn:Et.
      * pose proof (tget_fit g k v G Et) as Fv. rewrite key_value_ok by (auto; apply Fv). cbn [bind map imsg]. rewrite write_pair, frames_one. split; [reflexivity|]. split; [exact W'|]. split; [exact G|]. split; [|repeat constructor].
        constructor; [|constructor]. repeat constructor; [exact Nk|apply Fv].
      * cbn [bind map imsg]. rewrite write_fail. split; [reflexivity|]. split; [exact W'|]. split; [exact G|]. split; repeat constructor.
    + destruct F as [[Fk Fv] Fd]. destruct (fk k Fk) as (C & Nk & Ck). destruct v as [v|]; cbn [req M mc ma mt].
      * rewrite app_nil_r, arg_next by (auto; discriminate). cbn [bind]. rewrite arg_next by (try (intros _; apply fit_cont); apply Fv). cbn [bind]. rewrite parse_print by exact C. cbn [bind].
        destruct (assign_ok g k (Some v) G C (proj2 Fk) Fv) as (-> & G' & Fn). cbn [bind]. rewrite map_map. split; [reflexivity|]. split; [exact W'|]. split; [exact G'|]. cbn [imsg]. split.
        -- apply Forall_map. eapply Forall_impl; [|exact Fn]. apply nmsg_whole.
        -- apply Forall_map. exact Fn.
      * rewrite app_nil_r, arg_next by auto. cbn [bind]. rewrite readarg_end. cbn [bind]. rewrite parse_print by exact C. cbn [bind].
        destruct (do_remove_ok g k G Fk (Fd eq_refl)) as (-> & G' & Fn). cbn [bind]. rewrite map_map. split; [reflexivity|]. split; [exact W'|]. split; [exact G'|]. cbn [imsg]. split.
        -- apply Forall_map. eapply Forall_impl; [|exact Fn]. apply nmsg_whole.
        -- apply Forall_map. exact Fn.
    + contradiction.
    + destruct (fk k F) as (C & Nk & Ck). cbn [req M mc ma mt]. rewrite app_nil_r, arg_next by auto. cbn [bind]. rewrite readarg_end. cbn [bind]. rewrite parse_print by exact C. cbn [bind].
      unfold do_haschildren. rewrite escape_key_ok by exact C. cbn [bind map imsg]. split.
      * f_equal. f_equal. rewrite frames_one. unfold M. rewrite <- write_pair. destruct (thaschildren g k); reflexivity.
      * split; [exact W'|]. split; [exact G|]. split; [|repeat constructor]. constructor; [|constructor]. repeat constructor; [exact Nk|]. destruct (thaschildren g k); intros H; cbn in H; intuition discriminate.
    + destruct F as [F Fp]. destruct (fk k F) as (C & Nk & Ck). cbn [req M mc ma mt]. rewrite app_nil_r, arg_next by (auto; discriminate). cbn [bind].
      assert (E2 : readarg (words [if rc then B "1" else B "0"]) = Ok (Some (if rc then B "1" else B "0"), words [])) by (destruct rc; apply arg_next; try reflexivity; intros H; cbn in H; intuition discriminate).
      rewrite E2. cbn [bind]. rewrite parse_print by exact C. cbn [bind]. assert (E3 : num (Some (if rc then B "1" else B "0")) = Ok (if rc then 1 else 0)%Z) by (destruct rc; apply num_one). rewrite E3. cbn [bind].
      assert (E4 : ((if rc then 1 else 0) =? 1)%Z = rc) by (destruct rc; reflexivity). rewrite E4. unfold do_subtree. destruct (tget g k) as [v|] eqn:Et.
      * pose proof (listing_fit g k rc G) as Fl. rewrite values_ok by exact Fl. cbn [bind]. rewrite write_ok, <- frames_app. rewrite map_map. cbn [imsg]. rewrite map_id. split; [reflexivity|]. split; [exact W'|]. split; [exact G|]. split.
        -- apply Forall_app. split; [|repeat constructor]. apply Forall_map. eapply Forall_impl; [|exact Fl]. intros [q w] (P & _ & Fv). repeat constructor; [apply key_nul; left; exact P|apply Fv].
        -- apply Forall_map. apply Forall_forall. auto.
      * cbn [bind map imsg]. rewrite write_fail. split; [reflexivity|]. split; [exact W'|]. split; [exact G|]. split; repeat constructor.
    + cbn [req M mc ma mt app words flat_map bind]. rewrite readarg_nil. cbn [bind]. rewrite readarg_nil. cbn [bind map imsg]. rewrite write_ok. split; [reflexivity|]. split; [exact W'|]. split; [exact G|]. split; repeat constructor.
    + cbn [req M mc ma mt app words flat_map bind]. rewrite readarg_nil. cbn [bind]. rewrite readarg_nil. cbn [bind map imsg]. rewrite write_ok. split; [reflexivity|]. split; [exact W'|]. split; [exact G|]. split; repeat constructor.
Qed.
