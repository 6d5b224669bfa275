(** Facts about messages on a UniConf connection: how they are cut out of the stream
    of bytes and taken apart. *)
From Verif Require Import Base BaseFacts Ctype TclModel TclSpec TclProofs KeyModel KeySpec KeyProofs UrlModel TreeProofs TempModel IniModel IniSpec IniProofs IniProofs2 IniProofs3 IntFmtModel RemoteModel RemoteSpec.
Local Open Scope char_scope.
Local Open Scope list_scope.

Notation SP := WVTCL_NASTY_SPACES (only parsing).
Notation esc := (esc_pure WVTCL_NASTY_SPACES) (only parsing).
Lemma use_split : usable_separators (mset SP) (mset WVTCL_SPLITCHARS).
Proof. apply use_sep; [auto|intros H; cbn in H; intuition discriminate..]. Qed.
Lemma use_space : usable_separators (mset SP) (mset nasty_space).
Proof. apply use_sep; [intros c H; left; cbn in H; intuition congruence|intros H; cbn in H; intuition discriminate..]. Qed.

(** * Messages *)
Record msg := { mc : cmd; ma : list bytes; mt : bool }.
Definition words (l : list bytes) : bytes := flat_map (fun a => " " :: esc a) l.
Definition text (m : msg) : bytes := name (mc m) ++ words (ma m) ++ (if mt m then [" "] else []).
Definition whole (m : msg) : Prop := Forall nul_free (ma m).
Lemma name_esc c : esc (name c) = name c.
Proof. destruct c; reflexivity. Qed.
Lemma name_nul c : nul_free (name c).
Proof. unfold nul_free. destruct c; cbn; intuition discriminate. Qed.
Lemma words_nul l : Forall nul_free l -> nul_free (words l).
Proof.
  induction 1 as [|a l Ha _ IH]; [intros []|]. cbn [words flat_map app]. apply nul_free_cons. split; [discriminate|]. apply nul_free_app. split; [apply esc_pure_nul_free, Ha|exact IH].
Qed.
Lemma text_nul m : whole m -> nul_free (text m).
Proof.
  intros H. unfold text. apply nul_free_app. split; [apply name_nul|]. apply nul_free_app. split; [apply words_nul, H|]. destruct (mt m); [intros [?|[]]; discriminate|intros []].
Qed.
Lemma text_head m : text m <> [] /\ hd nul (text m) <> """".
Proof. unfold text. destruct (mc m); split; discriminate. Qed.
Lemma lineok_blank s : lineok NL s -> lineok NL (" " :: s).
Proof. intros H. change (" " :: s) with ([" "] ++ s). apply lineok_app; [reflexivity|exact H]. Qed.
Lemma words_line l : lineok NL (words l).
Proof.
  induction l as [|a l IH]; [reflexivity|]. cbn [words flat_map app]. apply lineok_blank, lineok_app; [apply lineok_esc, use_value_nl|exact IH].
Qed.
Lemma text_line m : lineok NL (text m).
Proof.
  unfold text. apply lineok_app; [rewrite <- name_esc; apply lineok_esc, use_value_nl|]. apply lineok_app; [apply words_line|]. destruct (mt m); reflexivity.
Qed.

(** * Taking words out of a message *)
Section Words.
Variable sp : mask.
Hypothesis U : usable_separators (mset SP) (mset sp).
Lemma word_sep pre a c t : Forall (fun c => mset sp c = true) pre -> mset sp c = true -> nul_free a ->
  wvtcl_getword sp true (pre ++ esc a ++ c :: t) = Ok (Some a, c :: t).
Proof using U.
  intros Hp Hc Ha. unfold wvtcl_getword. rewrite (getword_elem_sep _ _ U) by assumption. cbn [bind]. rewrite make_string_ok. cbn [bind]. rewrite cstr_nul_free by exact Ha.
  do 2 f_equal. rewrite app_assoc. rewrite (skipn_app_len _ _ _ 0); [reflexivity|]. rewrite !app_length. lia.
Qed.
Lemma word_end pre a : Forall (fun c => mset sp c = true) pre -> nul_free a -> elem_cont SP a = false ->
  wvtcl_getword sp true (pre ++ esc a) = Ok (Some a, []).
Proof using U.
  intros Hp Ha Hc. unfold wvtcl_getword. rewrite (getword_elem_end _ _ U) by assumption. rewrite Hc. cbn [bind]. rewrite make_string_ok. cbn [bind]. rewrite cstr_nul_free by exact Ha.
  do 2 f_equal. cbn [length]. rewrite Nat.sub_0_r. apply skipn_all.
Qed.
Hypothesis Bl : mset sp " " = true.
Lemma word_none : wvtcl_getword sp true [] = Ok (None, []).
Proof. reflexivity. Qed.
(** The next argument: another one, or a blank, follows, or it has to be complete. *)
Lemma next_word a r t : nul_free a -> (r = [] -> t = false -> elem_cont SP a = false) ->
  wvtcl_getword sp true (words (a :: r) ++ (if t : bool then [" "] else [])) = Ok (Some a, words r ++ (if t then [" "] else [])).
Proof.
  intros Ha Hc. cbn [words flat_map app]. fold (words r). rewrite <- app_assoc. set (z := words r ++ _).
  assert (Hz : (exists z', z = " " :: z') \/ z = [] /\ r = [] /\ t = false).
  { subst z. destruct r; [destruct t; [left|right]; cbn; eauto|left; cbn; eauto]. }
  destruct Hz as [[z' ->]|(-> & -> & ->)].
  - apply (word_sep [" "]); auto.
  - rewrite app_nil_r. apply (word_end [" "]); auto.
Qed.
End Words.
Lemma name_word (c : cmd) z : (exists z', z = " " :: z') \/ z = [] -> readarg (name c ++ z) = Ok (Some (name c), z).
Proof.
  unfold readarg. rewrite <- (name_esc c) at 1. intros [[z' ->]| ->].
  - apply (word_sep _ use_split [] (name c)); [constructor|reflexivity|apply name_nul].
  - rewrite app_nil_r. apply (word_end _ use_split [] (name c)); [constructor|apply name_nul|]. destruct c; reflexivity.
Qed.
Lemma lookup_name c : lookup (name c) cmdinfos = Some c.
Proof. destruct c; reflexivity. Qed.

(** * Cutting messages out of the stream *)
Definition frames (ms : list msg) : bytes := flat_map (fun m => text m ++ [newline]) ms.
Definition Wire (c : conn) (rest : bytes) (ms : list msg) : Prop :=
  exists pre, (pre = [] \/ pre = [newline]) /\ msgbuf c ++ inb c ++ rest = pre ++ frames ms /\ lf_end (msgbuf c) /\ Forall whole ms.
Lemma take_line_spec s : match take_line s with Some (l, r) => s = l ++ newline :: r | None => ~ In newline s end.
Proof.
  induction s as [|c s IH]; cbn [take_line]; [intros []|]. destruct (Ascii.eqb_spec c newline) as [->|N]; [reflexivity|].
  destruct (take_line s) as [[l r]|]; [rewrite IH; reflexivity|]. intros [?|?]; [congruence|contradiction].
Qed.
Lemma seps_nl pre : pre = [] \/ pre = [newline] -> Forall (fun c => mset NL c = true) pre.
Proof. intros [-> | ->]; repeat constructor. Qed.
Lemma getword_part pre q r : pre = [] \/ pre = [newline] -> lineok NL (q ++ r) -> hd nul (q ++ r) <> """" -> lf_end q ->
  wvtcl_getword NL false (pre ++ q) = Ok (None, pre ++ q).
Proof.
  intros Hp HL HQ [->|(q' & ->)]; [rewrite app_nil_r; apply getword_seps, seps_nl, Hp|].
  assert (HB : mset NL "\" = false) by reflexivity. pose proof HL as HL0. apply lineok_run in HL; [|exact HB]. destruct HL as [cn HL]. rewrite gw_run_app in HL.
  destruct (gw_run NL (GwSt false false 0) (q' ++ [newline])) as [st|] eqn:E; [|discriminate].
  pose proof (gw_scan_run_app NL (q' ++ [newline]) _ _ [] E) as Es. rewrite app_nil_r in Es. cbn [gw_scan] in Es. rewrite app_nil_r in Es.
  pose proof (gw_scan_lf _ _ _ _ Es) as Hst. unfold wvtcl_getword, getword_scan. rewrite skip_seps_app by (apply seps_nl, Hp).
  destruct (q' ++ [newline]) as [|c q] eqn:Eq; [destruct q'; discriminate|]. cbn [app] in HL0, HQ. pose proof (lineok_head _ _ _ HL0) as Hc. cbn [hd] in HQ. apply Ascii.eqb_neq in HQ.
  cbn [skip_seps]. rewrite Hc, HQ, Es. assert (Hx : negb (g_brace st =? 0)%nat || match c :: q with [] => true | _ :: _ => false end || false || g_esc st || g_cont st = true).
  { destruct Hst as [H|H]; [apply Nat.eqb_neq in H; rewrite H; reflexivity|rewrite H, !orb_true_r; reflexivity]. }
  rewrite Hx. reflexivity.
Qed.
Lemma prefix_cut {A} (a b c d : list A) : a ++ b = c ++ d -> (exists x, a = c ++ x /\ d = x ++ b) \/ (exists x, x <> [] /\ c = a ++ x /\ b = x ++ d).
Proof.
  revert c. induction a as [|x a IH]; intros [|y c] E; cbn in E.
  - left. exists []. auto.
  - right. exists (y :: c). split; [discriminate|]. auto.
  - left. exists (x :: a). auto.
  - injection E as -> E. destruct (IH c E) as [(z & -> & ->)|(z & Hz & -> & ->)]; [left; exists z; auto|right; exists z; auto].
Qed.
Lemma frames_lf ms : lf_end (frames ms).
Proof.
  induction ms as [|m ms IH]; [left; reflexivity|]. cbn [frames flat_map]. apply lf_end_app; [right; exists (text m); reflexivity|exact IH].
Qed.
Lemma lf_last q : lf_end q -> q <> [] -> In newline q.
Proof. intros [->|(r & ->)] H; [congruence|]. apply in_or_app. right. left. reflexivity. Qed.
Lemma frames_nul ms : Forall whole ms -> nul_free (frames ms).
Proof.
  induction 1 as [|m ms H _ IH]; [intros []|]. cbn [frames flat_map]. apply nul_free_app. split; [|exact IH]. apply nul_free_app. split; [apply text_nul, H|intros [?|[]]; discriminate].
Qed.
(** A message or nothing is read; if all has arrived, nothing only if there is none. *)
Lemma readmsg_wire : forall fuel c rest ms, Wire c rest ms -> length (inb c) < fuel ->
  (exists c', readmsg fuel c = Ok (c', None) /\ Wire c' rest ms /\ (rest = [] -> ms = [])) \/
  (exists c' m ms', readmsg fuel c = Ok (c', Some (text m)) /\ ms = m :: ms' /\ Wire c' rest ms').
Proof.
  induction fuel as [|fuel IH]; intros c rest ms (pre & Hp & E & Hl & Hw) Lf; [lia|]. cbn [readmsg]. change WVTCL_NASTY_NEWLINES with NL.
  assert (Hcase : wvtcl_getword NL false (msgbuf c) = Ok (None, msgbuf c) /\ (rest = [] -> take_line (inb c) = None -> ms = []) \/
    exists m ms' x, ms = m :: ms' /\ wvtcl_getword NL false (msgbuf c) = Ok (Some (text m), newline :: x) /\ frames ms' = x ++ inb c ++ rest).
  { destruct ms as [|m ms].
    - left. cbn [frames flat_map] in E. rewrite app_nil_r in E. split; [|auto]. apply getword_seps. pose proof (seps_nl pre Hp) as S. rewrite <- E in S. rewrite Forall_app in S. tauto.
    - cbn [frames flat_map] in E. fold (frames ms) in E. rewrite <- app_assoc in E. cbn [app] in E.
      replace (pre ++ text m ++ newline :: frames ms) with ((pre ++ text m ++ [newline]) ++ frames ms) in E by (rewrite <- !app_assoc; reflexivity).
      destruct (prefix_cut _ _ _ _ E) as [(x & Ex & Ef)|(x & Hx & Ex & Ef)].
      + right. exists m, ms, x. split; [reflexivity|]. split; [|exact Ef]. rewrite Ex, <- !app_assoc. cbn [app].
        apply getword_line; [reflexivity|apply seps_nl, Hp|apply text_line|apply text_head|apply text_head|apply text_nul, (Forall_inv Hw)|reflexivity].
      + left. split.
        * assert (Ex2 : exists y, pre ++ text m = msgbuf c ++ y /\ x = y ++ [newline]).
          { destruct (exists_last Hx) as (y & z & ->). exists y. rewrite !app_assoc in Ex. apply app_inj_tail in Ex. destruct Ex as [Ex <-]. auto. }
          destruct Ex2 as (y & Ey & _). destruct (prefix_cut _ _ _ _ Ey) as [(q & Eq & Et)|(q & Hq & Eq & Et)].
          -- (* the buffer ends inside pre *)
             assert (S : Forall (fun c => mset NL c = true) (msgbuf c)) by (pose proof (seps_nl pre Hp) as S; rewrite Eq, Forall_app in S; tauto).
             apply getword_seps, S.
          -- rewrite Eq. apply (getword_part pre q y Hp); [rewrite <- Et; apply text_line|rewrite <- Et; apply text_head|]. rewrite Eq in Hl. exact (lf_end_suffix _ _ Hl).
        * intros -> Ht. pose proof (take_line_spec (inb c)) as S. rewrite Ht in S. rewrite app_nil_r in Ef. exfalso. apply S. rewrite Ef. apply in_or_app. left.
          destruct (exists_last Hx) as (y & z & ->). rewrite !app_assoc in Ex. apply app_inj_tail in Ex. destruct Ex as [_ <-]. apply in_or_app. right. left. reflexivity. }
  destruct Hcase as [[-> Hn]|(m & ms' & x & -> & -> & Ef)]; cbn [bind].
  - pose proof (take_line_spec (inb c)) as S. destruct (take_line (inb c)) as [[l r]|].
    + assert (Hz : cstr l = l).
      { apply cstr_nul_free. assert (N : nul_free (pre ++ frames ms)) by (apply nul_free_app; split; [destruct Hp as [-> | ->]; [intros []|intros [?|[]]; discriminate]|apply frames_nul, Hw]).
        rewrite <- E, S in N. rewrite !nul_free_app in N. tauto. }
      rewrite Hz. assert (W : Wire {| inb := r; msgbuf := msgbuf c ++ l ++ [newline] |} rest ms).
      { exists pre. split; [exact Hp|]. cbn [inb msgbuf]. split; [rewrite <- E, S, <- !app_assoc; reflexivity|]. split; [|exact Hw]. right. exists (msgbuf c ++ l). rewrite app_assoc. reflexivity. }
      apply IH; [exact W|]. cbn [inb]. rewrite S, app_length in Lf. cbn in Lf. lia.
    + left. exists c. split; [destruct c; reflexivity|]. split; [exists pre; auto|]. intros Hr. apply Hn; [exact Hr|reflexivity].
  - right. exists {| inb := inb c; msgbuf := newline :: x |}, m, ms'. split; [reflexivity|]. split; [reflexivity|]. exists [newline]. split; [auto|]. cbn [inb msgbuf].
    split; [rewrite Ef; reflexivity|]. split; [|exact (Forall_inv_tail Hw)].
    assert (K : exists p, msgbuf c = p ++ newline :: x).
    { cbn [frames flat_map] in E. fold (frames ms') in E. rewrite Ef in E. exists (pre ++ text m).
      assert (E' : (msgbuf c) ++ (inb c ++ rest) = (pre ++ text m ++ newline :: x) ++ (inb c ++ rest)) by (rewrite E, <- !app_assoc; reflexivity).
      apply app_inv_tail in E'. rewrite E', <- app_assoc. reflexivity. }
    destruct K as [p Ep]. rewrite Ep in Hl. exact (lf_end_suffix _ _ Hl).
Qed.
Lemma readcmd_wire c rest ms : Wire c rest ms ->
  (exists c', readcmd c = Ok (c', None_, []) /\ Wire c' rest ms /\ (rest = [] -> ms = [])) \/
  (exists c' m ms', readcmd c = Ok (c', Command (mc m), words (ma m) ++ (if mt m then [" "] else [])) /\ ms = m :: ms' /\ Wire c' rest ms').
Proof.
  intros W. unfold readcmd. destruct (readmsg_wire (S (length (inb c))) c rest ms W ltac:(lia)) as [(c' & E & W' & H)|(c' & m & ms' & E & Em & W')]; rewrite E; cbn [bind].
  - left. eauto.
  - right. exists c', m, ms'. split; [|auto]. unfold text. rewrite name_word; [cbn [bind]; rewrite lookup_name; reflexivity|]. destruct (ma m); [destruct (mt m); cbn; eauto|left; cbn; eauto].
Qed.
(** Bytes arrive; bytes are sent. *)
Lemma wire_arrive n c rest ms : Wire c rest ms -> Wire (arrive (firstn n rest) c) (skipn n rest) ms.
Proof. intros (pre & Hp & E & H). exists pre. cbn [arrive inb msgbuf]. split; [exact Hp|]. split; [|exact H]. rewrite <- E, <- !app_assoc, firstn_skipn. reflexivity. Qed.
Lemma wire_send c rest ms ns : Wire c rest ms -> Forall whole ns -> Wire c (rest ++ frames ns) (ms ++ ns).
Proof.
  intros (pre & Hp & E & Hl & Hw) Hn. exists pre. split; [exact Hp|]. split; [|split; [exact Hl|apply Forall_app; auto]].
  unfold frames. rewrite flat_map_app. fold (frames ms). fold (frames ns). rewrite (app_assoc pre), <- E, <- !app_assoc. reflexivity.
Qed.
