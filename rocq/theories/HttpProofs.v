From Verif Require Import Base BaseFacts Ctype DecSpec UrlModel IniModel IntFmtModel IntFmtProofs IniProofs2 HttpModel HttpSpec.
From Coq Require Import ZifyBool ZifyNat.
Local Open Scope nat_scope.

(** ** Text *)
Definition cr : byte := ascii_of_nat 13.
Lemma split_at_spec c s : match split_at c s with Some (a, b) => s = a ++ c :: b /\ ~ In c a | None => ~ In c s end.
Proof.
  induction s as [|x s IH]; cbn [split_at]; [intros []|]. destruct (Ascii.eqb_spec x c) as [->|N]; [split; [reflexivity|intros []]|].
  destruct (split_at c s) as [[a b]|].
  - destruct IH as [-> H]. split; [reflexivity|]. intros [E|E]; auto.
  - intros [E|E]; auto.
Qed.
Lemma split_at_eq c a b : ~ In c a -> split_at c (a ++ c :: b) = Some (a, b).
Proof.
  induction a as [|x a IH]; cbn [app split_at In]; intros H.
  - rewrite Ascii.eqb_refl. reflexivity.
  - destruct (Ascii.eqb_spec x c) as [->|N]; [exfalso; auto|]. rewrite IH by auto. reflexivity.
Qed.
Lemma split_at_none c s : ~ In c s -> split_at c s = None.
Proof. intros H. pose proof (split_at_spec c s) as S. destruct (split_at c s) as [[a b]|]; [|reflexivity]. destruct S as [-> _]. exfalso. apply H, in_or_app. right. left. reflexivity. Qed.
Lemma eqs_spec a b : eqs a b = true <-> a = b.
Proof.
  revert b. induction a as [|c a IH]; intros [|d b]; cbn [eqs]; try (split; congruence).
  rewrite Bool.andb_true_iff, IH, Ascii.eqb_eq. split; [intros [-> ->]; reflexivity|intros H; injection H; auto].
Qed.
Lemma iprefix_colon p x n y : ~ In ":"%char n -> ~ In ":"%char p -> iprefix (p ++ ":"%char :: x) (n ++ ":"%char :: y) = true -> map tolower n = map tolower p.
Proof.
  assert (T : forall c, tolower c = tolower ":" -> c = ":"%char) by (intros [[] [] [] [] [] [] [] []] H; vm_compute in H; try discriminate; reflexivity).
  revert n. induction p as [|c p IH]; intros [|d n]; cbn [app iprefix map In]; intros Hn Hp H; [reflexivity| | |].
  - apply andb_prop in H. destruct H as [H _]. apply Ascii.eqb_eq in H. exfalso. apply Hn. left. apply T. auto.
  - apply andb_prop in H. destruct H as [H _]. apply Ascii.eqb_eq in H. exfalso. apply Hp. left. apply T. auto.
  - apply andb_prop in H. destruct H as [H1 H2]. apply Ascii.eqb_eq in H1. rewrite H1. f_equal. apply IH; auto.
Qed.

(** ** White space *)
Lemma drop_tight s : tight s -> drop_space s = s.
Proof. intros [H _]. destruct s as [|c s]; [reflexivity|]. cbn. rewrite (H c s eq_refl). reflexivity. Qed.
Lemma tight_rev s : tight s -> tight (rev s).
Proof.
  intros [H1 H2]. split; intros c r E; apply (f_equal (@rev _)) in E; rewrite rev_involutive in E.
  - cbn in E. exact (H2 _ _ E).
  - rewrite rev_app_distr in E. cbn in E. exact (H1 _ _ E).
Qed.
Lemma rtrim_tight s : tight s -> rtrim s = s.
Proof. intros H. unfold rtrim. rewrite (drop_tight (rev s)) by (apply tight_rev, H). apply rev_involutive. Qed.
Lemma trim_tight s : tight s -> trim_string s = s.
Proof. intros H. rewrite trim_rtrim, rtrim_tight by exact H. apply drop_tight, H. Qed.
Lemma rtrim_blanks a b : blanks b -> rtrim (a ++ b) = rtrim a.
Proof.
  intros H. unfold rtrim. rewrite rev_app_distr, drop_space_app, (drop_space_white (rev b)); [reflexivity|]. apply Forall_rev, H.
Qed.
Lemma rtrim_cr a : rtrim (a ++ [cr]) = rtrim a.
Proof. apply rtrim_blanks. repeat constructor. Qed.
Lemma rtrim_end a c b : isspace c = false -> rtrim (a ++ c :: b) = a ++ c :: rtrim b.
Proof.
  intros H. unfold rtrim. rewrite rev_app_distr. cbn [rev]. rewrite drop_space_app. destruct (drop_space (rev b ++ [c])) as [|x l] eqn:E.
  - exfalso. rewrite drop_space_app in E. destruct (drop_space (rev b)); [cbn in E; rewrite H in E|]; discriminate.
  - rewrite <- E. clear x l E. rewrite rev_app_distr, rev_involutive. f_equal.
    rewrite drop_space_app. destruct (drop_space (rev b)) as [|x l] eqn:E.
    + cbn. rewrite H. reflexivity.
    + rewrite rev_app_distr. reflexivity.
Qed.
Lemma rtrim_keeps a b : tight a -> a <> [] -> rtrim (a ++ b) = a ++ rtrim b.
Proof.
  intros [_ H] N. destruct (exists_last N) as (l & c & ->). rewrite <- app_assoc. cbn [app]. rewrite rtrim_end by (exact (H c l eq_refl)). rewrite <- app_assoc. reflexivity.
Qed.
Lemma rtrim_start c s : rtrim (c :: s) = [] \/ exists r, rtrim (c :: s) = c :: r.
Proof.
  unfold rtrim. cbn [rev]. rewrite drop_space_app. destruct (drop_space (rev s)) as [|x l].
  - cbn. destruct (isspace c); [left; reflexivity|right; exists []; reflexivity].
  - right. rewrite rev_app_distr. cbn. eauto.
Qed.
Lemma drop_blanks a b : blanks a -> drop_space (a ++ b) = drop_space b.
Proof. intros H. rewrite drop_space_app, (drop_space_white a H). reflexivity. Qed.
Lemma tight_app a b : tight a -> tight b -> a <> [] -> b <> [] -> forall m, tight (a ++ m ++ b).
Proof.
  intros [Ha _] [_ Hb] Na Nb m. split; intros c r E.
  - destruct a as [|x a]; [congruence|]. injection E as <- _. exact (Ha x a eq_refl).
  - destruct (exists_last Nb) as (l & y & ->). rewrite !app_assoc in E. apply app_inj_tail in E. destruct E as [_ <-]. exact (Hb y l eq_refl).
Qed.
(** What is left of the text of a field when its value is trimmed *)
Lemma value_trim f : tight (content f) -> blanks (before f) -> blanks (after f) -> trim_string (rtrim (before f ++ content f ++ after f)) = content f.
Proof.
  intros T B1 B2. rewrite trim_rtrim, rtrim_idem, app_assoc, rtrim_blanks by exact B2.
  destruct (content f) as [|c l] eqn:E.
  - rewrite app_nil_r. change (before f) with ([] ++ before f). rewrite rtrim_blanks by exact B1. reflexivity.
  - rewrite <- E in *. assert (N : content f <> []) by congruence. clear c l E.
    assert (E : rtrim (before f ++ content f) = before f ++ content f).
    { destruct (exists_last N) as (l & c & E). rewrite E, app_assoc. destruct T as [_ T]. rewrite rtrim_end by exact (T c l E). reflexivity. }
    rewrite E, drop_blanks by exact B1. apply drop_tight, T.
Qed.
(** ** Numbers *)
Lemma atoi_code s t : s <> [] -> Forall digit s -> (value s < 2 ^ 31)%Z -> (match t with [] => True | c :: _ => isdigit c = false end) -> atoi (s ++ t) = Ok (value s).
Proof.
  intros N D V T. pose proof (value_nonneg s D) as P. unfold atoi.
  assert (I : in_int (value s) = true) by (unfold in_int, int_min, int_max; apply andb_true_intro; split; apply Z.leb_le; lia).
  destruct s as [|d s]; [congruence|]. pose proof (digit_not_space d (Forall_inv D)) as (H1 & H2 & H3). cbn [app skip_space]. rewrite H1, H2, H3.
  change (d :: s ++ t) with ((d :: s) ++ t). rewrite atoi_digits_app by assumption. fold (value (d :: s)). rewrite I. reflexivity.
Qed.
Definition hexc (c : byte) : Z := let n := Z.of_nat (nat_of_ascii c) in if (n <? 60)%Z then (n - 48)%Z else (n mod 32 + 9)%Z.
Lemma hexdigit_ok c : In c (B "0123456789abcdefABCDEF") -> hexdigit c = Some (hexc c) /\ (0 <= hexc c < 16)%Z /\ isspace c = false /\ c <> "-"%char /\ c <> "+"%char /\ Ascii.eqb (tolower c) "x" = false.
Proof.
  intros H. cbn in H. repeat (destruct H as [<-|H]; [split; [vm_compute; reflexivity|split; [vm_compute; split; [discriminate|reflexivity]|repeat split; try (vm_compute; reflexivity); discriminate]]|]). destruct H.
Qed.
Definition hexf (a : Z) (c : byte) : Z := (16 * a + hexc c)%Z.
Lemma hexrun_ok s t a : Forall (fun c => In c (B "0123456789abcdefABCDEF")) s -> (match t with [] => True | c :: _ => hexdigit c = None end) -> hexrun a (s ++ t) = fold_left hexf s a.
Proof.
  intros H T. revert a. induction H as [|c s Hc _ IH]; intros a; cbn [app hexrun fold_left].
  - destruct t as [|c t]; [reflexivity|]. cbn [hexrun]. rewrite T. reflexivity.
  - destruct (hexdigit_ok c Hc) as (-> & _). apply IH.
Qed.
Lemma hex_nonneg s : Forall (fun c => In c (B "0123456789abcdefABCDEF")) s -> forall a, (0 <= a)%Z -> (0 <= fold_left hexf s a)%Z.
Proof. induction 1 as [|c s Hc _ IH]; intros a Ha; cbn [fold_left]; [exact Ha|]. apply IH. destruct (hexdigit_ok c Hc) as (_ & [? ?] & _). unfold hexf. lia. Qed.
Lemma strtoul16_ok s t : hex_number s -> (match t with [] => True | c :: _ => c = ";"%char \/ isspace c = true end) -> strtoul16 (s ++ t) = hex_value s.
Proof.
  intros (N & H & V) T.
  assert (Tn : match t with [] => True | c :: _ => hexdigit c = None /\ Ascii.eqb (tolower c) "x" = false end).
  { destruct t as [|c t]; [exact I|]. clear -T. destruct c as [[] [] [] [] [] [] [] []]; destruct T as [T|T]; try (vm_compute in T; discriminate); split; vm_compute; reflexivity. }
  destruct s as [|d s]; [congruence|]. pose proof (hexdigit_ok d (Forall_inv H)) as (_ & _ & Sd & N1 & N2 & _).
  unfold strtoul16. cbn [app drop_space]. rewrite Sd. destruct (Ascii.eqb_spec d "-") as [E|_]; [congruence|]. destruct (Ascii.eqb_spec d "+") as [E|_]; [congruence|].
  assert (K : skip_0x (d :: s ++ t) = (d :: s) ++ t).
  { unfold skip_0x. destruct s as [|x s].
    - cbn [app]. destruct t as [|x [|y r]]; [reflexivity|reflexivity|]. destruct Tn as [_ Tn]. rewrite Tn, Bool.andb_false_r. reflexivity.
    - cbn [app]. pose proof (hexdigit_ok x (Forall_inv (Forall_inv_tail H))) as (_ & _ & _ & _ & _ & X). destruct (s ++ t) as [|y r]; [reflexivity|]. rewrite X, Bool.andb_false_r. reflexivity. }
  cbv beta iota zeta. rewrite !K. rewrite !hexrun_ok by first [exact H|destruct t; [exact I|apply Tn]]. change (fold_left hexf (d :: s) 0%Z) with (hex_value (d :: s)).
  rewrite Z.gtb_ltb. destruct (Z.ltb_spec ulong_max (hex_value (d :: s))) as [Q|Q]; [unfold ulong_max in Q; lia|]. reflexivity.
Qed.

(** ** Lines *)
Lemma digit_isdigit c : digit c -> isdigit c = true.
Proof. unfold digit, isdigit, cc. lia. Qed.
Lemma digit_not c d : digit c -> isdigit d = false -> c <> d.
Proof. intros H D ->. apply digit_isdigit in H. congruence. Qed.
Lemma not_in_digits s d : Forall digit s -> isdigit d = false -> ~ In d s.
Proof. intros H D E. rewrite Forall_forall in H. exact (digit_not d d (H d E) D eq_refl). Qed.
Lemma in_line_app a b : in_line (a ++ b) <-> in_line a /\ in_line b.
Proof. unfold in_line. setoid_rewrite in_app_iff. tauto. Qed.
Lemma in_line_digits s : Forall digit s -> in_line s.
Proof. intros H. split; apply not_in_digits; auto. Qed.
Section Response.
  Variable r : response.
  Hypothesis G : good_response r.
  Lemma version_not d : isdigit d = false -> d <> "."%char -> ~ In d (version r).
  Proof. destruct G as (V & _). intros D N E. rewrite Forall_forall in V. destruct (V d E) as [H|H]; [exact (digit_not d d H D eq_refl)|exact (N H)]. Qed.
  Lemma status_in_line : in_line (status_line r).
  Proof.
    destruct G as (V & _ & C & _ & R & _). unfold status_line. apply in_line_app. split; [split; vm_compute; intuition discriminate|].
    apply in_line_app. split; [split; apply version_not; reflexivity || discriminate|].
    change (" "%char :: code r ++ " "%char :: reason r) with ([" "%char] ++ code r ++ [" "%char] ++ reason r). rewrite !in_line_app.
    split; [split; vm_compute; intuition discriminate|]. split; [apply in_line_digits, C|]. split; [split; vm_compute; intuition discriminate|exact R].
  Qed.
  Lemma status_tight : tight (status_line r).
  Proof.
    destruct G as (_ & _ & _ & _ & _ & N & T & _). unfold status_line.
    replace (B "HTTP/" ++ version r ++ " "%char :: code r ++ " "%char :: reason r) with (B "HTTP/" ++ (version r ++ " "%char :: code r ++ [" "%char]) ++ reason r).
    - apply tight_app; [split; intros c l E|exact T|discriminate|exact N].
      + injection E as <- _. reflexivity.
      + change (B "HTTP/") with (B "HTTP" ++ ["/"%char]) in E. apply app_inj_tail in E. destruct E as [_ <-]. reflexivity.
    - rewrite <- !app_assoc. cbn [app]. rewrite <- app_assoc. reflexivity.
  Qed.
  Lemma trim_status : trim_string (status_line r ++ [cr]) = status_line r.
  Proof. rewrite trim_rtrim, rtrim_cr, <- trim_rtrim. apply trim_tight, status_tight. Qed.
  Lemma status_no_colon : ~ In ":"%char (status_line r).
  Proof.
    destruct G as (_ & _ & C & _ & _ & _ & _ & R & _). unfold status_line. rewrite !in_app_iff. cbn [In]. rewrite in_app_iff. cbn [In].
    intros [H|[H|[H|[H|[H|H]]]]]; [vm_compute in H; intuition discriminate| |discriminate| |discriminate|exact (R H)].
    - revert H. apply version_not; [reflexivity|discriminate].
    - revert H. apply not_in_digits; [exact C|reflexivity].
  Qed.
  Lemma status_split : split_at " " (status_line r) = Some (B "HTTP/" ++ version r, code r ++ " "%char :: reason r).
  Proof.
    unfold status_line. rewrite app_assoc. apply split_at_eq. rewrite in_app_iff. intros [H|H]; [vm_compute in H; intuition discriminate|].
    revert H. apply version_not; [reflexivity|discriminate].
  Qed.
  Lemma status_code : atoi (code r ++ " "%char :: reason r) = Ok (value (code r)).
  Proof. destruct G as (_ & N & C & V & _). apply atoi_code; [exact N|exact C|exact V|reflexivity]. Qed.
  Lemma status_field s : header_field s (status_line r) = Ok s.
  Proof. reflexivity. Qed.
  Lemma status_out s : header_out s (status_line r) = Ok (out_log s (fun i => Status i (version r) (value (code r)))).
  Proof.
    unfold header_out. rewrite (split_at_none _ _ status_no_colon), status_split. change (iprefix (B "HTTP/") (status_line r)) with true. cbv iota. rewrite status_code. reflexivity.
  Qed.
  Lemma status_cons : exists c l, status_line r = c :: l.
  Proof. do 2 eexists. reflexivity. Qed.
End Response.

Section Fields.
  Variable f : field.
  Hypothesis G : good_field f.
  Definition fline : bytes := name f ++ ":"%char :: rtrim (before f ++ content f ++ after f).
  Lemma trim_field : trim_string (field_text f ++ [cr]) = fline.
  Proof.
    destruct G as (_ & T & N & _). rewrite trim_rtrim, rtrim_cr. unfold field_text. rewrite rtrim_end by reflexivity. fold fline.
    unfold fline. rewrite drop_space_app, drop_tight by exact T. destruct (name f); [congruence|reflexivity].
  Qed.
  Lemma field_out s : header_out s fline = Ok (out_log s (fun i => Header i (name f) (content f))).
  Proof.
    destruct G as (_ & T & N & C & T2 & B1 & B2). unfold header_out, fline. rewrite split_at_eq by exact C. rewrite value_trim by assumption. reflexivity.
  Qed.
  Lemma field_cons : exists c l, fline = c :: l.
  Proof. destruct G as (_ & _ & N & _). unfold fline. destruct (name f) as [|c l]; [congruence|]. cbn. eauto. Qed.
  Lemma field_neutral s : neutral_field f -> exists k, header_field s fline = Ok (set_keep s k).
  Proof.
    destruct G as (_ & _ & _ & C & _). intros [N1 N2]. unfold header_field.
    destruct (iprefix (B "Content-length: ") fline) eqn:E1.
    { exfalso. apply N1. apply (iprefix_colon (B "Content-length") [" "%char] (name f) (rtrim (before f ++ content f ++ after f))) in E1; [exact E1|exact C|vm_compute; intuition discriminate]. }
    destruct (iprefix (B "Transfer-Encoding: ") fline) eqn:E2.
    { exfalso. apply N2. apply (iprefix_colon (B "Transfer-Encoding") [" "%char] (name f) (rtrim (before f ++ content f ++ after f))) in E2; [exact E2|exact C|vm_compute; intuition discriminate]. }
    cbn [andb]. destruct (iprefix (B "Connection: keep-alive") fline); [eauto|]. destruct (iprefix (B "Connection: close") fline); [eauto|].
    exists (keep s). destruct s; reflexivity.
  Qed.
End Fields.
Lemma digits_tight n : Forall digit n -> tight n.
Proof.
  intros H. split; intros c l ->.
  - apply Forall_inv in H. apply (digit_not_space c H).
  - apply Forall_app in H. destruct H as [_ H]. apply Forall_inv in H. apply (digit_not_space c H).
Qed.
Lemma length_field s n : n <> [] -> Forall digit n -> (value n < 2 ^ 31)%Z ->
  header_field s (fline (Field (B "Content-Length") (B " ") n [])) = Ok (set_rx s (resp s) ContentLength (value n) (trailer s)).
Proof.
  intros N D V. pose proof (value_nonneg n D) as P. unfold fline. cbn [name before content after]. rewrite app_nil_r.
  assert (E : rtrim (B " " ++ n) = " "%char :: n).
  { change (B " " ++ n) with ([] ++ " "%char :: n). destruct (exists_last N) as (l & c & ->). cbn [app]. change (" "%char :: l ++ [c]) with ((" "%char :: l) ++ c :: []). rewrite rtrim_end; [reflexivity|].
    apply Forall_app in D. destruct D as [_ D]. apply (digit_not_space c (Forall_inv D)). }
  rewrite E. unfold header_field. change (iprefix (B "Content-length: ") (B "Content-Length" ++ ":"%char :: " "%char :: n)) with true. cbv iota.
  change (skipn 16 (B "Content-Length" ++ ":"%char :: " "%char :: n)) with n. rewrite <- (app_nil_r n) at 1. rewrite atoi_code by (auto; exact I). cbn [bind].
  unfold size_of. rewrite Z.mod_small by lia. reflexivity.
Qed.
Lemma chunked_field s : header_field s (fline (Field (B "Transfer-Encoding") (B " ") (B "chunked") [])) = Ok (set_rx s (resp s) Chunked (remaining s) (trailer s)).
Proof. reflexivity. Qed.
Lemma length_good n : n <> [] -> Forall digit n -> good_field (Field (B "Content-Length") (B " ") n []).
Proof.
  intros N D. unfold good_field, field_text. cbn [name before content after]. rewrite app_nil_r. split.
  { change (in_line (B "Content-Length: " ++ n)). apply in_line_app. split; [split; vm_compute; intuition discriminate|apply in_line_digits, D]. }
  split.
  { split; intros c l E; [injection E as <- _; reflexivity|]. change (B "Content-Length") with (B "Content-Lengt" ++ ["h"%char]) in E. apply app_inj_tail in E. destruct E as [_ <-]. reflexivity. }
  split; [discriminate|]. split; [vm_compute; intuition discriminate|]. split; [exact (digits_tight n D)|]. split; [repeat constructor|constructor].
Qed.
Lemma chunked_good : good_field (Field (B "Transfer-Encoding") (B " ") (B "chunked") []).
Proof.
  unfold good_field, field_text. cbn [name before content after]. split; [split; vm_compute; intuition discriminate|]. split.
  { split; intros c l E; [injection E as <- _; reflexivity|]. change (B "Transfer-Encoding") with (B "Transfer-Encodin" ++ ["g"%char]) in E. apply app_inj_tail in E. destruct E as [_ <-]. reflexivity. }
  split; [discriminate|]. split; [vm_compute; intuition discriminate|]. split.
  { split; intros c l E; [injection E as <- _; reflexivity|]. change (B "chunked") with (B "chunke" ++ ["d"%char]) in E. apply app_inj_tail in E. destruct E as [_ <-]. reflexivity. }
  split; [repeat constructor|constructor].
Qed.
(** The line with the size of a chunk *)
Lemma size_line c : good_chunk c -> exists x l, trim_string ((size c ++ ext c) ++ [cr]) = x :: l /\ strtoul16 (x :: l) = hex_value (size c).
Proof.
  intros ((N & H & V) & _ & _ & X). rewrite trim_rtrim, rtrim_cr.
  assert (T : tight (size c)).
  { split; intros x l E; rewrite E in H.
    - apply (hexdigit_ok x (Forall_inv H)).
    - apply Forall_app in H. destruct H as [_ H]. apply (hexdigit_ok x (Forall_inv H)). }
  rewrite rtrim_keeps by assumption. rewrite drop_space_app, drop_tight by exact T.
  destruct (size c) as [|x l] eqn:E; [congruence|]. exists x, (l ++ rtrim (ext c)). split; [reflexivity|].
  change (x :: l ++ rtrim (ext c)) with ((x :: l) ++ rtrim (ext c)). apply strtoul16_ok; [split; [|split]; assumption|].
  destruct (ext c) as [|y e]; [exact I|]. destruct (rtrim_start y e) as [->|(z & ->)]; [exact I|exact X].
Qed.
Lemma size_in_line c : good_chunk c -> in_line (size c ++ ext c).
Proof.
  intros ((_ & H & _) & L & _). apply in_line_app. split; [|exact L]. rewrite Forall_forall in H.
  split; intros E; apply H in E; vm_compute in E; intuition discriminate.
Qed.
Lemma trim_not_blank l : ~ blanks l -> exists x r, trim_string (l ++ [cr]) = x :: r.
Proof.
  intros H. rewrite trim_rtrim, rtrim_cr. destruct (drop_space (rtrim l)) as [|x r] eqn:E; [|eauto]. exfalso. apply H. clear H.
  assert (D : forall l, drop_space l = [] -> blanks l).
  { clear. intros l. induction l as [|c l IH]; cbn; intros H; [constructor|]. destruct (isspace c) eqn:S; [constructor; [exact S|apply IH, H]|discriminate]. }
  apply D in E. unfold rtrim in E. apply Forall_rev in E. rewrite rev_involutive in E.
  destruct (rev l) as [|y z] eqn:R; [apply (f_equal (@rev _)) in R; rewrite rev_involutive in R; rewrite R; constructor|].
  assert (B : blanks (rev l)). { rewrite R. revert E. generalize (y :: z). clear. intros l. induction l as [|c l IH]; cbn; intros H; [constructor|]. destruct (isspace c) eqn:S; [constructor; [exact S|apply IH, H]|]. apply Forall_inv in H. congruence. }
  apply Forall_rev in B. rewrite rev_involutive in B. exact B.
Qed.
