From Verif Require Import Base BaseFacts Ctype DecSpec UrlModel IniModel IntFmtModel IntFmtProofs HttpModel HttpSpec HttpProofs.
From Coq Require Import ZifyBool ZifyNat.
Local Open Scope nat_scope.

(** ** Reading *)
Definition quiet (l : list arrival) : Prop := ~ In Reset l.
Lemma quiet_cons a l : quiet (a :: l) -> (exists k, a = Bytes k) /\ quiet l.
Proof. unfold quiet. cbn [In]. intros H. split; [|tauto]. destruct a as [k|]; [eauto|tauto]. Qed.
Lemma uread_some w s n k : wire s <> [] \/ fin s = false \/ n = 0 -> exists b w', wire s = b ++ w' /\ length b <= n /\ uread w s n (Bytes k) = Ok (set_net s (inbuf s) w' (fin s), b).
Proof.
  intros H. unfold uread. destruct n as [|n]; [exists [], (wire s); repeat split; [apply le_n|destruct s; reflexivity]|].
  assert (E : forall l, wire s = l -> exists b w', l = b ++ w' /\ length b <= S n /\
    (Ok (set_net s (inbuf s) (skipn (Nat.min k (S n)) l) (fin s), firstn (Nat.min k (S n)) l) : res (hst * bytes)) = Ok (set_net s (inbuf s) w' (fin s), b)).
  { intros l _. exists (firstn (Nat.min k (S n)) l), (skipn (Nat.min k (S n)) l). split; [symmetry; apply firstn_skipn|]. split; [|reflexivity].
    rewrite firstn_length. lia. }
  destruct (wire s) as [|x l] eqn:W.
  - destruct k as [|k]; [apply E; reflexivity|]. destruct H as [H|[H|H]]; [congruence| |discriminate]. rewrite H. exists [], []. repeat split; [cbn; lia|]. destruct s; cbn in *; subst; reflexivity.
  - apply E. reflexivity.
Qed.
Lemma line_unique (x : byte) u c v b : ~ In x u -> ~ In x c -> u ++ x :: v = c ++ x :: b -> u = c /\ v = b.
Proof.
  revert u. induction c as [|y c IH]; intros [|z u]; cbn [app]; intros P A E.
  - injection E as E. auto.
  - injection E as E0 E. exfalso. apply P. left. exact E0.
  - injection E as E0 E. exfalso. apply A. left. congruence.
  - injection E as E0 E. destruct (IH u) as [H1 H2]; [intros H; apply P; right; exact H|intros H; apply A; right; exact H|exact E|]. subst. auto.
Qed.
Lemma getline_line w s l a b : quiet l -> ok s = true -> in_line a -> inbuf s ++ wire s = line a ++ b ->
  exists i' w', (getline w s l = Ok (set_net s i' w' (fin s), None) /\ i' ++ w' = line a ++ b) \/
                (getline w s l = Ok (set_net s i' w' (fin s), Some (a ++ [cr])) /\ i' ++ w' = b).
Proof.
  intros Q O [A1 A2]. assert (A : ~ In lf (a ++ [cr])) by (rewrite in_app_iff; intros [H|[H|[]]]; [exact (A1 H)|discriminate]).
  assert (AN : cstr (a ++ [cr]) = a ++ [cr]) by (apply cstr_nul_free; unfold nul_free; rewrite in_app_iff; intros [H|[H|[]]]; [exact (A2 H)|discriminate]).
  replace (line a ++ b) with ((a ++ [cr]) ++ lf :: b) by (unfold line; rewrite <- !app_assoc; reflexivity).
  revert s O. induction l as [|x l IH]; intros s O E; cbn [getline]; rewrite O; cbn [negb].
  - destruct (split_at lf (inbuf s)) as [[u v]|] eqn:S.
    + exists v, (wire s). right. pose proof (split_at_spec lf (inbuf s)) as P. rewrite S in P. destruct P as [P1 P2].
      unfold take_line. rewrite S. rewrite P1, <- app_assoc in E. cbn [app] in E.
      assert (u = a ++ [cr] /\ v ++ wire s = b) as [-> E2].
      { exact (line_unique lf u (a ++ [cr]) (v ++ wire s) b P2 A E). }
      split; [rewrite AN; reflexivity|exact E2].
    + exists (inbuf s), (wire s). left. split; [destruct s; reflexivity|exact E].
  - destruct (split_at lf (inbuf s)) as [[u v]|] eqn:S.
    + exists v, (wire s). right. pose proof (split_at_spec lf (inbuf s)) as P. rewrite S in P. destruct P as [P1 P2].
      unfold take_line. rewrite S. rewrite P1, <- app_assoc in E. cbn [app] in E.
      assert (u = a ++ [cr] /\ v ++ wire s = b) as [-> E2].
      { exact (line_unique lf u (a ++ [cr]) (v ++ wire s) b P2 A E). }
      split; [rewrite AN; reflexivity|exact E2].
    + destruct (quiet_cons _ _ Q) as [(k & ->) Q2]. pose proof (split_at_spec lf (inbuf s)) as P. rewrite S in P.
      destruct (uread_some w s 1024 k) as (u & w' & E1 & _ & ->).
      { left. intros W. rewrite W, app_nil_r in E. apply P. rewrite E. apply in_or_app. right. left. reflexivity. }
      cbn [bind]. change (ok (set_net (set_net s (inbuf s) w' (fin s)) (inbuf (set_net s (inbuf s) w' (fin s)) ++ u) (wire (set_net s (inbuf s) w' (fin s))) (fin (set_net s (inbuf s) w' (fin s))))) with (ok s). rewrite O. cbn [negb].
      destruct u as [|y u].
      * exists (inbuf s), w'. left. cbn [set_net inbuf wire fin]. rewrite app_nil_r. split; [reflexivity|]. rewrite E1 in E. exact E.
      * destruct (IH Q2 (set_net s (inbuf s ++ y :: u) w' (fin s)) O) as (i2 & w2 & H).
        { cbn [set_net inbuf wire]. rewrite <- app_assoc. rewrite E1 in E. exact E. }
        exists i2, w2. exact H.
Qed.
Lemma getline_nothing w s l : quiet l -> inbuf s = [] -> wire s = [] -> ok s = true -> fin s = false -> getline w s l = Ok (s, None).
Proof.
  intros Q I W O F. destruct l as [|x l]; cbn [getline]; rewrite O, I; cbn [split_at negb]; [reflexivity|].
  destruct (quiet_cons _ _ Q) as [(k & ->) _]. unfold uread. rewrite W, F. destruct k; cbn; rewrite O; cbn; destruct s; cbn in *; subst; reflexivity.
Qed.
Lemma read_some w s n l : quiet l -> inbuf s ++ wire s <> [] \/ fin s = false \/ n = 0 ->
  exists b i' w', inbuf s ++ wire s = b ++ (i' ++ w') /\ length b <= n /\ read w s n l = Ok (set_net s i' w' (fin s), b).
Proof.
  intros Q H. unfold read. destruct (inbuf s) as [|x b] eqn:I.
  - assert (E : exists k, first_arrival l = Bytes k) by (destruct l; [exists 0; reflexivity|apply (quiet_cons _ _ Q)]). destruct E as (k & ->).
    destruct (uread_some w s n k H) as (b & w' & E1 & E2 & E3). exists b, [], w'. rewrite E3, I. auto.
  - exists (firstn n (x :: b)), (skipn n (x :: b)), (wire s). split; [|split; [|reflexivity]].
    + rewrite app_assoc, firstn_skipn. reflexivity.
    + rewrite firstn_length. lia.
Qed.
Lemma read_end w s n l : quiet l -> inbuf s = [] -> wire s = [] -> fin s = true -> read w s (S n) l = Ok (s, []) \/ read w s (S n) l = let! s' := below_closed w s in Ok (s', []).
Proof.
  intros Q I W F. unfold read. rewrite I. assert (E : exists k, first_arrival l = Bytes k) by (destruct l; [exists 0; reflexivity|apply (quiet_cons _ _ Q)]). destruct E as (k & ->).
  unfold uread. rewrite W, F. destruct k; [left|right; reflexivity]. destruct s; cbn in *; subst; reflexivity.
Qed.

(** ** Responses as they are read *)
Inductive todo (hd cls : bool) : current -> enc -> Z -> bool -> bytes -> list (bytes * bytes) -> bytes -> Prop :=
| T_field f e m t rest hs d : good_field f -> neutral_field f -> todo hd cls NoCur e m t rest hs d ->
    todo hd cls NoCur e m t (line (field_text f) ++ rest) ((name f, content f) :: hs) d
| T_length n m t rest hs d : n <> [] -> Forall digit n -> (value n < 2 ^ 31)%Z -> todo hd cls NoCur ContentLength (value n) t rest hs d ->
    todo hd cls NoCur Unknown m t (line (field_text (Field (B "Content-Length") (B " ") n [])) ++ rest) ((B "Content-Length", n) :: hs) d
| T_chunked m t rest hs d : todo hd cls NoCur Chunked m t rest hs d ->
    todo hd cls NoCur Unknown m t (line (field_text (Field (B "Transfer-Encoding") (B " ") (B "chunked") [])) ++ rest) ((B "Transfer-Encoding", B "chunked") :: hs) d
| T_head e m t : hd = true -> todo hd cls NoCur e m t crlf [] []
| T_end e m t rest d : hd = false -> todo hd cls First (match e with Unknown => Infinity | e => e end) m false rest [] d -> todo hd cls NoCur e m t (crlf ++ rest) [] d
| T_body t d : (Z.of_nat (length d) < 2 ^ 31)%Z -> todo hd cls First ContentLength (Z.of_nat (length d)) t d [] d
| T_inf m t d : cls = true -> todo hd cls First Infinity m t d [] d
| T_blank rest d : todo hd cls First Chunked 0 false rest [] d -> todo hd cls First Chunked 0 false (crlf ++ rest) [] d
| T_size c rest d : good_chunk c -> todo hd cls First Chunked (hex_value (size c)) (hex_value (size c) =? 0)%Z rest [] d ->
    todo hd cls First Chunked 0 false (line (size c ++ ext c) ++ rest) [] d
| T_data b rest d : b <> [] -> (Z.of_nat (length b) < 2 ^ 64)%Z -> todo hd cls First Chunked 0 false rest [] d ->
    todo hd cls First Chunked (Z.of_nat (length b)) false (b ++ rest) [] (b ++ d)
| T_trailer l rest : in_line l -> ~ blanks l -> todo hd cls First Chunked 0 true rest [] [] -> todo hd cls First Chunked 0 true (line l ++ rest) [] []
| T_last : todo hd cls First Chunked 0 true crlf [] [].

Definition pairs (l : list field) : list (bytes * bytes) := map (fun f => (name f, content f)) l.
Definition flines (l : list field) : bytes := flat_map (fun f => line (field_text f)) l.
Lemma todo_fields hd cls l e m t rest hs d : Forall (fun f => good_field f /\ neutral_field f) l -> todo hd cls NoCur e m t rest hs d ->
  todo hd cls NoCur e m t (flines l ++ rest) (pairs l ++ hs) d.
Proof.
  intros H T. induction H as [|f l [F1 F2] _ IH]; [exact T|]. cbn [flines flat_map pairs map app]. rewrite <- app_assoc. apply T_field; assumption.
Qed.
Lemma todo_chunks hd cls l z t : Forall (fun c => good_chunk c /\ data c <> []) l -> good_chunk z -> data z = [] -> Forall (fun x => in_line x /\ ~ blanks x) t ->
  todo hd cls First Chunked 0 false (body_text (InChunks l z t)) [] (flat_map data l).
Proof.
  intros L Z D H. cbn [body_text]. induction L as [|c l [G N] _ IH]; cbn [flat_map app].
  - apply T_size; [exact Z|]. destruct Z as (_ & _ & Z & _). rewrite Z, D. cbn [length].
    clear Z D. induction H as [|x t [X1 X2] _ IH]; cbn [flat_map app]; [apply T_last|]. rewrite <- app_assoc. apply T_trailer; assumption.
  - rewrite <- !app_assoc. apply T_size; [exact G|]. destruct G as ((_ & _ & B) & _ & E & _). rewrite E in *.
    replace (Z.of_nat (length (data c)) =? 0)%Z with false by (symmetry; apply Z.eqb_neq; destruct (data c); [congruence|cbn [length]; lia]).
    unfold line at 1. rewrite <- app_assoc. apply T_data; [exact N|exact B|]. apply T_blank. exact IH.
Qed.
Lemma todo_response hd cls r : good_response r -> (hd = false -> forall t, what r = ToTheEnd t -> cls = true) ->
  todo hd cls NoCur Unknown 0 false (flines (all_fields r) ++ crlf ++ (if hd then [] else body_text (what r))) (pairs (all_fields r)) (if hd then [] else body_data (what r)).
Proof.
  intros (_ & _ & _ & _ & _ & _ & _ & _ & F & W) C. apply Forall_app in F. destruct F as [F1 F2]. unfold all_fields, pairs, flines.
  rewrite !flat_map_app, !map_app, <- !app_assoc. apply (todo_fields hd cls (fields1 r)); [exact F1|].
  assert (K : forall e m t, (hd = false -> todo hd cls First (match e with Unknown => Infinity | e => e end) m false (body_text (what r)) [] (body_data (what r))) ->
     todo hd cls NoCur e m t (flines (fields2 r) ++ crlf ++ (if hd then [] else body_text (what r))) (pairs (fields2 r)) (if hd then [] else body_data (what r))).
  { intros e m t H. rewrite <- (app_nil_r (pairs (fields2 r))). apply todo_fields; [exact F2|]. destruct hd.
    - apply T_head. reflexivity.
    - apply T_end; [reflexivity|]. apply H. reflexivity. }
  destruct (what r) as [n t|l z t|t] eqn:E; cbn [framing flat_map map app].
  - destruct W as (W1 & W2 & W3 & W4). rewrite <- app_assoc. cbn [app]. apply T_length; [exact W1|exact W2|exact W4|]. apply K. intros _.
    cbn [content]. rewrite W3. apply T_body. change (Z.of_nat (length t) < 2 ^ 31)%Z. rewrite <- W3. exact W4.
  - rewrite <- app_assoc. cbn [app]. apply T_chunked. apply K. intros _. destruct W as (W1 & W2 & W3 & W4). apply todo_chunks; assumption.
  - apply K. intros H. apply T_inf. exact (C H t eq_refl).
Qed.

(** ** Cases *)
Lemma todo_nocur hd cls e m t rest hs d : todo hd cls NoCur e m t rest hs d ->
  (exists f rest' hs', rest = line (field_text f) ++ rest' /\ hs = (name f, content f) :: hs' /\ good_field f /\
     exists e' m', (forall s, encoding s = e -> remaining s = m -> trailer s = t -> exists k, header_field s (fline f) = Ok (set_keep (set_rx s (resp s) e' m' t) k)) /\ todo hd cls NoCur e' m' t rest' hs' d) \/
  (exists rest', rest = crlf ++ rest' /\ hs = [] /\
     (hd = true /\ rest' = [] /\ d = [] \/ hd = false /\ todo hd cls First (match e with Unknown => Infinity | e => e end) m false rest' [] d)).
Proof.
  intros T. remember NoCur as c eqn:C. destruct T as [f e m t rest hs d F1 F2 T|n m t rest hs d N D V T|m t rest hs d T|e m t H|e m t rest d H T| | | | | | |]; try discriminate C.
  - left. exists f, rest, hs. split; [reflexivity|]. split; [reflexivity|]. split; [exact F1|]. exists e, m. split; [|exact T]. intros s E1 E2 E3.
    destruct (field_neutral f F1 s F2) as (k & ->). exists k. f_equal. rewrite <- E1, <- E2, <- E3. destruct s; reflexivity.
  - left. exists (Field (B "Content-Length") (B " ") n []), rest, hs. split; [reflexivity|]. split; [reflexivity|]. split; [apply length_good; assumption|].
    exists ContentLength, (value n). split; [|exact T]. intros s E1 E2 E3. rewrite length_field by assumption. exists (keep s). rewrite <- E3. destruct s; reflexivity.
  - left. exists (Field (B "Transfer-Encoding") (B " ") (B "chunked") []), rest, hs. split; [reflexivity|]. split; [reflexivity|]. split; [apply chunked_good|].
    exists Chunked, m. split; [|exact T]. intros s E1 E2 E3. rewrite chunked_field. exists (keep s). rewrite <- E2, <- E3. destruct s; reflexivity.
  - right. exists []. split; [reflexivity|]. split; [reflexivity|]. left. auto.
  - right. exists rest. split; [reflexivity|]. split; [reflexivity|]. right. auto.
Qed.
Lemma todo_first hd cls e m t rest hs d : todo hd cls First e m t rest hs d -> hs = [] /\
  (e = ContentLength /\ m = Z.of_nat (length d) /\ rest = d /\ (m < 2 ^ 31)%Z \/
   e = Infinity /\ rest = d /\ cls = true \/
   e = Chunked /\ m = 0%Z /\ t = false /\
     (exists rest', rest = crlf ++ rest' /\ todo hd cls First Chunked 0 false rest' [] d \/
      exists c rest', rest = line (size c ++ ext c) ++ rest' /\ good_chunk c /\ todo hd cls First Chunked (hex_value (size c)) (hex_value (size c) =? 0)%Z rest' [] d) \/
   e = Chunked /\ t = false /\ (exists b rest' d', b <> [] /\ m = Z.of_nat (length b) /\ (m < 2 ^ 64)%Z /\ rest = b ++ rest' /\ d = b ++ d' /\ todo hd cls First Chunked 0 false rest' [] d') \/
   e = Chunked /\ m = 0%Z /\ t = true /\ d = [] /\
     ((exists l rest', rest = line l ++ rest' /\ in_line l /\ ~ blanks l /\ todo hd cls First Chunked 0 true rest' [] []) \/ rest = crlf)).
Proof.
  intros T. remember First as c eqn:C. destruct T as [| | | | |t d B|m t d H|rest d T|c' rest d G T|b rest d N B T|l rest L1 L2 T|]; try discriminate C; (split; [reflexivity|]).
  - left. auto.
  - right; left. auto.
  - right; right; left. repeat split. exists rest. left. auto.
  - right; right; left. repeat split. exists rest. right. exists c', rest. auto.
  - right; right; right; left. split; [reflexivity|]. split; [reflexivity|]. exists b, rest, d. repeat split; auto.
  - right; right; right; right. repeat split. left. exists l, rest. auto.
  - right; right; right; right. repeat split. right. reflexivity.
Qed.
