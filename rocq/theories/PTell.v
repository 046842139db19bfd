(** The texts of the errors that clients get to see, continued: C74. *)
From Verif Require Import Base Utf8 Case Num Io Parser Types Message Outgoing Client Server Transport Lemmas ReadLemmas
  NumLemmas UnicodeTables Utf8Lemmas CaseLemmas ChunkSpec ChunkLemmas BodyLemmas ParserLemmas TypesLemmas HeadLemmas BlockLemmas MsgLemmas PBody
  WriteLemmas KeepLemmas PHead POut PReuse PServer ErrText PText.

(** ** Every stream has a beginning of one of these kinds *)
Lemma first_line_split bld : forall xs l pre, no_crlf l -> noisy bld l pre ->
  (exists l', no_crlf l' /\ noisy bld l' (pre ++ xs))
  \/ (exists l' pre' e zs, no_crlf l' /\ noisy bld l' pre' /\ is_retry bld e = false /\ pre ++ xs = pre' ++ Transport.E e :: zs)
  \/ (exists l' pre' zs, no_crlf l' /\ noisy bld (l' ++ [CR]) pre' /\ pre ++ xs = pre' ++ B LF :: zs).
Proof.
  induction xs as [|x xs IH]; intros l pre Hl Hn; [left; exists l; now rewrite app_nil_r|].
  replace (pre ++ x :: xs) with ((pre ++ [x]) ++ xs) by (now rewrite <- app_assoc). destruct x as [b|e].
  - assert (Hb : noisy bld (l ++ [b]) (pre ++ [B b])) by (apply noisy_app; auto; repeat constructor).
    destruct (Byte.byte_eq_dec b LF) as [->|Hlf].
    + destruct (list_eq_dec Byte.byte_eq_dec (skipn (length l - 1) l) [CR]) as [Hc|Hc].
      * right. right. exists (firstn (length l - 1) l), pre, xs. repeat split.
        -- intros (a & r & E). apply Hl. exists a, (r ++ [CR]). rewrite <- (firstn_skipn (length l - 1) l), Hc, E. now rewrite <- !app_assoc.
        -- rewrite <- Hc. now rewrite firstn_skipn.
        -- now rewrite <- app_assoc.
      * apply (IH (l ++ [LF])); auto. intros (a & r & E). destruct (exists_last (l := CRLF ++ r)) as (y & z & E2); [easy|].
        assert (El : l = a ++ y /\ LF = z) by (rewrite E2, app_assoc in E; now apply app_inj_tail in E). destruct El as [-> <-].
        destruct r as [|c r].
        -- apply (app_inj_tail [CR] y LF LF) in E2 as [<- _]. apply Hc. rewrite app_length. cbn [length].
           replace (length a + 1 - 1) with (length a + 0) by lia. now rewrite skipn_app, skipn_all2, Nat.add_0_r, Nat.sub_diag by lia.
        -- apply Hl. destruct (exists_last (l := c :: r)) as (y' & z' & E3); [easy|]. rewrite E3, app_assoc in E2.
           apply app_inj_tail in E2 as [<- _]. exists a, y'. reflexivity.
    + apply (IH (l ++ [b])); auto. apply no_crlf_app; auto. apply no_crlf_iff. intros [|[|i]] [H1 H2]; discriminate.
  - destruct (is_retry bld e) eqn:Ee.
    + apply (IH l); auto. rewrite <- (app_nil_r l). apply noisy_app; auto. now repeat constructor.
    + right. left. exists l, pre, e, xs. repeat split; auto. now rewrite <- app_assoc.
Qed.

Theorem C74_streams : forall bld xs, exists lines en, head_stream bld lines en xs.
Proof.
  intros bld xs. remember (length xs) as n eqn:En. assert (Hn : length xs <= n) by lia. clear En. revert xs Hn.
  induction n as [n IH] using lt_wf_ind. intros xs Hn.
  destruct (first_line_split bld xs [] []) as [(l & H1 & H2)|[(l & pre & e & zs & H1 & H2 & H3 & E)|(l & pre & zs & H1 & H2 & E)]].
  - apply no_cr_no_crlf. easy.
  - constructor.
  - exists [], CutOff. now apply hs_cut with l.
  - cbn [app] in E. subst xs. exists [], (PText.Failed e). now apply hs_fail with l.
  - cbn [app] in E. subst xs. destruct l as [|b l']; [exists [], Complete; now apply hs_complete|].
    destruct (utf8_error 0 (b :: l')) as [[u k]|] eqn:Eu.
    + exists [], (NotText u k). now apply hs_text with (b :: l').
    + destruct (IH (length zs)) with (xs := zs) as (ls & en & Hs); [rewrite app_length in Hn; cbn in Hn; lia|lia|].
      exists ((b :: l') :: ls), en. apply hs_line; auto. split; [easy|]. split; auto. apply is_utf8_valid.
      pose proof (utf8_error_valid (b :: l') 0) as Hv. now rewrite Eu in Hv.
Qed.
Print Assumptions C74_streams.

Lemma stream_lines bld ls en xs : head_stream bld ls en xs -> Forall text_line ls /\ length ls <= length xs.
Proof. induction 1 as [l pre ys ls en Hx Hn Hy [H1 H2]| | | |]; split; auto; cbn; try lia. rewrite app_length. cbn. lia. Qed.

(** ** What is reported *)
Definition request_complaint : list bytes -> ending -> message -> Prop :=
  complaint line_complaint (fun l => exists m u v, request_line_says l m u v).
Definition response_complaint : list bytes -> ending -> message -> Prop :=
  complaint status_complaint (fun l => exists v st, status_line_says l v st).

Lemma blank_split : forall c1 c2 (r1 r2 : list bytes), Forall blank_first c1 -> Forall blank_first c2 ->
  (forall l t, r1 = l :: t -> ~ blank_first l) -> (forall l t, r2 = l :: t -> ~ blank_first l) -> c1 ++ r1 = c2 ++ r2 -> c1 = c2 /\ r1 = r2.
Proof.
  induction c1 as [|a c1 IH]; intros [|b c2] r1 r2 H1 H2 Hr1 Hr2 E; cbn [app] in E; auto.
  - inversion H2; subst. now destruct (Hr1 b (c2 ++ r2)).
  - inversion H1; subst. now destruct (Hr2 a (c1 ++ r1)).
  - injection E as -> E. inversion H1; inversion H2; subst. destruct (IH c2 r1 r2) as [-> ->]; auto.
Qed.
Lemma folded_det : forall ls a, folded ls a -> forall b, folded ls b -> a = b.
Proof.
  induction 1 as [|l conts rest logical Hb Hr Hf IH]; intros b H; inversion H as [|l2 conts2 rest2 logical2 Hb2 Hr2 Hf2]; auto.
  match goal with X : _ ++ _ = _ ++ _ |- _ => apply blank_split in X as [? ?]; auto end. subst. f_equal. auto.
Qed.

Lemma complaint_split first fine line ls en m (A : Type) (r : mres A) : Forall is_utf8 ls ->
  (r = MErr m <-> first line m) -> ((exists x, r = MOk x) <-> fine line) ->
  (forall logical, folded ls logical ->
     (r = MErr m \/ (exists x, r = MOk x) /\ (block_complaint logical en m
      \/ en = Complete /\ exists hs v k, Forall2 header_of logical hs /\ last_value (bs "content-length") hs = Some v
           /\ int_complaint u64_max v k /\ m = MsgInt k))
     <-> complaint first fine (line :: ls) en m).
Proof.
  intros Hu H1 H2 logical Hl. assert (Hx : forall l2, folded ls l2 -> l2 = logical) by (intros l2 H; eapply folded_det; eauto). rewrite H1, H2. split.
  - intros [H|[Hf [[(good & bad & rest & -> & Hg & Hb)|[Hg He]]|[-> (hs & v & k & Hh & Hv & Hk & ->)]]]].
    + now apply cp_first.
    + eapply cp_header; eauto.
    + eapply cp_end; eauto.
    + eapply cp_length; eauto.
  - intros H. inversion H; subst.
    + now left.
    + right. split; auto. left. left. match goal with X : folded ls _ |- _ => apply Hx in X; subst end. eauto 10.
    + right. split; auto. left. right. match goal with X : folded ls _ |- _ => apply Hx in X; subst end. auto.
    + right. split; auto. right. split; auto. match goal with X : folded ls _ |- _ => apply Hx in X; subst end. eauto 10.
Qed.

Theorem C74_request : forall T bld (rd : reader T) t xs fuel lines en m, delivers rd t xs -> length xs < fuel -> head_stream bld lines en xs ->
  fst (request_head_m (crlf_next_m bld rd fuel) fuel t) = MErr m <-> request_complaint lines en m.
Proof.
  intros T bld rd t xs fuel lines en m (R & HR & Ht) Hf Hs. destruct (stream_lines _ _ _ _ Hs) as [Hx Hl].
  assert (Hrd : ready bld R fuel t lines en) by (exists xs; auto).
  pose proof (request_ready bld rd R HR fuel fuel t lines en Hrd ltac:(lia)) as H. unfold request_complaint. destruct lines as [|first ls].
  - rewrite H. split.
    + intros [= <-]. destruct (proj2 (no_line_says en _) eq_refl) as [[-> E]|He]; [rewrite E; apply cp_empty|now apply cp_none].
    + intros Hc. f_equal. symmetry. apply no_line_says. inversion Hc; subst; auto.
  - apply Forall_cons_iff in Hx as [(Hn1 & Hn2 & Hn3) Hx]. destruct (folded_exists ls) as [logical Hlo]. rewrite (H logical Hlo).
    rewrite (head_says (req_line_m first) logical en (fun x h n => mkReqHead (fst (fst x)) (snd (fst x)) (snd x) h (headers_get (bs "Transfer-Encoding") h) n) m)
      by (eapply folded_utf8; eauto; now apply text_utf8).
    apply (complaint_split line_complaint _ first ls en m _ (req_line_m first)); auto; [now apply text_utf8| |].
    + split; [now apply req_line_complete|now apply req_line_sound].
    + assert (Hr : req_line first = forget (req_line_m first)).
      { unfold req_line, req_line_m. rewrite token_forget. destruct (parse_token_m (parser_new first)) as [[mt|e| |] p1]; try reflexivity. cbn [msbind sbind forget].
        rewrite method_forget. destruct (parse_method_m mt) as [x|e| |]; try reflexivity. cbn [msbind sbind forget].
        rewrite token_forget. destruct (parse_token_m p1) as [[u|e| |] p2]; try reflexivity. cbn [msbind sbind forget].
        rewrite token_forget. destruct (parse_token_m p2) as [[v|e| |] p3]; try reflexivity. cbn [msbind sbind forget fst].
        rewrite version_forget. destruct (parse_version_m v); reflexivity. }
      split.
      * intros [[[x u] v] E]. rewrite E in Hr. exists x, u, v. now apply request_line_meaning.
      * intros (x & u & v & E). apply request_line_accepted in E; auto. rewrite E in Hr. symmetry in Hr. apply forget_ok in Hr. eauto.
Qed.
Print Assumptions C74_request.

Theorem C74_response : forall T bld (rd : reader T) t xs fuel lines en m, delivers rd t xs -> length xs < fuel -> head_stream bld lines en xs ->
  fst (response_head_m (crlf_next_m bld rd fuel) fuel t) = MErr m <-> response_complaint lines en m.
Proof.
  intros T bld rd t xs fuel lines en m (R & HR & Ht) Hf Hs. destruct (stream_lines _ _ _ _ Hs) as [Hx Hl].
  assert (Hrd : ready bld R fuel t lines en) by (exists xs; auto).
  pose proof (response_ready bld rd R HR fuel fuel t lines en Hrd ltac:(lia)) as H. unfold response_complaint. destruct lines as [|first ls].
  - rewrite H. split.
    + intros [= <-]. destruct (proj2 (no_line_says en _) eq_refl) as [[-> E]|He]; [rewrite E; apply cp_empty|now apply cp_none].
    + intros Hc. f_equal. symmetry. apply no_line_says. inversion Hc; subst; auto.
  - apply Forall_cons_iff in Hx as [(Hn1 & Hn2 & Hn3) Hx]. destruct (folded_exists ls) as [logical Hlo]. rewrite (H logical Hlo).
    rewrite (head_says (resp_line_m first) logical en (fun x h n => mkRespHead (fst x) (snd x) h (headers_get (bs "Transfer-Encoding") h) n) m)
      by (eapply folded_utf8; eauto; now apply text_utf8).
    apply (complaint_split status_complaint _ first ls en m _ (resp_line_m first)); auto; [now apply text_utf8| |].
    + split; [now apply resp_line_complete|now apply resp_line_sound].
    + assert (Hr : resp_line first = forget (resp_line_m first)).
      { unfold resp_line, resp_line_m. rewrite token_forget. destruct (parse_token_m (parser_new first)) as [[mt|e| |] p1]; try reflexivity. cbn [msbind sbind forget].
        rewrite version_forget. destruct (parse_version_m mt) as [x|e| |]; try reflexivity. cbn [msbind sbind forget].
        rewrite remaining_forget. destruct (parse_remaining_m p1) as [[u|e| |] p2]; try reflexivity. cbn [msbind sbind forget fst].
        rewrite status_forget. destruct (parse_status_m u); reflexivity. }
      split.
      * intros [[v st] E]. rewrite E in Hr. exists v, st. now apply status_line_meaning.
      * intros (v & st & E). apply status_line_accepted in E; auto. rewrite E in Hr. symmetry in Hr. apply forget_ok in Hr. eauto.
Qed.
Print Assumptions C74_response.

(** ** What the answer looks like *)
Definition readable (b : byte) : Prop := (32 <= bval b /\ bval b <> 127)%N.

(** The texts of the messages are texts. *)
Definition wellformed (m : message) : Prop :=
  match m with MsgParse t => is_utf8 t | MsgEof t => is_utf8 t | _ => True end.

Lemma utf8_join a b : is_utf8 a -> is_utf8 b -> is_utf8 (a ++ b).
Proof. intros Ha Hb. apply is_utf8_valid. apply is_utf8_valid in Ha, Hb. now apply valid_app. Qed.

Lemma upper_table_ok : forallb (fun e => forallb scalar (snd e)) upper_table = true.
Proof. vm_compute. reflexivity. Qed.
Lemma to_uppercase_utf8 s : is_utf8 s -> is_utf8 (to_uppercase s).
Proof.
  intros (cs & Hc & ->). unfold to_uppercase. rewrite decode_encode by auto. exists (flat_map upper_char cs). split; auto.
  induction Hc as [|c cs H1 H2 IH]; cbn [flat_map]; [constructor|]. apply Forall_app. split; auto.
  unfold upper_char. destruct (assocN upper_table c) as [l|] eqn:E; auto.
  pose proof upper_table_ok as H. rewrite forallb_forall in H. apply assocN_in in E. specialize (H _ E). cbn [snd] in H.
  apply Forall_forall. rewrite forallb_forall in H. exact H.
Qed.

Lemma got_wellformed x y : is_utf8 x -> is_utf8 y -> wellformed (got x y).
Proof. intros Hx Hy. unfold got. cbn [wellformed]. repeat apply utf8_join; auto; now apply utf8_bs_ascii. Qed.
Lemma version_wellformed t m : version_complaint t m -> wellformed m.
Proof.
  assert (A : forall s, ascii s = true -> is_utf8 s) by apply utf8_bs_ascii.
  destruct 1; cbn [wellformed]; auto; try (apply got_wellformed; auto).
  apply is_utf8_valid. now apply one_ascii.
Qed.
Lemma line_wellformed l m : is_utf8 l -> line_complaint l m -> wellformed m.
Proof.
  intros Hu H. destruct H as [t1 w1 r1 S1 Hm| | |]; cbn [wellformed]; try (now apply utf8_bs_ascii); [|eapply version_wellformed; eauto].
  apply utf8_join; [now apply utf8_bs_ascii|]. apply to_uppercase_utf8. now destruct (split_utf8 _ _ _ _ S1 Hu).
Qed.
Lemma header_wellformed l m : is_utf8 l -> header_complaint l m -> wellformed m.
Proof.
  intros Hu H. destruct H as [|l Hn Hc|k Hk|k c r Hk Hc Ha].
  - now apply utf8_bs_ascii.
  - cbn [wellformed]. repeat apply utf8_join; auto; now apply utf8_bs_ascii.
  - apply got_wellformed; now apply utf8_bs_ascii.
  - apply got_wellformed; [now apply utf8_bs_ascii|]. apply is_utf8_valid. rewrite valid_ascii_cons by reflexivity. now apply one_ascii.
Qed.
Lemma request_wellformed lines en m : Forall text_line lines -> request_complaint lines en m -> wellformed m.
Proof.
  intros Hx H. inversion H as [|en' m' He|l ls en' m' Hf|l ls en' good bad rest m' Hl Hf Hg Hb|l ls en' logical m' Hl Hf Hg He|]; subst; try exact I; try (now apply utf8_bs_ascii).
  - destruct He; try exact I. now apply utf8_bs_ascii.
  - apply Forall_cons_iff in Hx as [(_ & _ & Hu) _]. eapply line_wellformed; eauto.
  - apply Forall_cons_iff in Hx as [_ Hx]. apply text_utf8 in Hx. apply (folded_utf8 _ _ Hf) in Hx. apply Forall_app in Hx as [_ Hx].
    inversion Hx; subst. eapply header_wellformed; eauto.
  - destruct He; try exact I. now apply utf8_bs_ascii.
Qed.

Lemma hex_readable c : Forall (fun b => readable b /\ (bval b < 128)%N /\ b <> x7d) (show_hex c).
Proof.
  destruct (show_radix_numeral 16 c) as (_ & ds & Hf & _); [lia|lia|]. fold (show_hex c) in Hf.
  induction Hf as [|b d l ds [H1 H2] Hf IH]; constructor; auto. unfold readable. repeat split; try lia.
  intros ->. vm_compute (bval x7d) in H2. lia.
Qed.
Lemma dec_readable c : Forall readable (show_dec c).
Proof.
  destruct (show_radix_numeral 10 c) as (_ & ds & Hf & _); [lia|lia|]. fold (show_dec c) in Hf.
  induction Hf as [|b d l ds [H1 H2] Hf IH]; constructor; auto. unfold readable. lia.
Qed.

(** One character: one of six abbreviations, a number, or the character itself. *)
Definition abbreviations : list (N * bytes) :=
  [(0, bs "\0"); (9, bs "\t"); (10, bs "\n"); (13, bs "\r"); (34, [x5c; x22]); (92, [x5c; x5c])]%N.
Lemma debug_char_cases hidden c :
  In (c, debug_char hidden c) abbreviations
  \/ debug_char hidden c = bs "\u{" ++ show_hex c ++ bs "}"
  \/ (debug_char hidden c = encode_char c /\ c <> 34 /\ c <> 92 /\ 32 <= c /\ c <> 127)%N.
Proof.
  unfold debug_char, abbreviations. cbn [In].
  destruct (N.eqb_spec c 0) as [->|H0]; [auto|]. destruct (N.eqb_spec c 9) as [->|H9]; [auto|].
  destruct (N.eqb_spec c 10) as [->|H10]; [auto 10|]. destruct (N.eqb_spec c 13) as [->|H13]; [auto 10|].
  destruct (N.eqb_spec c 34) as [->|H34]; [auto 10|]. destruct (N.eqb_spec c 92) as [->|H92]; [auto 10|].
  right. destruct (N.ltb_spec c 32); [auto|]. destruct (N.eqb_spec c 127); [auto|]. cbn [orb].
  destruct ((127 <? c)%N && hidden c)%bool; auto. right. repeat split; auto; lia.
Qed.

(** How a character of a message is shown: by its abbreviation, else by its number when it cannot be shown, else as
    itself. *)
Definition shown (hidden : N -> bool) (c : N) (out : bytes) : Prop :=
  In (c, out) abbreviations
  \/ ~ In c (map fst abbreviations) /\
     (((c < 32 \/ c = 127 \/ 127 < c /\ hidden c = true)%N /\ out = bs "\u{" ++ show_hex c ++ bs "}")
      \/ ((32 <= c < 127 \/ 127 < c /\ hidden c = false)%N /\ out = encode_char c)).

Lemma debug_char_shown hidden c : shown hidden c (debug_char hidden c).
Proof.
  unfold shown, debug_char, abbreviations. cbn [In map fst].
  destruct (c =? 0)%N eqn:E0; [apply N.eqb_eq in E0 as ->; left; tauto|].
  destruct (c =? 9)%N eqn:E9; [apply N.eqb_eq in E9 as ->; left; tauto|].
  destruct (c =? 10)%N eqn:E10; [apply N.eqb_eq in E10 as ->; left; tauto|].
  destruct (c =? 13)%N eqn:E13; [apply N.eqb_eq in E13 as ->; left; tauto|].
  destruct (c =? 34)%N eqn:E34; [apply N.eqb_eq in E34 as ->; left; tauto|].
  destruct (c =? 92)%N eqn:E92; [apply N.eqb_eq in E92 as ->; left; tauto|].
  right. apply N.eqb_neq in E0, E9, E10, E13, E34, E92. split; [intuition congruence|].
  destruct ((c <? 32) || (c =? 127) || ((127 <? c) && hidden c))%N eqn:Eh; [left|right]; (split; [|reflexivity]).
  - rewrite !orb_true_iff, andb_true_iff, !N.ltb_lt, N.eqb_eq in Eh. tauto.
  - rewrite !orb_false_iff, andb_false_iff, !N.ltb_ge, N.eqb_neq in Eh. destruct Eh as [[H1 H2] H3].
    destruct (N.lt_ge_cases c 127); [left; lia|]. right. destruct H3 as [H3|H3]; [lia|]. split; [lia|auto].
Qed.

(** The text of a message, character by character. *)
Theorem C74_shows : forall hidden other cs, Forall (fun c => scalar c = true) cs ->
  exists outs, Forall2 (shown hidden) cs outs
    /\ show_error hidden other (MsgParse (utf8_encode cs)) = bs "ParseError(""" ++ concat outs ++ bs """)"
    /\ show_error hidden other (MsgEof (utf8_encode cs)) = bs "UnexpectedEof(""" ++ concat outs ++ bs """)".
Proof.
  intros hidden other cs Hc. exists (map (debug_char hidden) cs). split.
  - clear Hc. induction cs; constructor; auto. apply debug_char_shown.
  - unfold show_error, debug_str. rewrite decode_encode, flat_map_concat_map by auto.
    rewrite <- !app_assoc. split; reflexivity.
Qed.
Print Assumptions C74_shows.

Lemma encode_readable c : scalar c = true -> (32 <= c)%N -> c <> 127%N -> Forall readable (encode_char c).
Proof.
  intros Hs H1 H2. destruct (encode_char_shape c Hs) as (b & r & -> & Hb & Hr & Hi & Hl). unfold readable. constructor.
  - destruct (N.lt_ge_cases c 128) as [H|H]; [destruct (Hl H) as [_ ->]; lia|]. destruct (N.lt_ge_cases (bval b) 128); lia.
  - apply Forall_forall. rewrite forallb_forall in Hr. intros x Hx. apply Hr in Hx. unfold is_cont, in_range in Hx. apply andb_true_iff in Hx as [Hx _].
    apply N.leb_le in Hx. lia.
Qed.

Lemma debug_char_good hidden c : scalar c = true -> Forall readable (debug_char hidden c) /\ is_utf8 (debug_char hidden c).
Proof.
  intros Hs. destruct (debug_char_cases hidden c) as [H|[->|(-> & _ & _ & H1 & H2)]].
  - cbn [In abbreviations] in H. repeat (destruct H as [H|H]; [injection H as _ <-; split;
      [repeat constructor; vm_compute; congruence|now apply utf8_bs_ascii]|]). easy.
  - split.
    + apply Forall_app. split; [repeat constructor; vm_compute; congruence|]. apply Forall_app. split; [|repeat constructor; vm_compute; congruence].
      eapply Forall_impl; [|apply hex_readable]. now intros b [H _].
    + apply utf8_bs_ascii. unfold ascii. rewrite !forallb_app. rewrite !andb_true_iff. repeat split; auto. apply forallb_forall.
      pose proof (hex_readable c) as H. rewrite Forall_forall in H. intros x Hx. apply N.ltb_lt. now apply H.
  - split; [now apply encode_readable|]. exists [c]. split; auto. cbn. now rewrite app_nil_r.
Qed.
Lemma debug_chars_good hidden cs : Forall (fun c => scalar c = true) cs ->
  Forall readable (flat_map (debug_char hidden) cs) /\ is_utf8 (flat_map (debug_char hidden) cs).
Proof.
  induction 1 as [|c cs H1 H2 [I1 I2]]; cbn [flat_map]; [split; [constructor|now exists []]|].
  destruct (debug_char_good hidden c H1). split; [apply Forall_app; auto|now apply utf8_join].
Qed.

Lemma split_once (x : byte) : forall a1 b1 a2 b2, ~ In x a1 -> ~ In x a2 -> a1 ++ x :: b1 = a2 ++ x :: b2 -> a1 = a2 /\ b1 = b2.
Proof.
  induction a1 as [|a a1 IH]; intros b1 [|b a2] b2 H1 H2 E; cbn [app] in E.
  - injection E as ->. auto.
  - injection E as -> _. exfalso. apply H2. now left.
  - injection E as -> _. exfalso. apply H1. now left.
  - injection E as -> E. destruct (IH b1 a2 b2) as [-> ->]; auto; intros ?; [apply H1|apply H2]; now right.
Qed.
Lemma show_radix_inj radix a b : (2 <= radix <= 36)%N -> show_radix radix a = show_radix radix b -> a = b.
Proof.
  intros Hr E. destruct (show_radix_numeral radix a) as (_ & d1 & F1 & V1); [lia|lia|]. destruct (show_radix_numeral radix b) as (_ & d2 & F2 & V2); [lia|lia|].
  rewrite E in F1. rewrite <- V1, <- V2. f_equal. clear -F1 F2 Hr. revert d2 F2. induction F1 as [|c x l ds [H1 H2] Hf IH]; intros d2 F2; inversion F2 as [|c' y l' ds' [H3 H4] Hf']; subst; auto.
  f_equal; auto. lia.
Qed.

Lemma debug_char_inj hidden c1 c2 r1 r2 : scalar c1 = true -> scalar c2 = true -> is_utf8 r1 -> is_utf8 r2 ->
  debug_char hidden c1 ++ r1 = debug_char hidden c2 ++ r2 -> c1 = c2 /\ r1 = r2.
Proof.
  intros S1 S2 U1 U2 E.
  assert (Hx : forall c r, scalar c = true -> c <> 92%N -> forall t, encode_char c ++ r <> x5c :: t).
  { intros c r Hs Hc t Et. destruct (encode_char_shape c Hs) as (b & q & Eb & _ & _ & Hi & Hl). rewrite Eb in Et. injection Et as -> _.
    vm_compute (bval x5c) in *. assert (Hlt : (c < 128)%N) by (apply Hi; lia). destruct (Hl Hlt) as [_ Hv]. congruence. }
  assert (Hh : forall c, ~ In x7d (show_hex c)).
  { intros c Hin. pose proof (hex_readable c) as H. rewrite Forall_forall in H. now apply H in Hin as (_ & _ & ?). }
  destruct (debug_char_cases hidden c1) as [H1|[H1|(H1 & N1 & M1 & _)]], (debug_char_cases hidden c2) as [H2|[H2|(H2 & N2 & M2 & _)]].
  - cbn [In abbreviations] in H1, H2.
    repeat (destruct H1 as [H1|H1]; [injection H1 as <- H1; rewrite <- H1 in E;
      repeat (destruct H2 as [H2|H2]; [injection H2 as <- H2; rewrite <- H2 in E; cbn in E; (split; congruence)|]); easy|]). easy.
  - cbn [In abbreviations] in H1. rewrite H2 in E.
    repeat (destruct H1 as [H1|H1]; [injection H1 as <- H1; rewrite <- H1 in E; discriminate|]). easy.
  - cbn [In abbreviations] in H1. rewrite H2 in E. exfalso.
    repeat (destruct H1 as [H1|H1]; [injection H1 as <- H1; rewrite <- H1 in E; symmetry in E; now apply Hx in E|]). easy.
  - cbn [In abbreviations] in H2. rewrite H1 in E.
    repeat (destruct H2 as [H2|H2]; [injection H2 as <- H2; rewrite <- H2 in E; discriminate|]). easy.
  - rewrite H1, H2, <- !app_assoc in E. apply app_inv_head in E. apply split_once in E as [E ->]; auto. split; auto.
    now apply show_radix_inj in E.
  - rewrite H1, H2 in E. symmetry in E. now apply Hx in E.
  - cbn [In abbreviations] in H2. rewrite H1 in E. exfalso.
    repeat (destruct H2 as [H2|H2]; [injection H2 as <- H2; rewrite <- H2 in E; now apply Hx in E|]). easy.
  - rewrite H1, H2 in E. now apply Hx in E.
  - rewrite H1, H2 in E. destruct U1 as (l1 & F1 & ->). pose proof (f_equal utf8_decode E) as Ed. rewrite !decode_encode_char in Ed by auto.
    rewrite decode_encode in Ed by auto. destruct U2 as (l2 & F2 & ->). rewrite decode_encode in Ed by auto. cbn [ocons] in Ed. injection Ed as -> ->. auto.
Qed.

Lemma debug_str_inj hidden t1 t2 : is_utf8 t1 -> is_utf8 t2 -> debug_str hidden t1 = debug_str hidden t2 -> t1 = t2.
Proof.
  intros (c1 & F1 & ->) (c2 & F2 & ->) E. unfold debug_str in E. rewrite !decode_encode in E by auto. apply app_inv_head in E. f_equal.
  apply app_inj_tail in E as [E _]. revert c2 F2 E. induction F1 as [|c l H1 H2 IH]; intros c2 F2 E.
  - destruct c2 as [|d c2]; auto. cbn [flat_map] in E. exfalso. symmetry in E. apply app_eq_nil in E as [E _].
    destruct (debug_char_cases hidden d) as [H|[H|[H _]]]; rewrite E in H; [|discriminate|symmetry in H; now apply encode_char_nonempty in H].
    cbn [In abbreviations] in H. repeat (destruct H as [H|H]; [discriminate|]). easy.
  - destruct c2 as [|d c2].
    { cbn [flat_map] in E. exfalso. apply app_eq_nil in E as [E _].
      destruct (debug_char_cases hidden c) as [H|[H|[H _]]]; rewrite E in H; [|discriminate|symmetry in H; now apply encode_char_nonempty in H].
      cbn [In abbreviations] in H. repeat (destruct H as [H|H]; [discriminate|]). easy. }
    cbn [flat_map] in E. apply Forall_cons_iff in F2 as [G1 G2]. apply debug_char_inj in E as [-> E]; auto.
    + f_equal. auto.
    + now apply debug_chars_good.
    + now apply debug_chars_good.
Qed.

Lemma debug_readable hidden t : is_utf8 t -> Forall readable (debug_str hidden t).
Proof.
  intros (cs & Hc & ->). unfold debug_str. rewrite decode_encode by auto.
  apply Forall_app. split; [repeat constructor; vm_compute; congruence|]. apply Forall_app. split; [now apply debug_chars_good|].
  repeat constructor; vm_compute; congruence.
Qed.
Lemma readable_bs s : forallb (fun b => (32 <=? bval b)%N && negb (bval b =? 127)%N)%bool s = true -> Forall readable s.
Proof.
  intros H. apply Forall_forall. rewrite forallb_forall in H. intros b Hb. apply H in Hb. apply andb_true_iff in Hb as [H1 H2].
  apply N.leb_le in H1. apply negb_true_iff, N.eqb_neq in H2. split; auto.
Qed.

(** Nothing of what a client sends can put a control character, such as a line break, into the text. *)
Theorem C74_readable : forall bld hidden other lines en xs m, head_stream bld lines en xs -> request_complaint lines en m ->
  (forall e, m <> MsgOther e) -> Forall readable (show_error hidden other m).
Proof.
  intros bld hidden other lines en xs m Hs H Hm. destruct (stream_lines _ _ _ _ Hs) as [Hx _]. apply (request_wellformed lines en m Hx) in H.
  destruct m as [t|k|u len|t|e]; cbn [show_error wellformed] in *; [| | | |now destruct (Hm e)].
  - apply Forall_app. split; [now apply readable_bs|]. apply Forall_app. split; [now apply debug_readable|now apply readable_bs].
  - destruct k; now apply readable_bs.
  - apply Forall_app. split; [now apply readable_bs|]. apply Forall_app. split; [apply dec_readable|]. apply Forall_app. split; [now apply readable_bs|].
    apply Forall_app. split; [|now apply readable_bs]. destruct len as [n|]; [|now apply readable_bs].
    apply Forall_app. split; [now apply readable_bs|]. apply Forall_app. split; [apply dec_readable|now apply readable_bs].
  - apply Forall_app. split; [now apply readable_bs|]. apply Forall_app. split; [now apply debug_readable|now apply readable_bs].
Qed.
Print Assumptions C74_readable.

Lemma digits_end (a : bytes) : forall b r1 r2, Forall dec_digit a -> Forall dec_digit b -> (forall x t, r1 = x :: t -> ~ dec_digit x) ->
  (forall x t, r2 = x :: t -> ~ dec_digit x) -> a ++ r1 = b ++ r2 -> a = b /\ r1 = r2.
Proof.
  induction a as [|x a IH]; intros [|y b] r1 r2 H1 H2 N1 N2 E; cbn [app] in E; auto.
  - inversion H2; subst. now destruct (N1 y (b ++ r2)).
  - inversion H1; subst. now destruct (N2 x (a ++ r1)).
  - injection E as -> E. inversion H1; inversion H2; subst. destruct (IH b r1 r2) as [-> ->]; auto.
Qed.
Lemma dec_digits c : Forall dec_digit (show_dec c).
Proof.
  destruct (show_radix_numeral 10 c) as (_ & ds & Hf & _); [lia|lia|]. fold (show_dec c) in Hf.
  induction Hf as [|b d l ds [H1 H2] Hf IH]; constructor; auto. unfold dec_digit. lia.
Qed.

(** The text tells what is wrong: no two messages have the same text. *)
Theorem C74_tells : forall hidden other m1 m2, wellformed m1 -> wellformed m2 -> (forall e, m1 <> MsgOther e) -> (forall e, m2 <> MsgOther e) ->
  show_error hidden other m1 = show_error hidden other m2 -> m1 = m2.
Proof.
  intros hidden other m1 m2 W1 W2 O1 O2 E.
  destruct m1 as [t1|k1|u1 l1|t1|e1]; [| | | |now destruct (O1 e1)]; (destruct m2 as [t2|k2|u2 l2|t2|e2]; [| | | |now destruct (O2 e2)]);
    try discriminate; cbn [show_error wellformed] in *.
  - apply app_inv_head in E. apply app_inv_tail in E. f_equal. eapply debug_str_inj; eauto.
  - f_equal. now destruct k1, k2.
  - apply app_inv_head in E.
    assert (Hd : forall x t r, bs ", error_len: " ++ r = x :: t -> ~ dec_digit x) by (intros x t r [= <- _]; unfold dec_digit; vm_compute; intuition congruence).
    apply digits_end in E as [Eu E]; auto using dec_digits; [|now intros; eapply Hd; eauto|now intros; eapply Hd; eauto].
    apply show_radix_inj in Eu; [|lia]. apply Nat2N.inj in Eu as ->. apply app_inv_head in E. f_equal.
    destruct l1 as [n1|], l2 as [n2|]; try discriminate; auto. rewrite <- !app_assoc in E. apply app_inv_head in E.
    assert (Hp : forall x t r, bs ")" ++ r = x :: t -> ~ dec_digit x) by (intros x t r [= <- _]; unfold dec_digit; vm_compute; intuition congruence).
    apply digits_end in E as [El _]; auto using dec_digits; [|now intros; eapply Hp; eauto|now intros; eapply Hp; eauto].
    apply show_radix_inj in El; [|lia]. congruence.
  - apply app_inv_head in E. apply app_inv_tail in E. f_equal. eapply debug_str_inj; eauto.
Qed.
Print Assumptions C74_tells.

(** ** The answer *)
Theorem C74_answer : forall S H bld cap (rd : reader S) (wt : writer S) hidden other log (hd : handler H) bufsz fuel hs s xs lines en m,
  0 < cap -> honest wt log -> reliable wt -> silent rd log -> 0 < bufsz -> bufsz <= fuel ->
  delivers rd s xs -> length xs < fuel -> head_stream bld lines en xs -> request_complaint lines en m -> m <> MsgOther LengthRequired ->
  length (show_error hidden other m) + 50 <= fuel ->
  exists s2, serve_stream bld cap rd wt (head_text hidden other bld cap rd fuel) hd bufsz fuel hs s = (Ok tt, [], hs, s2)
    /\ log s2 = log s ++ bs "HTTP/1.1 500 Internal Server Error" ++ CRLF ++ CRLF ++ show_error hidden other m.
Proof.
  intros S H bld cap rd wt hidden other log hd bufsz fuel hs s xs lines en m Hc Hh Hr Hs Hb Hbf D Hl Hst Hm Hn Hf.
  pose proof (bufr_delivers bld cap rd s xs Hc D) as D2.
  apply (C74_request _ bld _ _ xs fuel lines en m D2 Hl Hst) in Hm.
  destruct (C74_same _ bld (bufr_read bld cap rd) fuel (bufr_new s)) as [Hsame _].
  set (text := show_error hidden other m) in *.
  assert (Ht : forall e, head_text hidden other bld cap rd fuel e s = text) by (intros e; unfold head_text; now rewrite Hm).
  destruct (request_head_m (crlf_next_m bld (bufr_read bld cap rd) fuel) fuel (bufr_new s)) as [r0 t']. cbn [fst] in Hm. subst r0. cbn [forget] in Hsame.
  assert (E1 : serve_one_inner bld cap rd (head_text hidden other bld cap rd fuel) hd fuel hs s
    = (Ok (inr (from_string InternalServerError text)), [], hs, br_inner t')).
  { unfold serve_one_inner, request_deserialize. rewrite Hsame. cbn [sbind]. unfold error_response. rewrite Ht.
    destruct m as [t|k|u l|t|e]; cbn [kind_of]; auto. destruct e; auto. now destruct Hn. }
  destruct (C50_complete S H bld cap rd wt _ log hd bufsz fuel hs s _ _ _ _
    (from_string InternalServerError text) (map B text) text Hh Hr Hs Hb E1 (or_intror eq_refl)) as (s2 & E2 & L2); auto.
  - exact (from_string_delivers bld cap fuel InternalServerError text Hc).
  - apply noisy_map.
  - change (length (response_wire (from_string InternalServerError text) [])) with 38. lia.
  - rewrite map_length. lia.
  - exists s2. split; [exact E2|exact L2].
Qed.
Print Assumptions C74_answer.

(** What is sent back is what was sent, when it needs no escaping: whoever can make somebody else's browser send a header
    line can have it shown, with no [Content-Type] to say what it is. *)
Definition unescaped (b : byte) : Prop := (32 <= bval b < 127)%N /\ b <> x22 /\ b <> x5c.

Lemma unescaped_bs s : forallb (fun b => (32 <=? bval b)%N && (bval b <? 127)%N && negb (Byte.eqb b x22) && negb (Byte.eqb b x5c))%bool s = true -> Forall unescaped s.
Proof.
  intros H. apply Forall_forall. rewrite forallb_forall in H. intros b Hb. apply H in Hb. rewrite !andb_true_iff in Hb. destruct Hb as [[[H1 H2] H3] H4].
  apply N.leb_le in H1. apply N.ltb_lt in H2. apply negb_true_iff in H3, H4. split; [lia|]. split; intros ->; discriminate.
Qed.
Lemma debug_plain hidden : forall l, Forall unescaped l -> debug_str hidden l = [x22] ++ l ++ [x22].
Proof.
  intros l Hl. unfold debug_str. assert (Hd : utf8_decode l = Some (map bval l)).
  { apply ascii_decode. unfold ascii. apply forallb_forall. rewrite Forall_forall in Hl. intros b Hb. apply Hl in Hb as [H _]. apply N.ltb_lt. lia. }
  rewrite Hd. f_equal. f_equal. clear Hd. induction Hl as [|b l (H1 & H2 & H3) Hl IH]; auto. cbn [map flat_map]. rewrite IH.
  change (b :: l) with ([b] ++ l). f_equal. unfold debug_char.
  rewrite !(proj2 (N.eqb_neq _ _)) by lia.
  assert (bval b <> 34 /\ bval b <> 92)%N as [N1 N2] by (split; intros E; [apply H2|apply H3]; apply bval_inj; rewrite E; reflexivity).
  rewrite (proj2 (N.eqb_neq _ _) N1), (proj2 (N.eqb_neq _ _) N2), (proj2 (N.ltb_ge (bval b) 32)), (proj2 (N.ltb_ge 127 (bval b))) by lia.
  cbn [orb andb]. unfold encode_char. rewrite (proj2 (N.ltb_lt (bval b) 128)) by lia.
  rewrite byte_of_bval, (proj2 (N.eqb_neq (bval b) 127)) by lia. reflexivity.
Qed.

Theorem C74_reflects : forall S H bld cap (rd : reader S) (wt : writer S) hidden other log (hd : handler H) bufsz fuel hs s first line zs m u v,
  0 < cap -> honest wt log -> reliable wt -> silent rd log -> 0 < bufsz -> bufsz <= fuel ->
  text_line first -> request_line_says first m u v -> line <> [] -> Forall unescaped line -> ~ In COLON line ->
  delivers rd s (map B (first ++ CRLF ++ line ++ CRLF ++ CRLF) ++ zs) -> length first + length line + length zs + 200 < fuel ->
  exists s2, serve_stream bld cap rd wt (head_text hidden other bld cap rd fuel) hd bufsz fuel hs s = (Ok tt, [], hs, s2)
    /\ log s2 = log s ++ bs "HTTP/1.1 500 Internal Server Error" ++ CRLF ++ CRLF
         ++ bs "ParseError(" ++ [x22] ++ bs "Expected ':' in '" ++ line ++ bs "'" ++ [x22] ++ bs ")".
Proof.
  intros S H bld cap rd wt hidden other log hd bufsz fuel hs s first line zs m u v Hc Hh Hr Hs Hb Hbf Ht Hq Hne Hun Hco D Hl.
  assert (Htl : text_line line).
  { split; auto. split.
    - apply no_cr_no_crlf. intros Hin. rewrite Forall_forall in Hun. apply Hun in Hin as [[Hin _] _]. now apply Hin.
    - apply utf8_bs_ascii. unfold ascii. apply forallb_forall. rewrite Forall_forall in Hun. intros b Hb'. apply Hun in Hb' as [? _]. apply N.ltb_lt. lia. }
  set (msg := MsgParse (bs "Expected ':' in '" ++ line ++ bs "'")).
  assert (Eq : show_error hidden other msg = bs "ParseError(" ++ [x22] ++ bs "Expected ':' in '" ++ line ++ bs "'" ++ [x22] ++ bs ")").
  { unfold msg. cbn [show_error]. rewrite debug_plain; [now rewrite <- !app_assoc|].
    apply Forall_app. split; [|apply Forall_app; split; auto].
    - now apply unescaped_bs.
    - now apply unescaped_bs. }
  rewrite <- Eq.
  assert (Ea : map B (first ++ CRLF ++ line ++ CRLF ++ CRLF) ++ zs
    = map B (first ++ [CR]) ++ B LF :: map B (line ++ [CR]) ++ B LF :: map B [CR] ++ B LF :: zs).
  { rewrite !map_app, <- !app_assoc. reflexivity. }
  apply (C74_answer S H bld cap rd wt hidden other log hd bufsz fuel hs s (map B (first ++ CRLF ++ line ++ CRLF ++ CRLF) ++ zs) [first; line] Complete msg); auto.
  - rewrite app_length, map_length, !app_length. cbn [length CRLF]. lia.
  - rewrite Ea. apply hs_line; auto using noisy_map. apply hs_line; auto using noisy_map. apply hs_complete, noisy_map.
  - apply (cp_header line_complaint _ first [line] Complete [] line []).
    + eauto.
    + pose proof (folded_group line [] [] [] (Forall_nil _)) as Hfo. cbn [app concat] in Hfo. rewrite app_nil_r in Hfo. cbn [app]. apply Hfo; [intros ? ? [=]|constructor].
    + constructor.
    + now apply hc_no_colon.
  - discriminate.
  - rewrite Eq, !app_length. cbn [length bs String.list_byte_of_string]. change (length (bs "ParseError(")) with 11. change (length (bs "Expected ':' in '")) with 17.
    change (length (bs "'")) with 1. change (length (bs ")")) with 1. lia.
Qed.
Print Assumptions C74_reflects.

(** ** Example *)
Definition C74_try (wire : bytes) : bytes :=
  fst (snd (serve_stream Std 16 wire3_read wire3_writer (head_text (fun _ => false) (fun _ => bs "?") Std 16 wire3_read 300) echo 8 300 [] ([], segs [wire]))).
Definition C74_500 (text : bytes) : bytes := bs "HTTP/1.1 500 Internal Server Error" ++ CRLF ++ CRLF ++ text.

Example C74_case :
  C74_try (bs "GET / HTTP/1.1" ++ CRLF ++ bs "<b>hi</b>" ++ CRLF ++ CRLF) = C74_500 (bs "ParseError(""Expected ':' in '<b>hi</b>'"")")
  /\ C74_try (bs "GET / HTTP/1.1" ++ CRLF ++ bs "a""\" ++ [x0d; x07] ++ CRLF ++ CRLF) = C74_500 (bs "ParseError(""Expected ':' in 'a\""\\\r\u{7}'"")")
  /\ C74_try (bs "GET / HTTP/1.1" ++ CRLF ++ bs "a:b" ++ CRLF ++ CRLF) = C74_500 (bs "ParseError(""Expected ': ', got ':b'"")")
  /\ C74_try (bs "brew /pot HTTP/1.1" ++ CRLF ++ CRLF) = C74_500 (bs "ParseError(""Unknown method BREW"")")
  /\ C74_try (bs "GET /" ++ CRLF ++ CRLF) = C74_500 (bs "UnexpectedEof(""Expected token"")")
  /\ C74_try (bs "GET / SPDY/3" ++ CRLF ++ CRLF) = C74_500 (bs "ParseError(""Expected 'HTTP/', got 'SPDY/'"")")
  /\ C74_try (bs "GET / HTTP/x" ++ CRLF ++ CRLF) = C74_500 (bs "ParseIntError(ParseIntError { kind: InvalidDigit })")
  /\ C74_try (bs "GET / HTTP/1.1" ++ CRLF ++ bs "Content-Length: 18446744073709551616" ++ CRLF ++ CRLF)
     = C74_500 (bs "ParseIntError(ParseIntError { kind: PosOverflow })")
  /\ C74_try (bs "GET / HTTP/1.1" ++ CRLF ++ bs "ok" ++ [xc3; x28] ++ CRLF ++ CRLF)
     = C74_500 (bs "Utf8Error(Utf8Error { valid_up_to: 2, error_len: Some(1) })")
  /\ C74_try (bs "GET / HTTP/1.1" ++ CRLF ++ bs "Host: a") = C74_500 (bs "UnexpectedEof(""Expected \\r\\n"")")
  /\ C74_try CRLF = C74_500 (bs "UnexpectedEof(""Expected line"")").
Proof. vm_compute. repeat split. Qed.

Example C74_case_hypotheses : forall hidden other, exists s2,
  serve_stream NoStd 16 wire3_read wire3_writer (head_text hidden other NoStd 16 wire3_read 300) echo 8 300 []
    ([], segs [bs "GET / HTTP/1.1" ++ CRLF ++ bs "<b>"; bs "hi</b>" ++ CRLF ++ CRLF]) = (Ok tt, [], [], s2)
  /\ fst s2 = C74_500 (bs "ParseError(""Expected ':' in '<b>hi</b>'"")").
Proof.
  intros hidden other.
  assert (TL : text_line (bs "GET / HTTP/1.1")).
  { split; [easy|]. split; [apply no_cr_no_crlf; cbn; intuition easy|]. now apply utf8_bs_ascii. }
  apply (C74_reflects wire3 (list bytes) NoStd 16 wire3_read wire3_writer hidden other fst echo 8 300 []
    ([], segs [bs "GET / HTTP/1.1" ++ CRLF ++ bs "<b>"; bs "hi</b>" ++ CRLF ++ CRLF]) (bs "GET / HTTP/1.1") (bs "<b>hi</b>") [] Get (bs "/") (mkVersion 1 1));
    auto using wire3_honest, wire3_reliable, wire3_silent; try lia; try easy.
  - apply request_line_meaning; [apply TL|reflexivity].
  - now apply unescaped_bs.
  - cbn. intuition easy.
  - rewrite app_nil_r. apply wire3_delivers.
  - vm_compute. lia.
Qed.
