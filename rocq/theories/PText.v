(** The texts of the errors that clients get to see: C74. *)
From Verif Require Import Base Utf8 Case Num Io Parser Types Message Outgoing Client Server Transport Lemmas ReadLemmas
  NumLemmas Utf8Lemmas CaseLemmas ChunkSpec ChunkLemmas BodyLemmas ParserLemmas TypesLemmas HeadLemmas BlockLemmas MsgLemmas PBody
  PHead PReuse PServer ErrText.

(** ** The model with messages is the model *)

Lemma forget_no_text {A} (r : res A) : forget (no_text r) = r.
Proof. destruct r as [a|[]| |]; reflexivity. Qed.

Lemma utf8_error_valid : forall s k, match utf8_error k s with None => utf8_valid s = true | Some _ => utf8_valid s = false end.
Proof.
  intros s. remember (length s) as n eqn:Hn. revert s Hn. induction n as [n IH] using (well_founded_induction lt_wf). intros s Hn k.
  assert (IH' : forall s' k, length s' < n -> match utf8_error k s' with None => utf8_valid s' = true | Some _ => utf8_valid s' = false end) by (intros s0 k0 H0; exact (IH _ H0 s0 eq_refl k0)).
  clear IH. unfold utf8_valid in *. destruct s as [|a t]; [reflexivity|]. cbn [utf8_error utf8_decode]. cbn [length] in Hn.
  assert (Ho : forall m o, match (match ocons m o with Some _ => true | None => false end) with true => true | false => false end
    = match o with Some _ => true | None => false end) by (intros m [l|]; reflexivity).
  assert (Hs : forall m o k s', length s' < n -> o = utf8_decode s' ->
     match utf8_error k s' with None => (match ocons m o with Some _ => true | None => false end) = true
       | Some _ => (match ocons m o with Some _ => true | None => false end) = false end).
  { intros m o k' s' Hl ->. specialize (IH' s' k' Hl). destruct (utf8_decode s'); cbn; exact IH'. }
  destruct (bval a <? 128)%N eqn:E1; [apply Hs; [lia|reflexivity]|].
  destruct (in_range 194 223 a) eqn:E2.
  { destruct t as [|b t2]; [reflexivity|]. destruct (is_cont b); [|reflexivity]. apply Hs; cbn in *; [lia|reflexivity]. }
  assert (E3 : forall b, ok3 a b = true -> in_range 224 239 a = true).
  { intros b. unfold ok3, in_range, is_cont. rewrite !orb_true_iff, !andb_true_iff, !N.leb_le, !N.eqb_eq. lia. }
  assert (E4 : forall b, ok4 a b = true -> in_range 240 244 a = true).
  { intros b. unfold ok4, in_range, is_cont. rewrite !orb_true_iff, !andb_true_iff, !N.leb_le, !N.eqb_eq. lia. }
  assert (E5 : in_range 224 239 a = true -> in_range 240 244 a = true -> False).
  { unfold in_range. rewrite !andb_true_iff, !N.leb_le. lia. }
  destruct t as [|b t2]; [now destruct (in_range 224 239 a), (in_range 240 244 a)|].
  specialize (E3 b). specialize (E4 b).
  destruct (ok3 a b) eqn:K3.
  - rewrite E3 by auto. destruct t2 as [|c t3]; [reflexivity|]. destruct (is_cont c); [|reflexivity]. apply Hs; cbn in *; [lia|reflexivity].
  - destruct (ok4 a b) eqn:K4.
    + rewrite (E4 eq_refl). destruct (in_range 224 239 a) eqn:K5; [now destruct (E5 eq_refl (E4 eq_refl))|].
      destruct t2 as [|c t3]; [reflexivity|]. cbn [andb]. destruct (is_cont c); cbn [andb].
      * destruct t3 as [|d t4]; [reflexivity|]. destruct (is_cont d); cbn [andb]; [|reflexivity]. apply Hs; cbn in *; [lia|reflexivity].
      * now destruct t3.
    + cbn [andb]. destruct (in_range 224 239 a), (in_range 240 244 a), t2 as [|c [|d t3]]; reflexivity.
Qed.

Lemma crlf_forget {St} bld (rd : reader St) : forall fuel line s,
  crlf_loop bld rd fuel line s = let (r, s') := crlf_loop_m bld rd fuel line s in (forget r, s').
Proof.
  induction fuel as [|fu IH]; intros line s; [reflexivity|]. cbn [crlf_loop crlf_loop_m].
  destruct (bytes_next bld rd (S fu) s) as [[[b|]|e| |] s']; try reflexivity.
  destruct (ends_crlf (line ++ [b])); [|apply IH].
  destruct (firstn _ _) as [|x l] eqn:El; [reflexivity|].
  pose proof (utf8_error_valid (x :: l) 0) as H. destruct (utf8_error 0 (x :: l)) as [[u n]|]; rewrite H; reflexivity.
Qed.

Ltac fg := cbn [fst snd sbind msbind rbind mbind forget kind_of]; try reflexivity.
Lemma expect_forget p x : expect p x = let (r, p') := expect_m p x in (forget r, p').
Proof. unfold expect, expect_m. destruct (_ <=? _); fg. destruct (str_slice _ _ _); fg. destruct (beqb _ _); fg. Qed.
Lemma digit_forget p : parse_digit p = let (r, p') := parse_digit_m p in (forget r, p').
Proof. unfold parse_digit, parse_digit_m. destruct (_ <=? _); fg. destruct (str_slice _ _ _); fg. now rewrite forget_no_text. Qed.
Lemma until_forget p x : parse_until p x = let (r, p') := parse_until_m p x in (forget r, p').
Proof.
  unfold parse_until, parse_until_m. destruct (_ <=? _); fg. destruct (remaining p); fg. destruct (find_sub _ _); fg. now rewrite forget_no_text.
Qed.
Lemma token_forget p : parse_token p = let (r, p') := parse_token_m p in (forget r, p').
Proof.
  unfold parse_token_m. destruct (_ <=? _) eqn:E; [unfold parse_token; now rewrite E|].
  destruct (parse_token p). now rewrite forget_no_text.
Qed.
Lemma number_forget p : parse_number p = let (r, p') := parse_number_m p in (forget r, p').
Proof.
  unfold parse_number, parse_number_m. rewrite token_forget. destruct (parse_token_m p) as [[t|m| |] p']; fg. now rewrite forget_no_text.
Qed.
Lemma remaining_forget p : parse_remaining p = let (r, p') := parse_remaining_m p in (forget r, p').
Proof.
  unfold parse_remaining_m. destruct (_ <? _) eqn:E; [unfold parse_remaining; now rewrite E|].
  destruct (parse_remaining p). now rewrite forget_no_text.
Qed.
Lemma version_forget s : parse_version s = forget (parse_version_m s).
Proof.
  unfold parse_version, parse_version_m. rewrite expect_forget. destruct (expect_m _ _) as [[u|m| |] p1]; fg.
  rewrite digit_forget. destruct (parse_digit_m p1) as [[d|m| |] p2]; fg.
  rewrite expect_forget. destruct (expect_m _ _) as [[u2|m| |] p3]; fg.
  rewrite digit_forget. destruct (parse_digit_m p3) as [[d2|m| |] p4]; fg.
Qed.
Lemma status_forget s : parse_status s = forget (parse_status_m s).
Proof. unfold parse_status, parse_status_m. rewrite number_forget. destruct (parse_number_m _) as [[c|m| |] p]; fg. Qed.
Lemma method_forget s : parse_method s = forget (parse_method_m s).
Proof.
  unfold parse_method_m. destruct (parse_method s) as [m|e| |] eqn:E; [reflexivity| | |];
    unfold parse_method in E; repeat destruct (beqb _ _); try discriminate. now injection E as <-.
Qed.
Lemma header_forget s : header_deserialize s = forget (header_deserialize_m s).
Proof.
  unfold header_deserialize, header_deserialize_m. rewrite until_forget. destruct (parse_until_m _ _) as [[k|m| |] p1]; fg.
  rewrite expect_forget. destruct (expect_m _ _) as [[u|m| |] p2]; fg.
  rewrite remaining_forget. destruct (parse_remaining_m _) as [[v|m| |] p3]; fg.
Qed.

Section Forget.
  Context {L : Type} (nl : L -> res (option bytes) * L) (nlm : L -> mres (option bytes) * L).
  Context (Hnl : forall s, nl s = let (r, s') := nlm s in (forget r, s')).

  Lemma expect_next_forget s : expect_next nl s = let (r, s') := expect_next_m nlm s in (forget r, s').
  Proof using Hnl. unfold expect_next, expect_next_m. rewrite Hnl. destruct (nlm s) as [[[l|]|m| |] s']; fg. Qed.

  Lemma cont_forget : forall fuel line s, cont_loop nl fuel line s
    = let '(l, pk, s') := cont_loop_m nlm fuel line s in (l, option_map forget pk, s').
  Proof using Hnl.
    induction fuel as [|fu IH]; intros line s; [reflexivity|]. cbn [cont_loop cont_loop_m]. rewrite Hnl.
    destruct (nlm s) as [[[l|]|m| |] s']; fg. destruct (starts_blank l); [apply IH|reflexivity].
  Qed.

  Lemma headers_forget : forall fuel acc pk s, headers_loop nl fuel acc (option_map forget pk) s
    = let (r, s') := headers_loop_m nlm fuel acc pk s in (forget r, s').
  Proof using Hnl.
    induction fuel as [|fu IH]; intros acc pk s; [reflexivity|].
    unfold headers_loop, headers_loop_m; fold (headers_loop nl) (headers_loop_m nlm).
    assert (Hp : pk_next nl (option_map forget pk) s = let (r, s') := pk_next_m nlm pk s in (forget r, s')).
    { destruct pk as [r|]; [reflexivity|]. apply Hnl. }
    rewrite Hp. destruct (pk_next_m nlm pk s) as [[[l|]|m| |] s']; fg. rewrite cont_forget.
    destruct (cont_loop_m nlm (S fu) l s') as [[l2 pk2] s2]. rewrite header_forget.
    destruct pk2 as [[o|m| |]|]; cbn [option_map forget]; try reflexivity.
    1: specialize (IH (acc ++ [match header_deserialize_m l2 with MOk h => h | _ => ([],[]) end]) (Some (MOk o)) s2).
    2: specialize (IH (acc ++ [match header_deserialize_m l2 with MOk h => h | _ => ([],[]) end]) (Some (MErr m)) s2).
    3: specialize (IH (acc ++ [match header_deserialize_m l2 with MOk h => h | _ => ([],[]) end]) None s2).
    all: destruct (header_deserialize_m l2) as [h|m'| |]; fg; exact IH.
  Qed.

  Lemma request_forget fuel s : request_head nl fuel s = let (r, s') := request_head_m nlm fuel s in (forget r, s').
  Proof using Hnl.
    unfold request_head, request_head_m. rewrite expect_next_forget. destruct (expect_next_m nlm s) as [[l|m| |] s1]; fg.
    rewrite token_forget. destruct (parse_token_m (parser_new l)) as [[mt|m| |] p1]; fg.
    rewrite method_forget. destruct (parse_method_m mt) as [m|m| |]; fg.
    rewrite token_forget. destruct (parse_token_m p1) as [[u|m'| |] p2]; fg.
    rewrite token_forget. destruct (parse_token_m p2) as [[vt|m'| |] p3]; fg.
    rewrite version_forget. destruct (parse_version_m vt) as [v|m'| |]; fg.
    unfold headers_deserialize. rewrite (headers_forget fuel [] None s1 : headers_loop nl fuel [] None s1 = _).
    destruct (headers_loop_m nlm fuel [] None s1) as [[h|m'| |] s2]; fg.
    rewrite <- (forget_no_text (content_length_of h)) at 1. destruct (no_text (content_length_of h)); fg.
  Qed.

  Lemma response_forget fuel s : response_head nl fuel s = let (r, s') := response_head_m nlm fuel s in (forget r, s').
  Proof using Hnl.
    unfold response_head, response_head_m. rewrite expect_next_forget. destruct (expect_next_m nlm s) as [[l|m| |] s1]; fg.
    rewrite token_forget. destruct (parse_token_m (parser_new l)) as [[vt|m| |] p1]; fg.
    rewrite version_forget. destruct (parse_version_m vt) as [v|m'| |]; fg.
    rewrite remaining_forget. destruct (parse_remaining_m p1) as [[st|m'| |] p2]; fg.
    rewrite status_forget. destruct (parse_status_m st) as [x|m'| |]; fg.
    unfold headers_deserialize. rewrite (headers_forget fuel [] None s1 : headers_loop nl fuel [] None s1 = _).
    destruct (headers_loop_m nlm fuel [] None s1) as [[h|m'| |] s2]; fg.
    rewrite <- (forget_no_text (content_length_of h)) at 1. destruct (no_text (content_length_of h)); fg.
  Qed.
End Forget.

(** The messages do not change what is accepted, nor which kind of error there is. *)
Theorem C74_same : forall T bld (rd : reader T) fuel t,
  request_head (crlf_next bld rd fuel) fuel t
    = (let (r, t') := request_head_m (crlf_next_m bld rd fuel) fuel t in (forget r, t'))
  /\ response_head (crlf_next bld rd fuel) fuel t
    = (let (r, t') := response_head_m (crlf_next_m bld rd fuel) fuel t in (forget r, t')).
Proof.
  intros T bld rd fuel t. split; [apply request_forget|apply response_forget]; intros s; apply crlf_forget.
Qed.
Print Assumptions C74_same.

(** ** What a stream begins with: lines, and how they end *)
Inductive ending := Complete | CutOff | NotText (upto : nat) (len : option N) | Failed (e : error).

Inductive head_stream (bld : build) : list bytes -> ending -> list item -> Prop :=
| hs_line l pre ys ls en : text_line l -> noisy bld (l ++ [CR]) pre -> head_stream bld ls en ys ->
    head_stream bld (l :: ls) en (pre ++ B LF :: ys)
| hs_complete pre zs : noisy bld [CR] pre -> head_stream bld [] Complete (pre ++ B LF :: zs)
| hs_cut l pre : no_crlf l -> noisy bld l pre -> head_stream bld [] CutOff pre
| hs_text l pre zs upto len : no_crlf l -> utf8_error 0 l = Some (upto, len) -> noisy bld (l ++ [CR]) pre ->
    head_stream bld [] (NotText upto len) (pre ++ B LF :: zs)
| hs_fail l pre e zs : no_crlf l -> noisy bld l pre -> is_retry bld e = false ->
    head_stream bld [] (Failed e) (pre ++ Transport.E e :: zs).


Lemma utf8_error_upto : forall s k u l, utf8_error k s = Some (u, l) ->
  k <= u /\ u - k <= length s /\ is_utf8 (firstn (u - k) s).
Proof.
  assert (Hc : forall c s k u, is_utf8 c -> k + length c <= u /\ u - (k + length c) <= length s /\ is_utf8 (firstn (u - (k + length c)) s) ->
     k <= u /\ u - k <= length (c ++ s) /\ is_utf8 (firstn (u - k) (c ++ s))).
  { intros c s k u Hu (H1 & H2 & H3). split; [lia|]. split; [rewrite app_length; lia|].
    rewrite firstn_app, firstn_all2 by lia. replace (u - k - length c) with (u - (k + length c)) by lia. apply is_utf8_valid. apply valid_app; now apply is_utf8_valid. }
  assert (H0 : forall s k, k <= k /\ k - k <= length s /\ is_utf8 (firstn (k - k) s)).
  { intros s k. rewrite Nat.sub_diag. split; [lia|]. split; [lia|]. apply is_utf8_valid. reflexivity. }
  intros s. remember (length s) as n eqn:Hn. revert s Hn. induction n as [n IH] using (well_founded_induction lt_wf). intros s Hn k u l E. subst n.
  assert (IH' : forall c s', s = c ++ s' -> c <> [] -> utf8_valid c = true -> forall k0, k0 = k + length c -> utf8_error k0 s' = Some (u, l) ->
    k <= u /\ u - k <= length s /\ is_utf8 (firstn (u - k) s)).
  { intros c s' -> Hne Hv k0 -> E'. apply Hc; [now apply is_utf8_valid|]. apply (IH (length s')) with (l := l); auto.
    rewrite app_length. destruct c; [easy|]. cbn. lia. }
  destruct s as [|a t]; [discriminate|]. cbn [utf8_error] in E.
  destruct (bval a <? 128)%N eqn:E1.
  { apply (IH' [a] t) with (k0 := k + 1); auto; try easy. unfold utf8_valid. cbn [utf8_decode]. now rewrite E1. }
  destruct (in_range 194 223 a) eqn:E2.
  { destruct t as [|b t2]; [injection E as <- <-; apply H0|]. destruct (is_cont b) eqn:Eb; [|injection E as <- <-; apply H0].
    apply (IH' [a; b] t2) with (k0 := k + 2); auto; try easy. unfold utf8_valid. cbn [utf8_decode]. now rewrite E1, E2, Eb. }
  destruct (in_range 224 239 a) eqn:E3.
  { destruct t as [|b t2]; [injection E as <- <-; apply H0|]. destruct (ok3 a b) eqn:Eb; [|injection E as <- <-; apply H0].
    destruct t2 as [|c t3]; [injection E as <- <-; apply H0|]. destruct (is_cont c) eqn:Ec; [|injection E as <- <-; apply H0].
    apply (IH' [a; b; c] t3) with (k0 := k + 3); auto; try easy. unfold utf8_valid. cbn [utf8_decode]. now rewrite E1, E2, Eb, Ec. }
  destruct (in_range 240 244 a) eqn:E4; [|injection E as <- <-; apply H0].
  destruct t as [|b t2]; [injection E as <- <-; apply H0|]. destruct (ok4 a b) eqn:Eb; [|injection E as <- <-; apply H0].
  destruct t2 as [|c t3]; [injection E as <- <-; apply H0|]. destruct (is_cont c) eqn:Ec; [|injection E as <- <-; apply H0].
  destruct t3 as [|d t4]; [injection E as <- <-; apply H0|]. destruct (is_cont d) eqn:Ed; [|injection E as <- <-; apply H0].
  apply (IH' [a; b; c; d] t4) with (k0 := k + 4); auto; try easy. unfold utf8_valid. cbn [utf8_decode]. rewrite E1, E2.
  destruct (ok3 a b) eqn:K3.
  { exfalso. unfold ok3, in_range, is_cont in K3. unfold in_range in E3, E4. apply andb_false_iff in E3. apply andb_true_iff in E4 as [E4 _].
    apply N.leb_le in E4. rewrite !orb_true_iff, !andb_true_iff, !N.leb_le, !N.eqb_eq in K3. lia. }
  now rewrite Eb, Ec, Ed.
Qed.

Lemma utf8_error_skip : forall p k q, is_utf8 p -> utf8_error k (p ++ q) = utf8_error (k + length p) q.
Proof.
  intros p. remember (length p) as n eqn:Hn. revert p Hn. induction n as [n IH] using (well_founded_induction lt_wf).
  intros p -> k q Hu. apply is_utf8_valid in Hu. destruct p as [|a t]; [cbn; now rewrite Nat.add_0_r|].
  assert (IH' : forall c s', a :: t = c ++ s' -> c <> [] -> utf8_valid s' = true ->
    utf8_error (k + length c) (s' ++ q) = utf8_error (k + length (a :: t)) q).
  { intros c s' E Hc Hv. rewrite E, app_length, Nat.add_assoc. apply (IH (length s')); auto; [|now apply is_utf8_valid].
    rewrite E, app_length. destruct c; [easy|]. cbn. lia. }
  unfold utf8_valid in Hu, IH'. cbn [utf8_decode] in Hu. cbn [utf8_error app].
  assert (Ho : forall m o, match ocons m o with Some _ => true | None => false end = true -> match o with Some _ => true | None => false end = true)
    by (intros m [l|]; easy).
  destruct (bval a <? 128)%N eqn:E1; [apply (IH' [a] t); auto; [easy|eauto]|].
  destruct t as [|b t2]; [discriminate|]. cbn [app]. destruct (in_range 194 223 a) eqn:E2.
  { destruct (is_cont b) eqn:Eb; [|discriminate]. apply (IH' [a; b] t2); auto; [easy|eauto]. }
  destruct t2 as [|c t3]; [discriminate|]. cbn [app]. destruct (ok3 a b) eqn:E3.
  { destruct (is_cont c) eqn:Ec; [|discriminate].
    assert (in_range 224 239 a = true) as -> by (apply in_range_true; now apply ok3_true in E3).
    apply (IH' [a; b; c] t3); auto; [easy|eauto]. }
  destruct t3 as [|d t4]; [discriminate|]. cbn [app]. destruct (ok4 a b) eqn:E4; [|discriminate].
  destruct (is_cont c) eqn:Ec; [|discriminate]. destruct (is_cont d) eqn:Ed; [|discriminate]. cbn [andb] in Hu.
  assert (in_range 240 244 a = true) as -> by (apply in_range_true; now apply ok4_true in E4).
  assert (in_range 224 239 a = false) as -> by (apply in_range_false; apply ok4_true in E4; lia).
  apply (IH' [a; b; c; d] t4); auto; [easy|eauto].
Qed.

(** [valid_up_to] is the length of the longest beginning that is text. *)
Theorem C74_valid_up_to : forall s u l, utf8_error 0 s = Some (u, l) ->
  ~ is_utf8 s /\ u <= length s /\ is_utf8 (firstn u s) /\ forall k, k <= length s -> is_utf8 (firstn k s) -> k <= u.
Proof.
  intros s u l E. destruct (utf8_error_upto s 0 u l E) as (_ & H1 & H2). rewrite Nat.sub_0_r in *. split; [|split; [auto|split; auto]].
  - intros Hu. apply is_utf8_valid in Hu. pose proof (utf8_error_valid s 0) as Hv. rewrite E in Hv. congruence.
  - intros k Hk Hu. rewrite <- (firstn_skipn k s), utf8_error_skip, firstn_length, Nat.min_l in E by auto.
    now destruct (utf8_error_upto _ _ _ _ E).
Qed.
Print Assumptions C74_valid_up_to.

(** [p] is a beginning, but not all, of one encoded character. *)
Definition begins_char (p : bytes) : Prop := exists n t, scalar n = true /\ t <> [] /\ encode_char n = p ++ t.

Lemma begins_of : forall p t n, utf8_decode (p ++ t) = Some [n] -> t <> [] -> begins_char p.
Proof.
  intros p t n H Ht. apply encode_decode in H as [Hs He]. inversion Hs; subst. cbn in He. rewrite app_nil_r in He.
  now exists n, t.
Qed.
Lemma begins_decodes : forall p, begins_char p -> exists t n, t <> [] /\ utf8_decode (p ++ t) = Some [n].
Proof.
  intros p (n & t & Hs & Ht & He). exists t, n. split; [auto|]. rewrite <- He, <- (app_nil_r (encode_char n)).
  now rewrite decode_encode_char.
Qed.

Lemma begins2 : forall a, in_range 194 223 a = true -> begins_char [a].
Proof.
  intros a H. pose proof H as H'. apply in_range_true in H'. eapply (begins_of [a] [x80]); [|easy]. cbn [utf8_decode app].
  replace (bval a <? 128)%N with false by (symmetry; apply N.ltb_ge; lia). rewrite H. reflexivity.
Qed.
Lemma begins3' : forall a b, ok3 a b = true -> begins_char [a; b].
Proof.
  intros a b H. pose proof H as H'. apply ok3_true in H'. eapply (begins_of [a; b] [x80]); [|easy]. cbn [utf8_decode app].
  replace (bval a <? 128)%N with false by (symmetry; apply N.ltb_ge; lia).
  replace (in_range 194 223 a) with false by (symmetry; apply in_range_false; lia). rewrite H. reflexivity.
Qed.
Lemma begins_shorter : forall p q, begins_char (p ++ q) -> begins_char p.
Proof.
  intros p q (n & t & Hs & Ht & He). exists n, (q ++ t). rewrite app_assoc. repeat split; auto. now destruct q.
Qed.
Lemma begins3 : forall a, in_range 224 239 a = true -> begins_char [a].
Proof.
  intros a H. apply in_range_true in H.
  assert (exists b, ok3 a b = true) as [b Hb].
  { destruct (N.eq_dec (bval a) 237) as [Ha|Ha]; [exists x80|exists xa0]; apply ok3_true; [change (bval x80) with 128%N|change (bval xa0) with 160%N]; lia. }
  apply (begins_shorter [a] [b]). now apply begins3'.
Qed.
Lemma begins4'' : forall a b c, ok4 a b = true -> is_cont c = true -> begins_char [a; b; c].
Proof.
  intros a b c H Hc. pose proof H as H'. apply ok4_true in H'. eapply (begins_of [a; b; c] [x80]); [|easy]. cbn [utf8_decode app].
  replace (bval a <? 128)%N with false by (symmetry; apply N.ltb_ge; lia).
  replace (in_range 194 223 a) with false by (symmetry; apply in_range_false; lia).
  assert (ok3 a b = false) as -> by (destruct (ok3 a b) eqn:E; auto; apply ok3_true in E; lia).
  rewrite H, Hc. reflexivity.
Qed.
Lemma begins4' : forall a b, ok4 a b = true -> begins_char [a; b].
Proof. intros a b H. apply (begins_shorter [a; b] [x80]). now apply begins4''. Qed.
Lemma begins4 : forall a, in_range 240 244 a = true -> begins_char [a].
Proof.
  intros a H. apply in_range_true in H.
  assert (exists b, ok4 a b = true) as [b Hb].
  { destruct (N.eq_dec (bval a) 244) as [Ha|Ha]; [exists x80|exists x90]; apply ok4_true; [change (bval x80) with 128%N|change (bval x90) with 144%N]; lia. }
  apply (begins_shorter [a] [b]). now apply begins4'.
Qed.

(** What [error_len] says of the bytes [r] from [valid_up_to] on. *)
Definition error_len_says (r : bytes) (len : option N) : Prop :=
  match len with
  | None => r <> [] /\ begins_char r
  | Some n => (1 <= n <= N.of_nat (length r))%N /\ (n <> 1%N -> begins_char (firstn (N.to_nat n) r)) /\
    ~ begins_char (firstn (S (N.to_nat n)) r)
  end.

Lemma utf8_error_len : forall s k u l, utf8_error k s = Some (u, l) -> error_len_says (skipn (u - k) s) l.
Proof.
  intros s. remember (length s) as n eqn:Hn. revert s Hn. induction n as [n IH] using (well_founded_induction lt_wf). intros s Hn k u l E. subst n.
  assert (IH' : forall c s', s = c ++ s' -> c <> [] -> forall k0, k0 = k + length c -> utf8_error k0 s' = Some (u, l) ->
    error_len_says (skipn (u - k) s) l).
  { intros c s' -> Hne k0 -> E'. destruct (utf8_error_upto _ _ _ _ E') as [Hle _].
    rewrite skipn_app, skipn_all2 by lia. cbn [app]. replace (u - k - length c) with (u - (k + length c)) by lia.
    apply (IH (length s')); auto. rewrite app_length. destruct c; [easy|]. cbn. lia. }
  assert (Hz : forall r : bytes, skipn (k - k) r = r) by (intros r; now rewrite Nat.sub_diag).
  assert (Hd : forall p, begins_char p -> exists t m, utf8_decode (p ++ t) = Some [m]).
  { intros p H. apply begins_decodes in H as (t & m & _ & H). eauto. }
  destruct s as [|a t]; [discriminate|]. cbn [utf8_error] in E.
  destruct (bval a <? 128)%N eqn:E1.
  { apply (IH' [a] t) with (k0 := k + 1); auto; try easy. }
  destruct (in_range 194 223 a) eqn:E2.
  { destruct t as [|b t2]; [injection E as <- <-; rewrite Hz; split; [easy|now apply begins2]|].
    destruct (is_cont b) eqn:Eb; [apply (IH' [a; b] t2) with (k0 := k + 2); auto; easy|].
    injection E as <- <-. rewrite Hz. split; [cbn [length]; lia|]. split; [easy|].
    change (N.to_nat 1) with 1; change (N.to_nat 2) with 2; change (N.to_nat 3) with 3; cbn [firstn]. intros (q & m & H)%Hd. cbn [app utf8_decode] in H. now rewrite E1, E2, Eb in H. }
  destruct (in_range 224 239 a) eqn:E3.
  { destruct t as [|b t2]; [injection E as <- <-; rewrite Hz; split; [easy|now apply begins3]|].
    assert (Ho4 : ok4 a b = false).
    { destruct (ok4 a b) eqn:O; auto. apply ok4_true in O. apply in_range_true in E3. lia. }
    destruct (ok3 a b) eqn:Eb.
    - destruct t2 as [|c t3]; [injection E as <- <-; rewrite Hz; split; [easy|now apply begins3']|].
      destruct (is_cont c) eqn:Ec; [apply (IH' [a; b; c] t3) with (k0 := k + 3); auto; easy|].
      injection E as <- <-. rewrite Hz. split; [cbn [length]; lia|]. split; [intros _; now apply begins3'|].
      change (N.to_nat 1) with 1; change (N.to_nat 2) with 2; change (N.to_nat 3) with 3; cbn [firstn]. intros (q & m & H)%Hd. cbn [app utf8_decode] in H. now rewrite E1, E2, Eb, Ec in H.
    - injection E as <- <-. rewrite Hz. split; [cbn [length]; lia|]. split; [easy|].
      change (N.to_nat 1) with 1; change (N.to_nat 2) with 2; change (N.to_nat 3) with 3; cbn [firstn]. intros (q & m & H)%Hd. cbn [app utf8_decode] in H. rewrite E1, E2, Eb, Ho4 in H. now destruct q as [|? [|? ?]]. }
  assert (Ho3 : forall b, ok3 a b = false).
  { intros b. destruct (ok3 a b) eqn:O; auto. apply ok3_true in O. apply in_range_false in E3. lia. }
  destruct (in_range 240 244 a) eqn:E4.
  { destruct t as [|b t2]; [injection E as <- <-; rewrite Hz; split; [easy|now apply begins4]|].
    destruct (ok4 a b) eqn:Eb.
    - destruct t2 as [|c t3]; [injection E as <- <-; rewrite Hz; split; [easy|now apply begins4']|].
      destruct (is_cont c) eqn:Ec.
      + destruct t3 as [|d t4]; [injection E as <- <-; rewrite Hz; split; [easy|now apply begins4'']|].
        destruct (is_cont d) eqn:Ed; [apply (IH' [a; b; c; d] t4) with (k0 := k + 4); auto; easy|].
        injection E as <- <-. rewrite Hz. split; [cbn [length]; lia|]. split; [intros _; now apply begins4''|].
        change (N.to_nat 1) with 1; change (N.to_nat 2) with 2; change (N.to_nat 3) with 3; cbn [firstn]. intros (q & m & H)%Hd. cbn [app utf8_decode] in H. now rewrite E1, E2, Ho3, Eb, Ec, Ed in H.
      + injection E as <- <-. rewrite Hz. split; [cbn [length]; lia|]. split; [intros _; now apply begins4'|].
        change (N.to_nat 1) with 1; change (N.to_nat 2) with 2; change (N.to_nat 3) with 3; cbn [firstn]. intros (q & m & H)%Hd. cbn [app utf8_decode] in H. rewrite E1, E2, Ho3, Eb, Ec in H. now destruct q.
    - injection E as <- <-. rewrite Hz. split; [cbn [length]; lia|]. split; [easy|].
      change (N.to_nat 1) with 1; change (N.to_nat 2) with 2; change (N.to_nat 3) with 3; cbn [firstn]. intros (q & m & H)%Hd. cbn [app utf8_decode] in H. rewrite E1, E2, Ho3, Eb in H. now destruct q as [|? [|? ?]]. }
  injection E as <- <-. rewrite Hz. split; [cbn [length]; lia|]. split; [easy|].
  assert (Ho4 : forall b, ok4 a b = false).
  { intros b. destruct (ok4 a b) eqn:O; auto. apply ok4_true in O. apply in_range_false in E4. lia. }
  intros H. assert (begins_char [a]) as (q & m & Hq)%Hd by (apply (begins_shorter [a] (firstn 1 t)); exact H).
  cbn [app utf8_decode] in Hq. rewrite E1, E2 in Hq. destruct q as [|b [|c q]]; [easy..|]. rewrite Ho3, Ho4 in Hq. now destruct q.
Qed.

(** [error_len] is [None] exactly when the line ends within a character; otherwise it is the number of bytes, at least
    one, up to which the bytes after the valid ones could still be the beginning of a character. *)
Theorem C74_error_len : forall s u len, utf8_error 0 s = Some (u, len) ->
  error_len_says (skipn u s) len /\ (len = None <-> begins_char (skipn u s)).
Proof.
  intros s u len E. pose proof (utf8_error_len _ _ _ _ E) as H. rewrite Nat.sub_0_r in H. split; [auto|].
  destruct len as [n|]; [|split; [now intros _; destruct H|auto]]. split; [discriminate|]. intros Hb. exfalso.
  destruct H as (_ & _ & H). apply H. apply (begins_shorter _ (skipn (S (N.to_nat n)) (skipn u s))). now rewrite firstn_skipn.
Qed.
Print Assumptions C74_error_len.

Example C74_case_error_len :
  utf8_error 0 (bs "a" ++ [xe2; x82]) = Some (1, None) /\ utf8_error 0 (bs "a" ++ [xe2; x82; x28]) = Some (1, Some 2%N) /\
  utf8_error 0 (bs "a" ++ [xed; xa0; x80]) = Some (1, Some 1%N) /\ utf8_error 0 (bs "a" ++ [xf0; x90; x80; x41]) = Some (1, Some 3%N).
Proof. repeat split. Qed.

(** ** Reading the lines *)
Definition line_result_m (line : bytes) : mres (option bytes) :=
  match line with
  | [] => MOk None
  | _ => match utf8_error 0 line with None => MOk (Some line) | Some (u, l) => MErr (MsgUtf8 u l) end
  end.
Fixpoint items_line_m (bld : build) (acc : bytes) (xs : list item) : mres (option bytes) * list item :=
  match xs with
  | [] => (MErr (MsgEof (bs "Expected \r\n")), [])
  | Transport.E e :: t => if is_retry bld e then items_line_m bld acc t else (MErr (MsgOther e), t)
  | B b :: t =>
      if ends_crlf (acc ++ [b]) then (line_result_m (firstn (length (acc ++ [b]) - 2) (acc ++ [b])), t)
      else items_line_m bld (acc ++ [b]) t
  end.

Lemma crlf_m_items {St} bld (rd : reader St) R : reader_pos rd R ->
  forall xs s fuel acc, R s xs -> length xs < fuel ->
  exists s', crlf_loop_m bld rd fuel acc s = (fst (items_line_m bld acc xs), s') /\ R s' (snd (items_line_m bld acc xs)).
Proof.
  intros HR xs. remember (length xs) as k eqn:Hk. assert (Hle : length xs <= k) by lia. clear Hk.
  revert xs Hle. induction k as [|k IH]; intros xs Hle s fuel acc Hs Hf;
    (destruct fuel as [|f]; [lia|]); cbn [crlf_loop_m];
    destruct (bytes_next_items bld rd R HR xs s (S f) Hs ltac:(lia)) as (s' & H1 & H2);
    rewrite H1; clear H1.
  - destruct xs; simpl in *; [|lia]. eauto.
  - revert H2. clear Hs. induction xs as [|[b|e] xs IHx]; cbn -[utf8_error]; intros H2.
    + eauto.
    + destruct (ends_crlf (acc ++ [b])).
      * eexists; split; [|exact H2]. unfold line_result_m.
        destruct (firstn _ _) as [|x y]; [reflexivity|]. now destruct (utf8_error 0 (x :: y)) as [[u l]|].
      * apply IH; auto; simpl in Hle; lia.
    + destruct (is_retry bld e).
      * apply IHx; auto; simpl in Hle; lia.
      * simpl in *; eauto.
Qed.

Lemma items_m_noisy bld acc pre xs ys : no_crlf (acc ++ pre) -> noisy bld pre xs ->
  items_line_m bld acc (xs ++ ys) = items_line_m bld (acc ++ pre) ys.
Proof.
  intros H Hn. revert acc H. induction Hn as [|b data xs Hn IH|e data xs He Hn IH]; intros acc H; simpl.
  - now rewrite app_nil_r.
  - rewrite no_crlf_ends.
    + rewrite IH; rewrite <- app_assoc; auto.
    + apply (no_crlf_prefix _ data). now rewrite <- app_assoc.
  - rewrite He. now apply IH.
Qed.
Lemma items_m_found bld l pre ys : no_crlf l -> noisy bld (l ++ [CR]) pre ->
  items_line_m bld [] (pre ++ B LF :: ys) = (line_result_m l, ys).
Proof.
  intros H Hn. rewrite (items_m_noisy bld [] (l ++ [CR])) by (cbn [app]; auto using no_crlf_cr). cbn [items_line_m app].
  replace ((l ++ [CR]) ++ [LF]) with (l ++ CRLF) by (unfold CRLF; now rewrite <- app_assoc).
  rewrite ends_crlf_line. f_equal. f_equal. rewrite app_length. cbn [length CRLF].
  replace (length l + 2 - 2) with (length l) by lia. rewrite firstn_app, Nat.sub_diag. cbn. now rewrite app_nil_r, firstn_all.
Qed.

(** What the source of lines says after the last line. *)
Definition end_result (en : ending) : mres (option bytes) :=
  match en with
  | Complete => MOk None
  | CutOff => MErr (MsgEof (bs "Expected \r\n"))
  | NotText u l => MErr (MsgUtf8 u l)
  | Failed e => MErr (MsgOther e)
  end.

Section Source.
  Context {T : Type} (bld : build) (rd : reader T) (R : T -> list item -> Prop) (HR : reader_pos rd R) (bf : nat).
  Notation nl := (crlf_next_m bld rd bf).

  Definition ready (t : T) (ls : list bytes) (en : ending) : Prop :=
    exists xs, R t xs /\ head_stream bld ls en xs /\ length xs < bf.

  Lemma line_ready t ls en : ready t ls en ->
    match ls with
    | [] => exists t', nl t = (end_result en, t')
    | l :: ls' => exists t', nl t = (MOk (Some l), t') /\ ready t' ls' en
    end.
  Proof using HR.
    intros (xs & Ht & Hs & Hl). destruct (crlf_m_items bld rd R HR xs t bf [] Ht Hl) as (t' & E & Ht').
    fold (nl t) in E.
    inversion Hs as [l pre ys ls' en' Hx Hn Hy|pre zs Hn|l pre H1 Hn|l pre zs u n H1 H2 Hn|l pre e zs H1 Hn He]; subst.
    - exists t'. rewrite (items_m_found bld l pre ys) in *; try apply Hx; auto. cbn [fst snd] in *. split.
      + rewrite E. unfold line_result_m. destruct Hx as (Hx1 & Hx2 & Hx3). destruct l as [|b l]; [easy|].
        pose proof (utf8_error_valid (b :: l) 0) as Hv. apply is_utf8_valid in Hx3. rewrite Hx3 in Hv.
        now destruct (utf8_error 0 (b :: l)).
      + exists ys. split; auto. split; auto. rewrite app_length in Hl. cbn in Hl. lia.
    - exists t'. assert (Hc : no_crlf []) by (now apply no_cr_no_crlf). rewrite (items_m_found bld [] pre zs Hc Hn) in E. exact E.
    - exists t'. rewrite <- (app_nil_r xs), (items_m_noisy bld [] l) in E by auto. now rewrite E.
    - exists t'. rewrite (items_m_found bld l pre zs H1 Hn) in E. rewrite E. cbn [fst]. unfold line_result_m.
      destruct l; [discriminate|]. now rewrite H2.
    - exists t'. rewrite (items_m_noisy bld [] l) in E by auto. cbn [items_line_m app] in E. now rewrite He in E.
  Qed.

  (** Also with a line, or the end, that was looked at already. *)
  Definition ahead (pk : option (mres (option bytes))) (t : T) (ls : list bytes) (en : ending) : Prop :=
    match pk with
    | None => ready t ls en
    | Some r => (exists l ls', ls = l :: ls' /\ r = MOk (Some l) /\ ready t ls' en) \/ (ls = [] /\ r = end_result en)
    end.

  Lemma next_ahead pk t ls en : ahead pk t ls en ->
    match ls with
    | [] => exists t', pk_next_m nl pk t = (end_result en, t')
    | l :: ls' => exists t', pk_next_m nl pk t = (MOk (Some l), t') /\ ready t' ls' en
    end.
  Proof using HR.
    destruct pk as [r|]; cbn [ahead pk_next_m]; [|apply line_ready].
    intros [(l & ls' & -> & -> & H)|[-> ->]]; eauto.
  Qed.

  Lemma conts_ready : forall conts rest fuel line t en, Forall blank_first conts -> (forall l' t, rest = l' :: t -> ~ blank_first l') ->
    ready t (conts ++ rest) en -> length conts < fuel ->
    exists r t', cont_loop_m nl fuel line t = (line ++ concat conts, Some r, t') /\ ahead (Some r) t' rest en.
  Proof using HR.
    induction conts as [|c conts IH]; intros rest fuel line t en Hc Hr H Hf; (destruct fuel as [|fu]; [cbn in Hf; lia|]); cbn [cont_loop_m].
    - cbn [app concat] in *. rewrite app_nil_r. pose proof (line_ready t rest en H) as Hl. destruct rest as [|l rest].
      + destruct Hl as [t' ->]. exists (end_result en), t'. split; [destruct en; reflexivity|]. right. auto.
      + destruct Hl as (t' & -> & H'). destruct (starts_blank l) eqn:Eb; [apply starts_blank_true in Eb; now destruct (Hr l rest)|].
        eexists _, t'. split; [reflexivity|]. left. eauto.
    - cbn [app] in H. destruct (line_ready t _ en H) as (t' & -> & H'). inversion Hc; subst.
      assert (starts_blank c = true) as -> by now apply starts_blank_true. cbn [concat]. rewrite app_assoc. apply IH; auto. cbn in Hf. lia.
  Qed.

  (** The header lines, one after the other. *)
  Fixpoint block_m (acc : list header) (logical : list bytes) (last : mres (option bytes)) : mres headers :=
    match logical with
    | [] => mdo o <- last; MOk (headers_from acc)
    | l :: t => mdo h <- header_deserialize_m l; block_m (acc ++ [h]) t last
    end.

  Lemma headers_ready : forall ls logical, folded ls logical -> forall fuel acc pk t en, ahead pk t ls en -> length ls < fuel ->
    exists t', headers_loop_m nl fuel acc pk t = (block_m acc logical (end_result en), t').
  Proof using HR.
    induction 1 as [|l conts rest logical Hb Hr Hf IH]; intros fuel acc pk t en Ha Hl; (destruct fuel as [|fu]; [lia|]);
      unfold headers_loop_m; fold (headers_loop_m nl).
    - destruct (next_ahead _ _ _ _ Ha) as [t' ->]. exists t'. now destruct en.
    - destruct (next_ahead _ _ _ _ Ha) as (t' & -> & H'). cbn [length] in Hl. rewrite app_length in Hl.
      destruct (conts_ready conts rest (S fu) l t' en Hb Hr H' ltac:(lia)) as (r & t2 & -> & H2).
      assert (Hg : exists t3, match header_deserialize_m (l ++ concat conts) with
        | MOk h => headers_loop_m nl fu (acc ++ [h]) (Some r) t2
        | MErr m => (MErr m, t2) | MPanic => (MPanic, t2) | MFuel => (MFuel, t2) end
        = (block_m acc ((l ++ concat conts) :: logical) (end_result en), t3)).
      { cbn [block_m]. destruct (header_deserialize_m (l ++ concat conts)) as [h|m| |]; cbn [mbind]; eauto. apply IH; auto. lia. }
      destruct r as [o|m| |]; auto.
      + destruct H2 as [(l2 & ls2 & _ & ? & _)|[_ ?]]; [discriminate|now destruct en].
      + destruct H2 as [(l2 & ls2 & _ & ? & _)|[_ ?]]; [discriminate|now destruct en].
  Qed.

  (** The whole head. *)
  Definition req_line_m (first : bytes) : mres (method * bytes * version) :=
    fst (mdos mt, p1 <- parse_token_m (parser_new first);
         mdos m, p1' <- (parse_method_m mt, p1);
         mdos uri, p2 <- parse_token_m p1';
         mdos vt, p3 <- parse_token_m p2;
         (mdo v <- parse_version_m vt; MOk (m, uri, v), p3)).
  Definition resp_line_m (first : bytes) : mres (version * status) :=
    fst (mdos vt, p1 <- parse_token_m (parser_new first);
         mdos v, p1' <- (parse_version_m vt, p1);
         mdos st, p2 <- parse_remaining_m p1';
         (mdo x <- parse_status_m st; MOk (v, x), p2)).
  Definition no_line (en : ending) : message :=
    match end_result en with MErr m => m | _ => MsgEof (bs "Expected line") end.

  Lemma request_ready fuel t ls en : ready t ls en -> length ls < fuel ->
    match ls with
    | [] => fst (request_head_m nl fuel t) = MErr (no_line en)
    | first :: lines => forall logical, folded lines logical ->
        fst (request_head_m nl fuel t)
        = mdo x <- req_line_m first; mdo h <- block_m [] logical (end_result en); mdo n <- no_text (content_length_of h);
          MOk (mkReqHead (fst (fst x)) (snd (fst x)) (snd x) h (headers_get (bs "Transfer-Encoding") h) n)
    end.
  Proof using HR.
    intros H Hl. pose proof (line_ready t ls en H) as Hn. unfold request_head_m, expect_next_m. destruct ls as [|first lines].
    - destruct Hn as [t' ->]. destruct en; reflexivity.
    - intros logical Hf. destruct Hn as (t' & -> & H'). cbn [msbind].
      destruct (headers_ready lines logical Hf fuel [] None t' en H' ltac:(cbn in Hl; lia)) as (t2 & E2).
      unfold req_line_m. destruct (mdos mt, p1 <- _; _) as [[[[m u] v]|m| |] p]; cbn [fst snd mbind]; auto.
      rewrite E2. destruct (block_m [] logical (end_result en)); cbn [msbind mbind fst]; auto.
  Qed.
  Lemma response_ready fuel t ls en : ready t ls en -> length ls < fuel ->
    match ls with
    | [] => fst (response_head_m nl fuel t) = MErr (no_line en)
    | first :: lines => forall logical, folded lines logical ->
        fst (response_head_m nl fuel t)
        = mdo x <- resp_line_m first; mdo h <- block_m [] logical (end_result en); mdo n <- no_text (content_length_of h);
          MOk (mkRespHead (fst x) (snd x) h (headers_get (bs "Transfer-Encoding") h) n)
    end.
  Proof using HR.
    intros H Hl. pose proof (line_ready t ls en H) as Hn. unfold response_head_m, expect_next_m. destruct ls as [|first lines].
    - destruct Hn as [t' ->]. destruct en; reflexivity.
    - intros logical Hf. destruct Hn as (t' & -> & H'). cbn [msbind].
      destruct (headers_ready lines logical Hf fuel [] None t' en H' ltac:(cbn in Hl; lia)) as (t2 & E2).
      unfold resp_line_m. destruct (mdos vt, p1 <- _; _) as [[[v st]|m| |] p]; cbn [fst snd mbind]; auto.
      rewrite E2. destruct (block_m [] logical (end_result en)); cbn [msbind mbind fst]; auto.
  Qed.
End Source.

(** ** What is wrong with a text, and how it is told *)

(** An integer: nothing, a sign only, something that is not a digit, or too large; what comes first counts. *)
Inductive int_complaint (max : N) : bytes -> intkind -> Prop :=
| ic_empty : int_complaint max [] IEmpty
| ic_sign : int_complaint max [x2b] IInvalidDigit
| ic_digit sgn a c b : sgn = [] \/ sgn = [x2b] -> a = [] \/ (exists n, numeral 10 a n /\ (n <= max)%N) ->
    ~ dec_digit c -> (sgn = [] -> a = [] -> c <> x2b) -> int_complaint max (sgn ++ a ++ c :: b) IInvalidDigit
| ic_large sgn a b n : sgn = [] \/ sgn = [x2b] -> numeral 10 a n -> (max < n)%N -> int_complaint max (sgn ++ a ++ b) IPosOverflow.

Definition got (expected actual : bytes) : message := MsgParse (bs "Expected '" ++ expected ++ bs "', got '" ++ actual ++ bs "'").

(** The version of a first line. *)
Inductive version_complaint : bytes -> message -> Prop :=
| vc_empty : version_complaint [] (MsgEof (bs "Expected HTTP/"))
| vc_name t : t <> [] -> ~ prefix (bs "HTTP/") t -> is_utf8 (firstn 5 t) -> version_complaint t (got (bs "HTTP/") (firstn 5 t))
| vc_no_major : version_complaint (bs "HTTP/") (MsgEof (bs "Expected digit"))
| vc_major c r : (bval c < 128)%N -> ~ dec_digit c -> version_complaint (bs "HTTP/" ++ c :: r) (MsgInt IInvalidDigit)
| vc_no_dot d : dec_digit d -> version_complaint (bs "HTTP/" ++ [d]) (MsgEof (bs "Expected ."))
| vc_dot d c r : dec_digit d -> (bval c < 128)%N -> c <> x2e -> version_complaint (bs "HTTP/" ++ d :: c :: r) (got (bs ".") [c])
| vc_no_minor d : dec_digit d -> version_complaint (bs "HTTP/" ++ d :: bs ".") (MsgEof (bs "Expected digit"))
| vc_minor d c r : dec_digit d -> (bval c < 128)%N -> ~ dec_digit c -> version_complaint (bs "HTTP/" ++ d :: bs "." ++ c :: r) (MsgInt IInvalidDigit).

(** The first line of a request. *)
Definition names_method (t : bytes) : Prop := exists m, to_uppercase t = show_method m.
Inductive line_complaint (l : bytes) : message -> Prop :=
| lc_method t1 w1 r1 : token_split l t1 w1 r1 -> ~ names_method t1 -> line_complaint l (MsgParse (bs "Unknown method " ++ to_uppercase t1))
| lc_no_uri t1 w1 : token_split l t1 w1 [] -> names_method t1 -> line_complaint l (MsgEof (bs "Expected token"))
| lc_no_version t1 w1 r1 u w2 : token_split l t1 w1 r1 -> r1 <> [] -> token_split r1 u w2 [] -> names_method t1 -> line_complaint l (MsgEof (bs "Expected token"))
| lc_version t1 w1 r1 u w2 r2 t3 w3 r3 m : token_split l t1 w1 r1 -> r1 <> [] -> token_split r1 u w2 r2 -> r2 <> [] -> token_split r2 t3 w3 r3 ->
    names_method t1 -> version_complaint t3 m -> line_complaint l m.

(** The first line of a response. *)
Inductive status_complaint (l : bytes) : message -> Prop :=
| sc_version t1 w1 r1 m : token_split l t1 w1 r1 -> version_complaint t1 m -> status_complaint l m
| sc_none t1 w1 : token_split l t1 w1 [] -> version_text t1 -> status_complaint l (MsgEof (bs "Expected token"))
| sc_status t1 w1 r1 t2 w2 r2 k : token_split l t1 w1 r1 -> version_text t1 -> r1 <> [] -> token_split r1 t2 w2 r2 ->
    int_complaint u32_max t2 k -> status_complaint l (MsgInt k).

(** A header line, its continuation lines included. *)
Inductive header_complaint : bytes -> message -> Prop :=
| hc_empty : header_complaint [] (MsgEof (bs "Expected ':'"))
| hc_no_colon l : l <> [] -> ~ In COLON l -> header_complaint l (MsgParse (bs "Expected ':' in '" ++ l ++ bs "'"))
| hc_alone k : ~ In COLON k -> header_complaint (k ++ [COLON]) (got (bs ": ") (bs ":"))
| hc_other k c r : ~ In COLON k -> c <> SP -> (bval c < 128)%N -> header_complaint (k ++ COLON :: c :: r) (got (bs ": ") [COLON; c]).

Lemma forget_ok {A} (r : mres A) a : forget r = Ok a -> r = MOk a.
Proof. destruct r; cbn; intros [=]; now subst. Qed.
Lemma forget_panic {A} (r : mres A) : forget r = Panic -> r = MPanic.
Proof. now destruct r. Qed.

(** *** Integers *)
Lemma dec_digit_10 c d : digit 10 c d <-> dec_digit c /\ d = dec_value c.
Proof. unfold digit, dec_digit, dec_value. lia. Qed.
Lemma parse_digits_kind max : forall s acc, (acc <= max)%N ->
  (exists n, parse_digits 10 max acc s = Ok n)
  \/ (parse_digits 10 max acc s = Err (ParseIntError IInvalidDigit) /\ exists a c b ds, s = a ++ c :: b /\ ~ dec_digit c
        /\ Forall2 (digit 10) a ds /\ (fold_left (fun a d => a * 10 + d) ds acc <= max)%N)
  \/ (parse_digits 10 max acc s = Err (ParseIntError IPosOverflow) /\ exists a b ds, s = a ++ b /\ a <> []
        /\ Forall2 (digit 10) a ds /\ (max < fold_left (fun a d => a * 10 + d) ds acc)%N).
Proof.
  induction s as [|c s IH]; intros acc Ha; cbn [parse_digits]; [eauto|].
  destruct (to_digit 10 c) as [d|] eqn:Ed.
  - apply to_digit_spec in Ed; [|lia].
    assert (Hl : (max < acc * 10 + d)%N -> exists a b ds, c :: s = a ++ b /\ a <> [] /\ Forall2 (digit 10) a ds
      /\ (max < fold_left (fun a d => a * 10 + d) ds acc)%N) by (intros H; exists [c], s, [d]; repeat split; auto; easy).
    destruct (N.leb_spec (acc * 10) max) as [H1|H1]; [|right; right; split; auto; apply Hl; lia].
    destruct (N.leb_spec (acc * 10 + d) max) as [H2|H2]; [|right; right; split; auto].
    destruct (IH (acc * 10 + d)%N H2) as [[n ->]|[[-> (a & x & b & ds & -> & Hx & Hf & Hv)]|[-> (a & b & ds & -> & Hn & Hf & Hv)]]]; eauto.
    + right. left. split; auto. exists (c :: a), x, b, (d :: ds). repeat split; auto.
    + right. right. split; auto. exists (c :: a), b, (d :: ds). repeat split; auto. easy.
  - right. left. split; auto. exists [], c, s, []. repeat split; auto. intros H.
    assert (to_digit 10 c = Some (dec_value c)) by (apply to_digit_spec; [lia|]; now apply dec_digit_10). congruence.
Qed.

Lemma digits_invalid max : forall a ds acc c b, Forall2 (digit 10) a ds -> (fold_left (fun a d => a * 10 + d) ds acc <= max)%N ->
  ~ dec_digit c -> parse_digits 10 max acc (a ++ c :: b) = Err (ParseIntError IInvalidDigit).
Proof.
  intros a ds acc c b H. revert acc. induction H as [|x d a ds Hd Hf IH]; intros acc Hv Hc; cbn [app parse_digits fold_left] in *.
  - destruct (to_digit 10 c) as [d|] eqn:Ed; auto. apply to_digit_spec in Ed; [|lia]. now apply dec_digit_10 in Ed.
  - apply to_digit_spec in Hd; [|lia]. rewrite Hd. pose proof (fold_ge 10 ds (acc * 10 + d) ltac:(lia)).
    rewrite !(proj2 (N.leb_le _ _)) by lia. auto.
Qed.
Lemma digits_large max : forall a ds acc b, Forall2 (digit 10) a ds -> (max < fold_left (fun a d => a * 10 + d) ds acc)%N -> (acc <= max)%N ->
  parse_digits 10 max acc (a ++ b) = Err (ParseIntError IPosOverflow).
Proof.
  intros a ds acc b H. revert acc. induction H as [|x d a ds Hd Hf IH]; intros acc Hv Ha; cbn [app parse_digits fold_left] in *; [lia|].
  apply to_digit_spec in Hd; [|lia]. rewrite Hd.
  destruct (N.leb_spec (acc * 10) max); auto. destruct (N.leb_spec (acc * 10 + d) max); auto.
Qed.

Lemma from_str_signless radix max s : s <> [] -> (forall t, s <> x2b :: t) -> s <> [x2d] -> from_str_radix radix max s = parse_digits radix max 0 s.
Proof.
  intros Hn Hp Hm. unfold from_str_radix. destruct s as [|c [|d s]]; [easy| |].
  - destruct (Byte.eqb c x2b) eqn:E1; [apply byte_eqb_true in E1; subst; now destruct (Hp [])|].
    destruct (Byte.eqb c x2d) eqn:E2; [apply byte_eqb_true in E2; now subst|]. reflexivity.
  - destruct (Byte.eqb c x2b) eqn:E1; [apply byte_eqb_true in E1; subst; now destruct (Hp (d :: s))|]. reflexivity.
Qed.

Lemma int_complains max w k : int_complaint max w k -> from_str_radix 10 max w = Err (ParseIntError k).
Proof.
  assert (Hd : forall a n, numeral 10 a n -> forall c t, a = c :: t -> c <> x2b /\ c <> x2d).
  { intros a n (Hn & ds & Hf & _) c t ->. inversion Hf; subst. split; [eapply digit_not_plus|eapply digit_not_minus]; eauto. }
  destruct 1 as [| |sgn a c b Hs Ha Hc Hp|sgn a b n Hs Ha Hl]; [reflexivity|reflexivity| |].
  - assert (Hx : parse_digits 10 max 0 (a ++ c :: b) = Err (ParseIntError IInvalidDigit)).
    { destruct Ha as [->|(n & (Hn & ds & Hf & Hv) & Hm)].
      - apply (digits_invalid max [] [] 0 c b); auto. cbn. lia.
      - apply (digits_invalid max a ds); auto. unfold positional in Hv. lia. }
    destruct Hs as [->| ->]; cbn [app].
    + destruct (list_eq_dec Byte.byte_eq_dec (a ++ c :: b) [x2d]) as [->|Hm]; [reflexivity|].
      rewrite from_str_signless; auto; [now destruct a|]. intros t E. destruct a as [|x a].
      * injection E as -> _. now apply Hp.
      * injection E as -> _. destruct Ha as [|(n & Ha & _)]; [easy|]. now destruct (Hd _ _ Ha _ _ eq_refl).
    + unfold from_str_radix. destruct (a ++ c :: b) eqn:E; [now destruct a|]. exact Hx.
  - destruct Ha as (Hn & ds & Hf & Hv).
    assert (Hx : parse_digits 10 max 0 (a ++ b) = Err (ParseIntError IPosOverflow))
      by (apply (digits_large max a ds); auto; [unfold positional in Hv; lia|lia]).
    assert (Ha : numeral 10 a n) by (split; eauto).
    destruct Hs as [->| ->]; cbn [app].
    + destruct a as [|x a]; [easy|]. destruct (Hd _ _ Ha x a eq_refl) as [H1 H2]. rewrite from_str_signless; auto; [easy| |].
      * intros t [= E _]. auto.
      * intros [= E _]. auto.
    + unfold from_str_radix. destruct (a ++ b) eqn:E; [now destruct a|]. exact Hx.
Qed.

Lemma int_cases max w : (exists n, from_str_radix 10 max w = Ok n) \/ exists k, int_complaint max w k.
Proof.
  assert (Hb : forall sgn s, s <> [] -> sgn = [] \/ sgn = [x2b] -> (sgn = [] -> forall t, s <> x2b :: t) ->
    (exists n, parse_digits 10 max 0 s = Ok n) \/ exists k, int_complaint max (sgn ++ s) k).
  { intros sgn s Hne Hs Hp. destruct (parse_digits_kind max s 0 ltac:(lia)) as [H|[[_ (a & c & b & ds & -> & Hc & Hf & Hv)]|[_ (a & b & ds & -> & Ha & Hf & Hv)]]]; auto; right.
    - exists IInvalidDigit. apply ic_digit; auto.
      + destruct a as [|x a]; auto. right. eexists. split; [split; [easy|]; exists ds; split; eauto|]. exact Hv.
      + intros -> -> ->. now apply (Hp eq_refl b).
    - exists IPosOverflow. apply (ic_large max sgn a b (positional 10 ds)); auto. split; eauto. }
  destruct w as [|c s]; [right; exists IEmpty; constructor|].
  destruct (Byte.byte_eq_dec c x2b) as [->|Hc].
  - destruct s as [|d s]; [right; eexists; constructor|]. destruct (Hb [x2b] (d :: s)) as [[n E]|[k Hk]]; auto; try easy; eauto.
  - destruct (Hb [] (c :: s)) as [[n E]|[k Hk]]; auto; try easy; eauto.
    { intros _ t [= E _]. auto. }
    left. exists n. rewrite from_str_signless; auto; [easy| |].
    + intros t [= E' _]. auto.
    + intros [= -> ->]. cbn in E. discriminate.
Qed.

(** *** Texts within a line *)
Lemma expect_m_ok p pre x rest : reading p pre (x ++ rest) -> is_utf8 x -> x ++ rest <> [] ->
  exists p', expect_m p x = (MOk tt, p') /\ reading p' (pre ++ x) rest.
Proof.
  intros H1 H2 H3. destruct (expect_ok p pre x rest H1 H2 H3) as (p' & E & H'). rewrite expect_forget in E.
  destruct (expect_m p x) as [r q]. injection E as Er ->. apply forget_ok in Er as ->. eauto.
Qed.
Lemma expect_m_eof p pre x : reading p pre [] -> expect_m p x = (MErr (MsgEof (bs "Expected " ++ x)), p).
Proof. intros H. unfold expect_m. now rewrite (reading_empty_pos _ _ _ H). Qed.
Lemma expect_m_other p pre x rest : reading p pre rest -> rest <> [] -> ~ prefix x rest ->
  expect_m p x = (if utf8_valid (firstn (length x) rest) then MErr (got x (firstn (length x) rest)) else MPanic, p).
Proof.
  intros H Hne Hnp. unfold expect_m. rewrite (reading_empty_pos _ _ _ H).
  destruct rest as [|y t] eqn:E; [easy|]. rewrite <- E in *. clear Hne.
  pose proof H as (H1 & H2 & H3 & H4).
  rewrite <- (firstn_skipn (length x) rest) in H1, H4.
  replace (Nat.min (length (ps p)) (ppos p + length x)) with (ppos p + length (firstn (length x) rest))
    by (rewrite H1, H2, !app_length, firstn_length, skipn_length; lia).
  rewrite H1, H2. apply is_utf8_valid in H4. destruct (utf8_valid (firstn (length x) rest)) eqn:Ev.
  - rewrite str_slice_ok by auto. destruct (beqb _ x) eqn:Eb; auto.
    apply beqb_true in Eb. exfalso. apply Hnp. exists (skipn (length x) rest). rewrite <- Eb at 1.
    now rewrite firstn_skipn.
  - now rewrite str_slice_panic.
Qed.
Lemma digit_m_ascii p pre b rest : reading p pre (b :: rest) -> (bval b < 128)%N ->
  exists p', parse_digit_m p = (no_text (parse_u32 [b]), p') /\ reading p' (pre ++ [b]) rest.
Proof.
  intros H Hb. unfold parse_digit_m. rewrite (reading_empty_pos _ _ _ H).
  pose proof H as (H1 & H2 & H3 & H4).
  assert (Hv : utf8_valid [b] = true) by (rewrite valid_ascii_cons; auto).
  replace (ppos p + 1) with (ppos p + length [b]) by reflexivity.
  rewrite (reading_slice p pre [b] rest) by (auto; now apply is_utf8_valid).
  eexists. split; eauto. apply reading_step; auto. now apply is_utf8_valid.
Qed.
Lemma digit_m_other p pre b rest : reading p pre (b :: rest) -> (128 <= bval b)%N -> parse_digit_m p = (MPanic, p).
Proof.
  intros H Hb. pose proof (parse_digit_other p pre b rest H Hb) as E. rewrite digit_forget in E. destruct (parse_digit_m p) as [r q].
  injection E as Er ->. now apply forget_panic in Er as ->.
Qed.
Lemma digit_m_eof p pre : reading p pre [] -> parse_digit_m p = (MErr (MsgEof (bs "Expected digit")), p).
Proof. intros H. unfold parse_digit_m. now rewrite (reading_empty_pos _ _ _ H). Qed.
Lemma token_m_spec p pre rest tok ws r : reading p pre rest -> rest <> [] -> token_split rest tok ws r ->
  exists p', parse_token_m p = (MOk tok, p') /\ reading p' (pre ++ tok ++ ws) r.
Proof.
  intros H Hn Hs. destruct (parse_token_spec p pre rest tok ws r H Hn Hs) as (p' & E & H'). exists p'. split; auto.
  rewrite token_forget in E. destruct (parse_token_m p) as [x q]. injection E as Ex ->. now apply forget_ok in Ex as ->.
Qed.
Lemma token_m_eof p pre : reading p pre [] -> parse_token_m p = (MErr (MsgEof (bs "Expected token")), p).
Proof. intros H. unfold parse_token_m. now rewrite (reading_empty_pos _ _ _ H). Qed.

(** *** Versions *)
Lemma one_ascii b : (bval b < 128)%N -> utf8_valid [b] = true.
Proof. intros H. now rewrite valid_ascii_cons. Qed.
Lemma u32_nondigit_kind b : ~ dec_digit b -> parse_u32 [b] = Err (ParseIntError IInvalidDigit).
Proof.
  intros H. unfold parse_u32. apply int_complains. destruct (Byte.byte_eq_dec b x2b) as [->|Hb]; [constructor|].
  apply (ic_digit u32_max [] [] b []); auto.
Qed.

Lemma version_sound s m : is_utf8 s -> version_complaint s m -> parse_version_m s = MErr m.
Proof.
  intros Hs H. pose proof (reading_new _ Hs) as R0. unfold parse_version_m. destruct H as [|t Hn Hp Hu| |c r Hc Hd|d Hd|d c r Hd Hc Hx|d Hd|d c r Hd Hc Hx].
  - now rewrite (expect_m_eof _ _ _ R0).
  - rewrite (expect_m_other _ _ _ _ R0 Hn Hp). change (length (bs "HTTP/")) with 5%nat. apply is_utf8_valid in Hu. now rewrite Hu.
  - destruct (expect_m_ok _ _ (bs "HTTP/") [] R0 http_utf8) as (p1 & -> & R1); [easy|]. cbn [msbind]. now rewrite (digit_m_eof _ _ R1).
  - destruct (expect_m_ok _ _ _ _ R0 http_utf8) as (p1 & -> & R1); [easy|]. cbn [msbind].
    destruct (digit_m_ascii _ _ _ _ R1 Hc) as (p2 & -> & _). now rewrite u32_nondigit_kind.
  - destruct (expect_m_ok _ _ _ _ R0 http_utf8) as (p1 & -> & R1); [easy|]. cbn [msbind].
    destruct (digit_m_ascii _ _ _ _ R1) as (p2 & -> & R2); [unfold dec_digit in Hd; lia|]. rewrite parse_u32_digit by auto. cbn [no_text msbind].
    now rewrite (expect_m_eof _ _ _ R2).
  - destruct (expect_m_ok _ _ _ _ R0 http_utf8) as (p1 & -> & R1); [easy|]. cbn [msbind].
    destruct (digit_m_ascii _ _ _ _ R1) as (p2 & -> & R2); [unfold dec_digit in Hd; lia|]. rewrite parse_u32_digit by auto. cbn [no_text msbind].
    rewrite (expect_m_other _ _ _ _ R2); [|easy|intros (t & Ht); injection Ht as ->; easy].
    change (firstn (length (bs ".")) (c :: r)) with [c]. now rewrite one_ascii.
  - destruct (expect_m_ok _ _ _ _ R0 http_utf8) as (p1 & -> & R1); [easy|]. cbn [msbind].
    destruct (digit_m_ascii _ _ _ _ R1) as (p2 & -> & R2); [unfold dec_digit in Hd; lia|]. rewrite parse_u32_digit by auto. cbn [no_text msbind].
    destruct (expect_m_ok _ _ (bs ".") [] R2 dot_utf8) as (p3 & -> & R3); [easy|]. cbn [msbind]. now rewrite (digit_m_eof _ _ R3).
  - destruct (expect_m_ok _ _ _ _ R0 http_utf8) as (p1 & -> & R1); [easy|]. cbn [msbind].
    destruct (digit_m_ascii _ _ _ _ R1) as (p2 & -> & R2); [unfold dec_digit in Hd; lia|]. rewrite parse_u32_digit by auto. cbn [no_text msbind].
    destruct (expect_m_ok _ _ (bs ".") (c :: r) R2 dot_utf8) as (p3 & -> & R3); [easy|]. cbn [msbind].
    destruct (digit_m_ascii _ _ _ _ R3 Hc) as (p4 & -> & _). now rewrite u32_nondigit_kind.
Qed.

Lemma dec_digit_or b : dec_digit b \/ ~ dec_digit b.
Proof. unfold dec_digit. lia. Qed.

Lemma version_complete s m : is_utf8 s -> parse_version_m s = MErr m -> version_complaint s m.
Proof.
  intros Hs. pose proof (reading_new _ Hs) as R0. unfold parse_version_m.
  destruct s as [|x0 s0] eqn:Es.
  { rewrite (expect_m_eof _ _ _ R0). cbn. intros [= <-]. apply vc_empty. }
  rewrite <- Es in *. assert (Hne : s <> []) by (subst; easy). clear x0 s0 Es.
  destruct (is_prefix (bs "HTTP/") s) eqn:Ep.
  2:{ assert (Hnp : ~ prefix (bs "HTTP/") s) by (intros Hp; apply is_prefix_true in Hp; congruence).
      rewrite (expect_m_other _ _ _ _ R0 Hne Hnp). change (length (bs "HTTP/")) with 5%nat.
      destruct (utf8_valid (firstn 5 s)) eqn:Ev; cbn [msbind fst]; [|discriminate].
      intros [= <-]. apply vc_name; auto. now apply is_utf8_valid. }
  apply is_prefix_true in Ep as (r & ->).
  destruct (expect_m_ok _ _ _ _ R0 http_utf8) as (p1 & -> & R1); auto. cbn [msbind].
  destruct r as [|d1 r].
  { rewrite (digit_m_eof _ _ R1). cbn [msbind fst]. intros [= <-]. rewrite app_nil_r. apply vc_no_major. }
  destruct (N.lt_ge_cases (bval d1) 128) as [Ha|Ha].
  2:{ rewrite (digit_m_other _ _ _ _ R1 Ha). discriminate. }
  destruct (digit_m_ascii _ _ _ _ R1 Ha) as (p2 & -> & R2).
  destruct (dec_digit_or d1) as [Hd|Hd].
  2:{ rewrite u32_nondigit_kind by auto. cbn [no_text msbind fst]. intros [= <-]. now apply vc_major. }
  rewrite parse_u32_digit by auto. cbn [no_text msbind].
  destruct r as [|x r].
  { rewrite (expect_m_eof _ _ _ R2). cbn [msbind fst]. intros [= <-]. now apply (vc_no_dot d1). }
  destruct (Byte.byte_eq_dec x x2e) as [->|Hx].
  2:{ rewrite (expect_m_other _ _ _ _ R2); [|easy|intros (t & Ht); injection Ht as ->; easy].
      change (firstn (length (bs ".")) (x :: r)) with [x].
      destruct (utf8_valid [x]) eqn:Ev; cbn [msbind fst]; [|discriminate].
      intros [= <-]. apply vc_dot; auto. destruct (N.lt_ge_cases (bval x) 128); auto.
      pose proof (valid_or_not_ascii _ _ Ev) as [|(n & u & Hn & Hn2 & Eu & _)]; auto.
      pose proof (f_equal (@length _) Eu) as El. rewrite app_length in El. cbn [length] in El.
      destruct (ch_shape n (encode_char n)) as (_ & _ & Hl); [split; auto|]. lia. }
  change (x2e :: r) with (bs "." ++ r) in R2.
  destruct (expect_m_ok _ _ _ _ R2 dot_utf8) as (p3 & -> & R3); [easy|]. cbn [msbind].
  destruct r as [|d2 r].
  { rewrite (digit_m_eof _ _ R3). cbn [msbind fst]. intros [= <-]. now apply (vc_no_minor d1). }
  destruct (N.lt_ge_cases (bval d2) 128) as [Hb|Hb].
  2:{ rewrite (digit_m_other _ _ _ _ R3 Hb). discriminate. }
  destruct (digit_m_ascii _ _ _ _ R3 Hb) as (p4 & -> & R4).
  destruct (dec_digit_or d2) as [He|He].
  2:{ rewrite u32_nondigit_kind by auto. cbn [no_text msbind fst]. intros [= <-]. now apply (vc_minor d1). }
  rewrite parse_u32_digit by auto. discriminate.
Qed.

Lemma version_says s m : is_utf8 s -> parse_version_m s = MErr m <-> version_complaint s m.
Proof. split; [now apply version_complete|now apply version_sound]. Qed.

(** *** Header lines *)
Lemma until_m_ok p pre d rest a b : reading p pre rest -> rest <> [] -> is_utf8 d -> first_at d rest a b ->
  exists p', parse_until_m p d = (MOk a, p') /\ reading p' (pre ++ a) (d ++ b).
Proof.
  intros H1 H2 H3 H4. destruct (parse_until_ok p pre d rest a b H1 H2 H3 H4) as (p' & E & H'). exists p'. split; auto.
  rewrite until_forget in E. destruct (parse_until_m p d) as [x q]. injection E as Ex ->. now apply forget_ok in Ex as ->.
Qed.
Lemma until_m_none p pre d rest : reading p pre rest -> rest <> [] -> (forall a b, rest <> a ++ d ++ b) ->
  parse_until_m p d = (MErr (MsgParse (bs "Expected '" ++ d ++ bs "' in '" ++ rest ++ bs "'")), p).
Proof.
  intros H1 H2 H3. pose proof (parse_until_none p pre d rest H1 H2 H3) as E. unfold parse_until, parse_until_m in *.
  rewrite (reading_empty_pos _ _ _ H1), (reading_remaining _ _ _ H1) in *. destruct rest; [easy|].
  destruct (find_sub d _) as [n|]; auto. destruct (str_slice _ _ _) eqn:Es; try discriminate.
  unfold str_slice in Es. repeat destruct (_ && _)%bool in Es; discriminate.
Qed.

Lemma header_sound l m : is_utf8 l -> header_complaint l m -> header_deserialize_m l = MErr m.
Proof.
  intros Hu H. pose proof (reading_new _ Hu) as R0. unfold header_deserialize_m. destruct H as [|l Hne Hn|k Hk|k c r Hk Hc Ha].
  - reflexivity.
  - rewrite (until_m_none _ _ (bs ":") _ R0 Hne); [reflexivity|]. intros x y ->. apply Hn. apply in_or_app. right. now left.
  - destruct (until_m_ok _ _ (bs ":") _ k [] R0) as (p1 & -> & R1); [now destruct k|apply colon_utf8|now apply (first_byte COLON)|].
    cbn [msbind]. rewrite (expect_m_other _ _ _ _ R1); [|easy|now intros (r & ?)]. reflexivity.
  - destruct (until_m_ok _ _ (bs ":") _ k (c :: r) R0) as (p1 & -> & R1); [now destruct k|apply colon_utf8|now apply (first_byte COLON)|].
    cbn [msbind]. rewrite (expect_m_other _ _ _ _ R1); [|easy|intros (t & Ht); injection Ht as -> _; easy].
    change (firstn (length (bs ": ")) (bs ":" ++ c :: r)) with [COLON; c]. rewrite valid_ascii_cons by reflexivity. now rewrite one_ascii.
Qed.

Lemma header_complete l m : is_utf8 l -> header_deserialize_m l = MErr m -> header_complaint l m.
Proof.
  intros Hu E. destruct (header_deserialize_cases l Hu) as [(k & v & _ & _ & H)|[(k & n & c & r & _ & _ & _ & H)|(e & H & Hc)]];
    rewrite header_forget, E in H; try discriminate.
  assert (Hs : forall m', header_complaint l m' -> header_complaint l m).
  { intros m' Hm. pose proof (header_sound l m' Hu Hm) as E'. rewrite E in E'. now injection E' as ->. }
  destruct Hc as [Hn|(k & r & Hk & -> & [->|(b & t & -> & Hb & Ha)])].
  - destruct l as [|x l']; [apply (Hs _ hc_empty)|]. apply (Hs _ (hc_no_colon (x :: l') ltac:(easy) Hn)).
  - apply (Hs _ (hc_alone k Hk)).
  - apply (Hs _ (hc_other k b t Hk Hb Ha)).
Qed.
Lemma header_says l m : is_utf8 l -> header_deserialize_m l = MErr m <-> header_complaint l m.
Proof. split; [now apply header_complete|now apply header_sound]. Qed.

(** *** First lines *)
Lemma method_says t m : parse_method_m t = MErr m <-> ~ names_method t /\ m = MsgParse (bs "Unknown method " ++ to_uppercase t).
Proof.
  unfold parse_method_m, names_method. destruct (parse_method_total t) as [[x E]|E]; rewrite E; split.
  - discriminate.
  - intros [H _]. exfalso. apply H. exists x. now apply parse_method_ok.
  - intros [= <-]. split; auto. intros [x Hx]. apply parse_method_ok in Hx. congruence.
  - now intros [_ ->].
Qed.
Lemma method_named t : names_method t <-> exists x, parse_method_m t = MOk x.
Proof.
  unfold parse_method_m, names_method. split; intros [x H].
  - apply parse_method_ok in H. rewrite H. eauto.
  - exists x. apply parse_method_ok. destruct (parse_method_total t) as [[y E]|E]; rewrite E in *; congruence.
Qed.

Lemma version_fine t : is_utf8 t -> version_text t <-> exists v, parse_version_m t = MOk v.
Proof.
  intros Hu. split.
  - intros (d1 & d2 & rest & H1 & H2 & E). eexists. apply forget_ok. rewrite <- version_forget. apply version_text_ok; auto. exists d1, d2, rest. auto.
  - intros [v E]. assert (Hv : parse_version t = Ok v) by now rewrite version_forget, E.
    apply version_text_ok in Hv as (d1 & d2 & rest & H1 & H2 & E' & _); auto. exists d1, d2, rest. auto.
Qed.

Lemma req_line_complete l m : is_utf8 l -> l <> [] -> req_line_m l = MErr m -> line_complaint l m.
Proof.
  intros Hu Hn. unfold req_line_m. destruct (token_split_exists l) as (t1 & w1 & r1 & S1).
  destruct (token_m_spec _ _ _ _ _ _ (reading_new _ Hu) Hn S1) as (p1 & -> & R1). cbn [msbind].
  destruct (split_utf8 _ _ _ _ S1 Hu) as [U1 V1].
  destruct (parse_method_m t1) as [x|e| |] eqn:Em; cbn [msbind fst].
  2:{ intros [= <-]. apply method_says in Em as [H ->]. eapply lc_method; eauto. }
  2,3: unfold parse_method_m in Em; destruct (parse_method t1); discriminate.
  assert (Hm : names_method t1) by (apply method_named; eauto).
  destruct r1 as [|c1 r1'] eqn:Er.
  { rewrite (token_m_eof _ _ R1). cbn [msbind fst]. intros [= <-]. eapply lc_no_uri; eauto. }
  rewrite <- Er in *. assert (Hr : r1 <> []) by (subst; easy).
  destruct (token_split_exists r1) as (u & w2 & r2 & S2).
  destruct (token_m_spec _ _ _ _ _ _ R1 Hr S2) as (p2 & -> & R2). cbn [msbind].
  destruct (split_utf8 _ _ _ _ S2 V1) as [U2 V2].
  destruct r2 as [|c2 r2'] eqn:Er2.
  { rewrite (token_m_eof _ _ R2). cbn [msbind fst]. intros [= <-]. eapply lc_no_version; eauto. }
  rewrite <- Er2 in *. assert (Hr2 : r2 <> []) by (subst; easy).
  destruct (token_split_exists r2) as (t3 & w3 & r3 & S3).
  destruct (token_m_spec _ _ _ _ _ _ R2 Hr2 S3) as (p3 & -> & R3). cbn [msbind].
  destruct (split_utf8 _ _ _ _ S3 V2) as [U3 V3].
  destruct (parse_version_m t3) as [v|e| |] eqn:Ev; cbn [mbind fst]; try discriminate.
  intros [= <-]. apply version_says in Ev; auto. eapply lc_version; eauto.
Qed.
Lemma req_line_sound l m : is_utf8 l -> l <> [] -> line_complaint l m -> req_line_m l = MErr m.
Proof.
  intros Hu Hn H. unfold req_line_m. destruct H as [t1 w1 r1 S1 Hm|t1 w1 S1 Hm|t1 w1 r1 u w2 S1 Hr S2 Hm|t1 w1 r1 u w2 r2 t3 w3 r3 m S1 Hr S2 Hr2 S3 Hm Hv];
    destruct (token_m_spec _ _ _ _ _ _ (reading_new _ Hu) Hn S1) as (p1 & -> & R1); cbn [msbind];
    destruct (split_utf8 _ _ _ _ S1 Hu) as [U1 V1].
  - rewrite (proj2 (method_says t1 _) (conj Hm eq_refl)). reflexivity.
  - apply method_named in Hm as [x ->]. cbn [msbind]. now rewrite (token_m_eof _ _ R1).
  - apply method_named in Hm as [x ->]. cbn [msbind]. destruct (token_m_spec _ _ _ _ _ _ R1 Hr S2) as (p2 & -> & R2). cbn [msbind].
    now rewrite (token_m_eof _ _ R2).
  - apply method_named in Hm as [x ->]. cbn [msbind]. destruct (token_m_spec _ _ _ _ _ _ R1 Hr S2) as (p2 & -> & R2). cbn [msbind].
    destruct (token_m_spec _ _ _ _ _ _ R2 Hr2 S3) as (p3 & -> & R3). cbn [msbind].
    destruct (split_utf8 _ _ _ _ S2 V1) as [U2 V2]. destruct (split_utf8 _ _ _ _ S3 V2) as [U3 V3].
    apply version_says in Hv; auto. now rewrite Hv.
Qed.

Lemma number_m_says s : is_utf8 s ->
  (s = [] -> parse_status_m s = MErr (MsgEof (bs "Expected token")))
  /\ (forall t w r, s <> [] -> token_split s t w r -> parse_status_m s = mdo c <- no_text (parse_u32 t); MOk (from_code c)).
Proof.
  intros Hu. unfold parse_status_m, parse_number_m. split.
  - intros ->. reflexivity.
  - intros t w r Hn S. destruct (token_m_spec _ _ _ _ _ _ (reading_new _ Hu) Hn S) as (p & -> & _). reflexivity.
Qed.
Lemma remaining_m_spec p pre rest : reading p pre rest -> exists p', parse_remaining_m p = (MOk rest, p').
Proof.
  intros H. destruct (parse_remaining_spec p pre rest H) as (p' & E & _). rewrite remaining_forget in E.
  destruct (parse_remaining_m p) as [x q]. injection E as Ex ->. apply forget_ok in Ex as ->. eauto.
Qed.

Lemma resp_line_complete l m : is_utf8 l -> l <> [] -> resp_line_m l = MErr m -> status_complaint l m.
Proof.
  intros Hu Hn. unfold resp_line_m. destruct (token_split_exists l) as (t1 & w1 & r1 & S1).
  destruct (token_m_spec _ _ _ _ _ _ (reading_new _ Hu) Hn S1) as (p1 & -> & R1). cbn [msbind].
  destruct (split_utf8 _ _ _ _ S1 Hu) as [U1 V1].
  destruct (parse_version_m t1) as [v|e| |] eqn:Ev; cbn [msbind fst]; try discriminate.
  2:{ intros [= <-]. apply version_says in Ev; auto. eapply sc_version; eauto. }
  assert (Hv : version_text t1) by (apply version_fine; eauto).
  destruct (remaining_m_spec _ _ _ R1) as (p2 & ->). cbn [msbind fst]. destruct (number_m_says r1 V1) as [H1 H2].
  destruct r1 as [|c1 r1'] eqn:Er.
  { rewrite (H1 eq_refl). cbn [mbind]. intros [= <-]. eapply sc_none; eauto. }
  rewrite <- Er in *. assert (Hr : r1 <> []) by (subst; easy). destruct (token_split_exists r1) as (t2 & w2 & r2 & S2).
  rewrite (H2 _ _ _ Hr S2). unfold parse_u32. destruct (int_cases u32_max t2) as [[n ->]|[k Hk]]; [discriminate|].
  rewrite (int_complains _ _ _ Hk). cbn [no_text mbind]. intros [= <-]. eapply sc_status; eauto.
Qed.
Lemma resp_line_sound l m : is_utf8 l -> l <> [] -> status_complaint l m -> resp_line_m l = MErr m.
Proof.
  intros Hu Hn H. unfold resp_line_m. destruct H as [t1 w1 r1 m S1 Hv|t1 w1 S1 Hv|t1 w1 r1 t2 w2 r2 k S1 Hv Hr S2 Hk];
    destruct (token_m_spec _ _ _ _ _ _ (reading_new _ Hu) Hn S1) as (p1 & -> & R1); cbn [msbind];
    destruct (split_utf8 _ _ _ _ S1 Hu) as [U1 V1].
  - apply version_says in Hv; auto. now rewrite Hv.
  - apply version_fine in Hv as [v ->]; auto. cbn [msbind]. destruct (remaining_m_spec _ _ _ R1) as (p2 & ->). reflexivity.
  - apply version_fine in Hv as [v ->]; auto. cbn [msbind]. destruct (remaining_m_spec _ _ _ R1) as (p2 & ->). cbn [msbind fst].
    destruct (number_m_says r1 V1) as [_ H2]. rewrite (H2 _ _ _ Hr S2). unfold parse_u32. now rewrite (int_complains _ _ _ Hk).
Qed.

(** ** What is wrong with a head *)

(** How the end of a head is told, when it does not end with an empty line. *)
Inductive end_complaint : ending -> message -> Prop :=
| ec_cut : end_complaint CutOff (MsgEof (bs "Expected \r\n"))
| ec_text upto len : end_complaint (NotText upto len) (MsgUtf8 upto len)
| ec_fail e : end_complaint (Failed e) (MsgOther e).

Definition names_header (l : bytes) : Prop := exists h, header_of l h.

(** [first] says what is wrong with the first line, [fine] that nothing is. *)
Inductive complaint (first : bytes -> message -> Prop) (fine : bytes -> Prop) : list bytes -> ending -> message -> Prop :=
| cp_empty : complaint first fine [] Complete (MsgEof (bs "Expected line"))
| cp_none en m : end_complaint en m -> complaint first fine [] en m
| cp_first l ls en m : first l m -> complaint first fine (l :: ls) en m
| cp_header l ls en good bad rest m : fine l -> folded ls (good ++ bad :: rest) -> Forall names_header good ->
    header_complaint bad m -> complaint first fine (l :: ls) en m
| cp_end l ls en logical m : fine l -> folded ls logical -> Forall names_header logical -> end_complaint en m ->
    complaint first fine (l :: ls) en m
| cp_length l ls logical hs v k : fine l -> folded ls logical -> Forall2 header_of logical hs ->
    last_value (bs "content-length") hs = Some v -> int_complaint u64_max v k ->
    complaint first fine (l :: ls) Complete (MsgInt k).

Lemma end_says en m : end_complaint en m <-> end_result en = MErr m.
Proof. split; [destruct 1; reflexivity|]. destruct en; cbn; intros [= <-]; constructor. Qed.
Lemma no_line_says en m : (en = Complete /\ m = MsgEof (bs "Expected line")) \/ end_complaint en m <-> m = no_line en.
Proof.
  unfold no_line. split.
  - intros [[-> ->]|H]; [reflexivity|]. apply end_says in H. now rewrite H.
  - intros ->. destruct en; cbn; auto; right; constructor.
Qed.

Lemma header_fine l h : is_utf8 l -> header_of l h <-> header_deserialize_m l = MOk h.
Proof.
  intros Hu. split.
  - intros (k & v & Hk & -> & ->). apply forget_ok. rewrite <- header_forget. now apply header_deserialize_ok.
  - intros E. apply header_deserialize_inv; auto. now rewrite header_forget, E.
Qed.

Definition block_complaint (logical : list bytes) (en : ending) (m : message) : Prop :=
  (exists good bad rest, logical = good ++ bad :: rest /\ Forall names_header good /\ header_complaint bad m)
  \/ (Forall names_header logical /\ end_complaint en m).

Lemma block_says : forall logical acc en m, Forall is_utf8 logical ->
  block_m acc logical (end_result en) = MErr m <-> block_complaint logical en m.
Proof.
  induction logical as [|l logical IH]; intros acc en m Hu; cbn [block_m].
  - split.
    + intros H. right. split; auto. apply end_says. destruct (end_result en); cbn in H; congruence.
    + intros [(good & bad & rest & E & _)|[_ H]]; [now destruct good|]. apply end_says in H. now rewrite H.
  - inversion Hu as [|l0 ls0 Hl Hls]; subst. destruct (header_deserialize_m l) as [h|m'| |] eqn:El; cbn [mbind].
    + apply header_fine in El; auto. rewrite IH by auto. unfold block_complaint. split.
      * intros [(good & bad & rest & -> & Hg & Hb)|[Hf He]].
        -- left. exists (l :: good), bad, rest. repeat split; auto. constructor; auto. now exists h.
        -- right. split; auto. constructor; auto. now exists h.
      * intros [(good & bad & rest & E & Hg & Hb)|[Hf He]].
        -- destruct good as [|g good]; injection E as -> ->.
           ++ exfalso. apply header_says in Hb; auto. apply header_fine in El; auto. congruence.
           ++ left. inversion Hg; subst. eauto 10.
        -- right. inversion Hf; auto.
    + split.
      * intros [= <-]. left. exists [], l, logical. repeat split; auto. now apply header_says.
      * intros [(good & bad & rest & E & Hg & Hb)|[Hf He]].
        -- destruct good as [|g good]; injection E as -> ->.
           ++ apply header_says in Hb; auto. congruence.
           ++ inversion Hg as [|g0 gs0 [h Hh] _]; subst. apply header_fine in Hh; auto. congruence.
        -- inversion Hf as [|g0 gs0 [h Hh] _]; subst. apply header_fine in Hh; auto. congruence.
    + split; [discriminate|]. intros [(good & bad & rest & E & Hg & Hb)|[Hf He]].
      * destruct good as [|g good]; injection E as -> ->.
        -- apply header_says in Hb; auto. congruence.
        -- inversion Hg as [|g0 gs0 [h Hh] _]; subst. apply header_fine in Hh; auto. congruence.
      * inversion Hf as [|g0 gs0 [h Hh] _]; subst. apply header_fine in Hh; auto. congruence.
    + split; [discriminate|]. intros [(good & bad & rest & E & Hg & Hb)|[Hf He]].
      * destruct good as [|g good]; injection E as -> ->.
        -- apply header_says in Hb; auto. congruence.
        -- inversion Hg as [|g0 gs0 [h Hh] _]; subst. apply header_fine in Hh; auto. congruence.
      * inversion Hf as [|g0 gs0 [h Hh] _]; subst. apply header_fine in Hh; auto. congruence.
Qed.

Lemma block_fine : forall logical acc en h, Forall is_utf8 logical ->
  block_m acc logical (end_result en) = MOk h <-> en = Complete /\ exists hs, Forall2 header_of logical hs /\ h = headers_from (acc ++ hs).
Proof.
  induction logical as [|l logical IH]; intros acc en h Hu; cbn [block_m].
  - split.
    + intros H. destruct en; cbn in H; try discriminate. injection H as <-. split; auto. exists []. rewrite app_nil_r. auto.
    + intros [-> (hs & Hf & ->)]. inversion Hf; subst. now rewrite app_nil_r.
  - inversion Hu as [|l0 ls0 Hl Hls]; subst. split.
    + destruct (header_deserialize_m l) as [x|m'| |] eqn:El; cbn [mbind]; try discriminate. apply header_fine in El; auto.
      rewrite IH by auto. intros [-> (hs & Hf & ->)]. split; auto. exists (x :: hs). rewrite <- app_assoc. auto.
    + intros [-> (hs & Hf & ->)]. inversion Hf as [|l1 x ls1 xs Hx Hxs]; subst. apply header_fine in Hx; auto. rewrite Hx. cbn [mbind].
      change Complete with Complete. apply IH; auto. split; auto. exists xs. now rewrite <- app_assoc.
Qed.

Lemma length_says h m : no_text (content_length_of h) = MErr m <->
  exists v k, hm_get (bs "content-length") h = Some v /\ int_complaint u64_max v k /\ m = MsgInt k.
Proof.
  unfold content_length_of, headers_get. change (to_lowercase (bs "Content-Length")) with (bs "content-length").
  destruct (hm_get (bs "content-length") h) as [v|]; [|split; [discriminate|intros (v & k & ? & _); discriminate]].
  unfold parse_u64. split.
  - destruct (int_cases u64_max v) as [[n ->]|[k Hk]]; [discriminate|]. rewrite (int_complains _ _ _ Hk). cbn [rbind no_text]. intros [= <-]. eauto.
  - intros (w & k & [= <-] & Hk & ->). now rewrite (int_complains _ _ _ Hk).
Qed.

(** The three steps, for either kind of head. *)
Lemma head_says {A B} (line : mres A) (logical : list bytes) en (mk : A -> headers -> option N -> B) m : Forall is_utf8 logical ->
  (mdo x <- line; mdo h <- block_m [] logical (end_result en); mdo n <- no_text (content_length_of h); MOk (mk x h n)) = MErr m <->
  line = MErr m \/ (exists x, line = MOk x) /\ (block_complaint logical en m
    \/ en = Complete /\ exists hs v k, Forall2 header_of logical hs /\ last_value (bs "content-length") hs = Some v
         /\ int_complaint u64_max v k /\ m = MsgInt k).
Proof.
  intros Hu. destruct line as [x|e| |]; cbn [mbind].
  2:{ split; [intros [= <-]; auto|]. intros [?|[[x ?] _]]; congruence. }
  2,3: split; [discriminate|]; intros [?|[[x ?] _]]; congruence.
  destruct (block_m [] logical (end_result en)) as [h|e| |] eqn:Eb; cbn [mbind].
  - pose proof Eb as Eb'. apply block_fine in Eb as [-> (hs & Hf & ->)]; auto. cbn [app] in *.
    destruct (no_text (content_length_of (headers_from hs))) as [n|e| |] eqn:En; cbn [mbind].
    + split; [discriminate|]. intros [?|[_ [H|[_ (hs' & v & k & Hf' & Hv & Hk & ->)]]]]; [discriminate| |].
      * apply (block_says logical []) in H; auto. congruence.
      * assert (Hh : headers_from hs = headers_from hs').
        { assert (E2 : block_m [] logical (end_result Complete) = MOk (headers_from hs')) by (apply block_fine; eauto). congruence. }
        assert (Hc : no_text (content_length_of (headers_from hs)) = MErr (MsgInt k)).
        { apply length_says. exists v, k. rewrite Hh, headers_from_get. auto. }
        congruence.
    + split.
      * intros [= <-]. right. split; eauto. right. split; auto. apply length_says in En as (v & k & Hv & Hk & ->).
        rewrite headers_from_get in Hv. eauto 10.
      * intros [?|[_ [H|[_ (hs' & v & k & Hf' & Hv & Hk & ->)]]]]; [discriminate| |].
        -- apply (block_says logical []) in H; auto. congruence.
        -- assert (Hh : headers_from hs = headers_from hs').
           { assert (E2 : block_m [] logical (end_result Complete) = MOk (headers_from hs')) by (apply block_fine; eauto). congruence. }
           assert (Hc : no_text (content_length_of (headers_from hs)) = MErr (MsgInt k)).
           { apply length_says. exists v, k. rewrite Hh, headers_from_get. auto. }
           congruence.
    + exfalso. destruct (content_length_cases (headers_from hs)) as [[n E]|[k E]]; rewrite E in En; discriminate.
    + exfalso. destruct (content_length_cases (headers_from hs)) as [[n E]|[k E]]; rewrite E in En; discriminate.
  - apply block_says in Eb; auto. split; [intros [= <-]; right; split; eauto|].
    intros [?|[_ [H|[-> (hs & v & k & Hf & Hv & Hk & ->)]]]]; [discriminate| |].
    + apply (block_says logical []) in H; auto. apply (block_says logical []) in Eb; auto. congruence.
    + assert (E2 : block_m [] logical (end_result Complete) = MOk (headers_from hs)) by (apply block_fine; eauto).
      apply (block_says logical []) in Eb; auto. congruence.
  - split; [discriminate|]. intros [?|[_ [H|[-> (hs & v & k & Hf & Hv & Hk & ->)]]]]; [discriminate| |].
    + apply (block_says logical []) in H; auto. congruence.
    + assert (E2 : block_m [] logical (end_result Complete) = MOk (headers_from hs)) by (apply block_fine; eauto). congruence.
  - split; [discriminate|]. intros [?|[_ [H|[-> (hs & v & k & Hf & Hv & Hk & ->)]]]]; [discriminate| |].
    + apply (block_says logical []) in H; auto. congruence.
    + assert (E2 : block_m [] logical (end_result Complete) = MOk (headers_from hs)) by (apply block_fine; eauto). congruence.
Qed.
