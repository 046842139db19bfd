(** Properties of the text parser, statuses, methods, versions and header maps. *)
From Verif Require Import Base Utf8 Case Num Parser Types Transport Lemmas NumLemmas Utf8Lemmas
  ParserLemmas CaseLemmas TypesLemmas.

(** C15. Parser primitives. [reading p pre rest]: the parser [p] has consumed [pre], [rest] is unread. *)
Theorem C15_expect :
  forall p pre rest x, reading p pre rest -> is_utf8 x ->
  (forall p', expect p x = (Ok tt, p') ->
     rest <> [] /\ exists r, rest = x ++ r /\ reading p' (pre ++ x) r)
  /\ (forall r, rest <> [] -> rest = x ++ r -> exists p', expect p x = (Ok tt, p') /\ reading p' (pre ++ x) r)
  /\ (forall r p', expect p x = (r, p') -> r <> Ok tt -> p' = p).
Proof.
  intros p pre rest x H Hx. split; [|split].
  - intros p' E. destruct (expect_ok_inv _ _ _ _ _ Hx H E) as (r & H1 & H2 & H3). eauto.
  - intros r Hne ->. now apply expect_ok.
  - intros r p' E Hr. unfold expect in E. cbv zeta in E. destruct (_ <=? _); [now inversion E|].
    destruct (str_slice _ _ _); [|now inversion E..].
    destruct (beqb _ _); inversion E; subst; congruence.
Qed.
Print Assumptions C15_expect.
Example C15_expect_case : reading (mkParser (bs "HTTP/1.1") 5) (bs "HTTP/") (bs "1.1")
  /\ expect (mkParser (bs "HTTP/1.1") 5) (bs "1.") = (Ok tt, mkParser (bs "HTTP/1.1") 7)
  /\ expect (mkParser (bs "HTTP/1.1") 5) (bs "2") = (Err ParseError, mkParser (bs "HTTP/1.1") 5)
  /\ expect (mkParser (bs "HTTP/1.1") 7) (bs "1.") = (Err ParseError, mkParser (bs "HTTP/1.1") 7).
Proof. repeat split; try (now apply utf8_bs_ascii). Qed.

(** The text before the first occurrence, and the parser stops on it. *)
Theorem C15_parse_until :
  forall p pre rest d, reading p pre rest -> is_utf8 d ->
  (forall a b, rest <> [] -> rest = a ++ d ++ b ->
     (forall a' b', rest = a' ++ d ++ b' -> length a <= length a') ->
     exists p', parse_until p d = (Ok a, p') /\ reading p' (pre ++ a) (d ++ b))
  /\ (rest <> [] -> (forall a b, rest <> a ++ d ++ b) -> parse_until p d = (Err ParseError, p))
  /\ (rest = [] -> parse_until p d = (Err UnexpectedEof, p)).
Proof.
  intros p pre rest d H Hd. split; [|split].
  - intros a b Hne Hs Hm. eapply parse_until_ok; eauto. split; auto.
  - intros. eapply parse_until_none; eauto.
  - intros ->. eapply parse_until_eof; eauto.
Qed.
Print Assumptions C15_parse_until.
Example C15_parse_until_case :
  parse_until (mkParser (bs "xab: c: d") 1) (bs ": ") = (Ok (bs "ab"), mkParser (bs "xab: c: d") 3)
  /\ parse_until (mkParser (bs "xab") 1) (bs ": ") = (Err ParseError, mkParser (bs "xab") 1).
Proof. now split. Qed.

(** The text up to the first blank; all blanks after it are skipped. *)
Theorem C15_parse_token :
  forall p pre rest tok ws r, reading p pre rest -> rest <> [] ->
  rest = tok ++ ws ++ r ->
  Forall (fun b => ~ (b = SP \/ b = TAB)) tok -> Forall (fun b => b = SP \/ b = TAB) ws ->
  (forall b t, r = b :: t -> ~ (b = SP \/ b = TAB)) -> (ws = [] -> r = []) ->
  exists p', parse_token p = (Ok tok, p') /\ reading p' (pre ++ tok ++ ws) r.
Proof.
  intros p pre rest tok ws r H Hne Hs H1 H2 H3 H4. eapply parse_token_spec; eauto.
  unfold token_split, blank. auto.
Qed.
Print Assumptions C15_parse_token.

(** Every non-empty unread text has such a split, so the previous theorem covers every call; at the end of
    the text the call fails and consumes nothing. *)
Theorem C15_parse_token_total :
  (forall rest, exists tok ws r, rest = tok ++ ws ++ r
     /\ Forall (fun b => ~ (b = SP \/ b = TAB)) tok /\ Forall (fun b => b = SP \/ b = TAB) ws
     /\ (forall b t, r = b :: t -> ~ (b = SP \/ b = TAB)) /\ (ws = [] -> r = []))
  /\ (forall p pre, reading p pre [] -> parse_token p = (Err UnexpectedEof, p)).
Proof. split. - apply token_split_exists. - apply parse_token_eof. Qed.
Print Assumptions C15_parse_token_total.
Example C15_parse_token_case :
  parse_token (parser_new (SP :: bs "GET")) = (Ok [], mkParser (SP :: bs "GET") 1)
  /\ parse_token (parser_new (bs "GET" ++ [SP; TAB; SP] ++ bs "/x y")) =
       (Ok (bs "GET"), mkParser (bs "GET" ++ [SP; TAB; SP] ++ bs "/x y") 6).
Proof. now split. Qed.

Theorem C15_parse_remaining :
  forall p pre rest, reading p pre rest ->
  exists p', parse_remaining p = (Ok rest, p') /\ parse_remaining p' = (Err UnexpectedEof, p').
Proof. intros p pre rest H. destruct (parse_remaining_spec _ _ _ H) as (p' & H1 & H2 & _). eauto. Qed.
Print Assumptions C15_parse_remaining.
Example C15_parse_remaining_case :
  parse_remaining (mkParser (bs "abc") 1) = (Ok (bs "bc"), mkParser (bs "abc") 4)
  /\ parse_remaining (mkParser (bs "abc") 3) = (Ok [], mkParser (bs "abc") 4)
  /\ parse_remaining (mkParser (bs "abc") 4) = (Err UnexpectedEof, mkParser (bs "abc") 4).
Proof. now repeat split. Qed.

(** One character or digit. A character outside ASCII panics: the slice is one byte long. An invalid digit is consumed. *)
Theorem C15_parse_char :
  forall p pre n rest, scalar n = true -> reading p pre (encode_char n ++ rest) ->
  ((n < 128)%N -> exists p', parse_char p = (Ok n, p') /\ reading p' (pre ++ encode_char n) rest)
  /\ ((128 <= n)%N -> parse_char p = (Panic, p))
  /\ (forall p2 pre2, reading p2 pre2 [] -> parse_char p2 = (Err UnexpectedEof, p2)).
Proof.
  intros p pre n rest Hn H. destruct (encode_char_shape n Hn) as (b & r & E & Hc & Hr & H1 & H2).
  split; [|split].
  - intros Hlt. destruct (H2 Hlt) as [-> Hb]. rewrite E in *. cbn [app] in H.
    unfold parse_char. rewrite (reading_empty_pos _ _ _ H). replace (ppos p + 1) with (ppos p + length [b]) by reflexivity.
    assert (Hu : is_utf8 [b]) by (apply is_utf8_valid; rewrite valid_ascii_cons; auto; lia).
    rewrite (reading_slice p pre [b] rest) by auto. cbn [utf8_decode]. replace (bval b <? 128)%N with true by (symmetry; apply N.ltb_lt; lia).
    cbn [ocons]. rewrite Hb. eexists. split; eauto. now apply reading_step.
  - intros Hge. rewrite E in H. cbn [app] in H. pose proof H as (K1 & K2 & K3 & K4). apply is_utf8_valid in K4.
    destruct (valid_or_not_ascii _ _ K4) as [Hb|(m & u & _ & _ & _ & Hb)]; [lia|].
    unfold parse_char. rewrite (reading_empty_pos _ _ _ H). rewrite K1, K2. change (b :: r ++ rest) with ([b] ++ r ++ rest).
    change 1 with (length [b]). rewrite str_slice_panic; auto.
  - intros p2 pre2 H0. unfold parse_char. now rewrite (reading_empty_pos _ _ _ H0).
Qed.
Print Assumptions C15_parse_char.

Theorem C15_parse_digit :
  forall p pre n rest, scalar n = true -> reading p pre (encode_char n ++ rest) ->
  ((48 <= n <= 57)%N -> exists p', parse_digit p = (Ok (n - 48)%N, p') /\ reading p' (pre ++ encode_char n) rest)
  /\ ((n < 48 \/ 57 < n < 128)%N -> exists k p', parse_digit p = (Err (ParseIntError k), p') /\ reading p' (pre ++ encode_char n) rest)
  /\ ((128 <= n)%N -> parse_digit p = (Panic, p))
  /\ (forall p2 pre2, reading p2 pre2 [] -> parse_digit p2 = (Err UnexpectedEof, p2)).
Proof.
  intros p pre n rest Hn H. destruct (encode_char_shape n Hn) as (b & r & E & Hc & Hr & H1 & H2).
  assert (Hd : parse_u32 [b] = if ((48 <=? bval b) && (bval b <=? 57))%N then Ok (bval b - 48)%N else Err (ParseIntError IInvalidDigit))
    by (clear; destruct b; reflexivity).
  split; [|split; [|split]].
  - intros Hd1. destruct (H2 ltac:(lia)) as [-> Hb]. rewrite E in *. cbn [app] in H.
    destruct (parse_digit_ascii _ _ _ _ H) as (p' & E1 & E2); [lia|]. exists p'. split; auto. rewrite E1, Hd, Hb.
    replace (48 <=? n)%N with true by (symmetry; apply N.leb_le; lia). now replace (n <=? 57)%N with true by (symmetry; apply N.leb_le; lia).
  - intros Hd1. destruct (H2 ltac:(lia)) as [-> Hb]. rewrite E in *. cbn [app] in H.
    destruct (parse_digit_ascii _ _ _ _ H) as (p' & E1 & E2); [lia|]. rewrite E1.
    exists IInvalidDigit, p'. split; auto. rewrite Hd, Hb. destruct (48 <=? n)%N eqn:Ea; auto. destruct (n <=? 57)%N eqn:Eb; auto.
    apply N.leb_le in Ea, Eb. lia.
  - intros Hge. rewrite E in H. cbn [app] in H. eapply parse_digit_other; eauto. lia.
  - intros p2 pre2 H0. eapply parse_digit_eof; eauto.
Qed.
Print Assumptions C15_parse_digit.

(** A number is a token whose text is a numeral; the token is consumed in any case. *)
Theorem C15_parse_number :
  forall p pre rest tok ws r, reading p pre rest -> rest <> [] ->
  rest = tok ++ ws ++ r ->
  Forall (fun b => ~ (b = SP \/ b = TAB)) tok -> Forall (fun b => b = SP \/ b = TAB) ws ->
  (forall b t, r = b :: t -> ~ (b = SP \/ b = TAB)) -> (ws = [] -> r = []) ->
  exists x p', parse_number p = (x, p') /\ reading p' (pre ++ tok ++ ws) r
    /\ (forall n, x = Ok n <-> (n <= u32_max)%N /\ (numeral 10 tok n \/ exists t, tok = x2b :: t /\ numeral 10 t n))
    /\ ((forall n, x <> Ok n) -> exists k, x = Err (ParseIntError k)).
Proof.
  intros p pre rest tok ws r H Hne E H1 H2 H3 H4.
  destruct (C15_parse_token p pre rest tok ws r H Hne E H1 H2 H3 H4) as (p' & E1 & E2).
  exists (parse_u32 tok), p'. unfold parse_number. rewrite E1. cbn [sbind]. repeat (split; [easy|]). split.
  - intros n. apply from_str_radix_spec; lia.
  - intros Hn. destruct (from_str_radix_err 10 u32_max tok) as [[n Ek]|?]; auto. now apply Hn in Ek.
Qed.
Print Assumptions C15_parse_number.

(** The text before the first of the given characters. *)
Theorem C15_parse_until_any :
  forall p pre rest divs, reading p pre rest -> rest <> [] ->
  (forall cs c cs', Forall (fun n => scalar n = true) (cs ++ c :: cs') -> rest = flat_map encode_char (cs ++ c :: cs') ->
     (forall n, In n cs -> ~ In n divs) -> In c divs ->
     exists p', parse_until_any p divs = (Ok (flat_map encode_char cs), p')
       /\ reading p' (pre ++ flat_map encode_char cs) (flat_map encode_char (c :: cs')))
  /\ (forall cs, Forall (fun n => scalar n = true) cs -> rest = flat_map encode_char cs -> (forall n, In n cs -> ~ In n divs) ->
     parse_until_any p divs = (Err ParseError, p))
  /\ (forall p2 pre2, reading p2 pre2 [] -> parse_until_any p2 divs = (Err UnexpectedEof, p2)).
Proof.
  intros p pre rest divs H Hne.
  assert (Hin : forall n, ~ In n divs -> existsb (N.eqb n) divs = false).
  { intros n Hn. apply not_true_is_false. intros Hx. apply existsb_exists in Hx as (m & Hm & E). apply N.eqb_eq in E as <-. auto. }
  split; [|split].
  - intros cs c cs' Hs E Hnot Hc. pose proof Hs as Hs0. apply Forall_app in Hs0 as [Hs1 Hs2].
    assert (Hf : find_char divs (cs ++ c :: cs') = Some (length (flat_map encode_char cs))).
    { clear - Hin Hnot Hc. induction cs as [|a cs IH]; cbn [app find_char flat_map length].
      - replace (existsb (N.eqb c) divs) with true; auto. symmetry. apply existsb_exists. exists c. split; auto. apply N.eqb_refl.
      - rewrite Hin by (apply Hnot; now left). rewrite IH by (intros n Hn; apply Hnot; now right). cbn [option_map].
        now rewrite app_length. }
    unfold parse_until_any. rewrite (reading_empty_pos _ _ _ H), (reading_remaining _ _ _ H). assert (Hdec : utf8_decode rest = Some (cs ++ c :: cs')) by (rewrite E; now apply decode_encode).
    destruct rest as [|x rest]; [easy|]. rewrite Hdec, Hf.
    rewrite flat_map_app in E.
    assert (Hu : is_utf8 (flat_map encode_char cs)) by now exists cs.
    pose proof H as (_ & _ & _ & H4). rewrite E in H4. apply is_utf8_valid in H4.
    rewrite E. pose proof (str_slice_ok [] (flat_map encode_char cs) (flat_map encode_char (c :: cs')) H4) as Hsl. cbn [app length Nat.add] in Hsl.
    rewrite Hsl by now apply is_utf8_valid. eexists. split; eauto. rewrite E in H. now apply reading_step.
  - intros cs Hs E Hnot. assert (Hf : find_char divs cs = None).
    { clear - Hin Hnot. induction cs as [|a cs IH]; cbn [find_char]; auto. rewrite Hin by (apply Hnot; now left).
      rewrite IH by (intros n Hn; apply Hnot; now right). reflexivity. }
    unfold parse_until_any. rewrite (reading_empty_pos _ _ _ H), (reading_remaining _ _ _ H). assert (Hdec : utf8_decode rest = Some cs) by (rewrite E; now apply decode_encode).
    destruct rest as [|x rest]; [easy|]. now rewrite Hdec, Hf.
  - intros p2 pre2 H0. unfold parse_until_any. now rewrite (reading_empty_pos _ _ _ H0).
Qed.
Print Assumptions C15_parse_until_any.
Example C15_more_cases :
  parse_char (mkParser (bs "ab") 1) = (Ok 98%N, mkParser (bs "ab") 2)
  /\ parse_char (mkParser (bs "a" ++ [xc3; xa9]) 1) = (Panic, mkParser (bs "a" ++ [xc3; xa9]) 1)
  /\ parse_digit (mkParser (bs "x7y") 1) = (Ok 7%N, mkParser (bs "x7y") 2)
  /\ parse_digit (mkParser (bs "x+y") 1) = (Err (ParseIntError IInvalidDigit), mkParser (bs "x+y") 2)
  /\ parse_number (mkParser (bs "a 12  b") 2) = (Ok 12%N, mkParser (bs "a 12  b") 6)
  /\ parse_number (mkParser (bs "a 4294967296 b") 2) = (Err (ParseIntError IPosOverflow), mkParser (bs "a 4294967296 b") 13)
  /\ parse_until_any (mkParser (bs "x" ++ [xc3; xa9] ++ bs "a-b_c") 1) [95; 45]%N = (Ok ([xc3; xa9] ++ bs "a"), mkParser (bs "x" ++ [xc3; xa9] ++ bs "a-b_c") 4)
  /\ reading (mkParser (bs "x" ++ [xc3; xa9] ++ bs "a-b_c") 1) (bs "x") ([xc3; xa9] ++ bs "a-b_c").
Proof.
  do 9 (split; [reflexivity|]). split; apply is_utf8_valid; reflexivity.
Qed.

(** C16. A header line panics exactly when the character after its first colon is not ASCII. *)
Theorem C16_header_line_panics_iff :
  forall line, is_utf8 line ->
  header_deserialize line = Panic <->
  exists key n rest, ~ In COLON key /\ scalar n = true /\ (128 <= n)%N
    /\ line = key ++ COLON :: encode_char n ++ rest.
Proof.
  intros line Hu. rewrite (header_deserialize_panics line Hu). split.
  - intros (key & n & c & rest & H1 & (H2 & H3 & ->) & H4). eauto 10.
  - intros (key & n & rest & H1 & H2 & H3 & H4). exists key, n, (encode_char n), rest. repeat split; auto.
Qed.
Print Assumptions C16_header_line_panics_iff.
Example C16_header_line_case : header_deserialize (bs "name:" ++ [xc3; xa9] ++ bs "x") = Panic
  /\ encode_char 233 = [xc3; xa9] /\ header_deserialize (bs "name: " ++ [xc3; xa9]) = Ok (bs "name", [xc3; xa9]).
Proof. now vm_compute. Qed.

(** A version token panics exactly when a non-ASCII character straddles byte 5, follows "HTTP/", follows
    "HTTP/" and a digit, or follows "HTTP/", a digit and a dot. *)
Theorem C16_version_panics_iff :
  forall s, is_utf8 s ->
  parse_version s = Panic <->
  exists a n b, s = a ++ encode_char n ++ b /\ scalar n = true /\ (128 <= n)%N
    /\ ((length a < 5 /\ 5 < length a + length (encode_char n))
        \/ a = bs "HTTP/"
        \/ (exists d, (48 <= bval d <= 57)%N /\ a = bs "HTTP/" ++ [d])
        \/ (exists d, (48 <= bval d <= 57)%N /\ a = bs "HTTP/" ++ [d] ++ bs ".")).
Proof.
  intros s Hs. rewrite (parse_version_panics s Hs). split.
  - intros (a & n & c & b & H1 & (H2 & H3 & ->) & H4). exists a, n, b. auto.
  - intros (a & n & b & H1 & H2 & H3 & H4). exists a, n, (encode_char n), b. split; auto. split; auto. split; auto.
Qed.
Print Assumptions C16_version_panics_iff.
Example C16_version_case : parse_version (bs "HTTP" ++ [xc3; xa9]) = Panic
  /\ parse_version (bs "HTTP/" ++ [xc3; xa9]) = Panic /\ parse_version (bs "HTTP/1" ++ [xc3; xa9]) = Panic
  /\ parse_version (bs "HTTP/1." ++ [xc3; xa9]) = Panic
  /\ parse_version (bs "HTT" ++ [xc3; xa9]) = Err ParseError.
Proof. now vm_compute. Qed.

(** C18. *)
Theorem C18_from_to : forall c, to_code (from_code c) = c.
Proof.
  intros c. unfold from_code.
  repeat match goal with |- to_code (match ?x with _ => _ end) = _ => destruct x; try reflexivity end.
Qed.
Print Assumptions C18_from_to.

Definition known_codes : list N :=
  [100;101;200;201;202;203;204;205;206;300;301;302;303;304;305;307;
   400;401;402;403;404;405;406;407;408;409;410;411;412;413;414;415;416;417;
   500;501;502;503;504;505]%N.
Theorem C18_to_from :
  forall s, (forall c, s = StUnknown c -> ~ In c known_codes) -> from_code (to_code s) = s.
Proof.
  intros s H. destruct s; try reflexivity. specialize (H c eq_refl). cbn [to_code].
  destruct (from_code c) eqn:E;
    try (exfalso; apply H; pose proof (C18_from_to c) as Hc; rewrite E in Hc; cbn in Hc; rewrite <- Hc; cbn; tauto).
  pose proof (C18_from_to c) as Hc. rewrite E in Hc. cbn in Hc. now subst.
Qed.
Print Assumptions C18_to_from.

Theorem C18_show_parse :
  forall s, (to_code s <= u32_max)%N -> parse_status (show_status s) = Ok (from_code (to_code s)).
Proof.
  intros s H. destruct s; try reflexivity. cbn [to_code show_status] in *.
  apply parse_status_number; auto. apply show_radix_numeral; lia.
Qed.
Print Assumptions C18_show_parse.
Example C18_case : show_status (StUnknown 418) = bs "418" /\ parse_status (bs "418") = Ok (StUnknown 418)
  /\ ~ In 418%N known_codes /\ from_code 404 = NotFound
  /\ parse_status (show_status ProxyAuthenticationRequired) = Ok ProxyAuthenticationRequired
  /\ from_code (to_code (StUnknown 404)) = NotFound.
Proof. repeat split; try reflexivity. vm_compute. intuition easy. Qed.

(** C19. *)
Theorem C19_categories :
  forall s,
  (to_category s = Informational <-> (100 <= to_code s <= 199)%N)
  /\ (to_category s = Success <-> (200 <= to_code s <= 299)%N)
  /\ (to_category s = Redirection <-> (300 <= to_code s <= 399)%N)
  /\ (to_category s = ClientError <-> (400 <= to_code s <= 499)%N)
  /\ (to_category s = ServerError <-> (500 <= to_code s <= 599)%N)
  /\ (to_category s = UnknownCategory <-> (to_code s < 100 \/ 600 <= to_code s)%N).
Proof.
  intros s. unfold to_category. generalize (to_code s) as c. intros c.
  assert (Hd : forall q, (c / 100 = q <-> 100 * q <= c < 100 * q + 100)%N).
  { intros q. pose proof (N.div_mod c 100 ltac:(lia)). pose proof (N.mod_lt c 100 ltac:(lia)). split; intros; nia. }
  assert (Hc : forall q, category_from_code q = Informational /\ q = 1%N \/ category_from_code q = Success /\ q = 2%N
    \/ category_from_code q = Redirection /\ q = 3%N \/ category_from_code q = ClientError /\ q = 4%N
    \/ category_from_code q = ServerError /\ q = 5%N \/ category_from_code q = UnknownCategory /\ (q = 0 \/ 6 <= q)%N).
  { intros q. destruct (N.le_gt_cases 6 q).
    - do 5 right. split; auto. destruct q as [|[[[]|[]|]|[[]|[]|]|]]; try reflexivity; lia.
    - assert (q = 0 \/ q = 1 \/ q = 2 \/ q = 3 \/ q = 4 \/ q = 5)%N as [->|[->|[->|[->|[->| ->]]]]] by lia; simpl; tauto. }
  specialize (Hc (c / 100)%N). pose proof (N.div_mod c 100 ltac:(lia)). pose proof (N.mod_lt c 100 ltac:(lia)).
  destruct Hc as [[-> E]|[[-> E]|[[-> E]|[[-> E]|[[-> E]|[-> E]]]]]];
    repeat match goal with |- _ /\ _ => split end; split; intros; try easy; nia.
Qed.
Print Assumptions C19_categories.
Example C19_case : to_category (StUnknown 299) = Success /\ to_category NotFound = ClientError
  /\ to_category (StUnknown 1200) = UnknownCategory.
Proof. now repeat split. Qed.

(** C20. *)
Theorem C20_show_parse : forall m, parse_method (show_method m) = Ok m.
Proof. intros []; reflexivity. Qed.
Print Assumptions C20_show_parse.

(** Equality up to ASCII case, as a relation on bytes. *)
Definition same_letter (a b : byte) : Prop :=
  a = b \/ (65 <= bval b <= 90 /\ bval a = bval b + 32)%N.

Theorem C20_parse_iff :
  forall s m, ascii s = true ->
  parse_method s = Ok m <-> Forall2 same_letter s (show_method m).
Proof.
  intros s m Ha. rewrite parse_method_ok, to_uppercase_ascii by auto.
  assert (Hu : forall a, (bval a < 128)%N -> forall b, (65 <= bval b <= 90)%N -> ascii_upper a = b <-> same_letter a b).
  { intros a Hlt b Hb. unfold same_letter, ascii_upper.
    destruct ((97 <=? bval a) && (bval a <=? 122))%N eqn:E.
    - apply andb_true_iff in E as [E1 E2]. apply N.leb_le in E1, E2. split.
      + intros <-. right. rewrite bval_byte_of by lia. lia.
      + intros [->|[_ E]]; [lia|]. rewrite E. replace (bval b + 32 - 32)%N with (bval b) by lia. apply byte_of_bval.
    - split; auto. intros [|[_ E1]]; auto. exfalso. apply andb_false_iff in E. rewrite !N.leb_gt in E. lia. }
  assert (Hm : Forall (fun b => (65 <= bval b <= 90)%N) (show_method m)).
  { destruct m; repeat constructor; vm_compute; congruence. }
  revert Ha Hm. generalize (show_method m) as w. induction s as [|a s IH]; intros [|b w] Ha Hm; cbn [map].
  - split; [constructor|auto].
  - split; [easy|intros H; inversion H].
  - split; [easy|intros H; inversion H].
  - apply ascii_cons in Ha as [Ha1 Ha2]. inversion Hm; subst. split.
    + intros [= H4 H5]. constructor; [now apply Hu|now apply IH].
    + intros H. inversion H; subst. f_equal; [now apply Hu|now apply IH].
Qed.
Print Assumptions C20_parse_iff.

Theorem C20_has_body : forall m, has_body m = true <-> (m = Delete \/ m = Post \/ m = Put).
Proof. intros []; simpl; intuition congruence. Qed.
Print Assumptions C20_has_body.

(** Without the ASCII restriction the claim fails: the Unicode upper case of U+017F (long s) is S, that
    of the ligature U+FB05 is ST. *)
Theorem C20_unicode_refuted :
  parse_method (bs "po" ++ encode_char 383 ++ bs "t") = Ok Post
  /\ parse_method (bs "PO" ++ encode_char 64261) = Ok Post
  /\ ~ Forall2 same_letter (bs "po" ++ encode_char 383 ++ bs "t") (bs "POST").
Proof.
  split; [vm_compute; reflexivity|]. split; [vm_compute; reflexivity|].
  intros H. do 4 (inversion_clear H as [|? ? ? ? _ H']; rename H' into H). inversion H.
Qed.
Print Assumptions C20_unicode_refuted.
Example C20_case : parse_method (bs "dElEtE") = Ok Delete /\ parse_method (bs "PATCH") = Err ParseError
  /\ parse_method (bs "get ") = Err ParseError.
Proof. now vm_compute. Qed.

(** C21. *)
Theorem C21_show_parse :
  forall x y, (x < 10)%N -> (y < 10)%N -> parse_version (show_version (mkVersion x y)) = Ok (mkVersion x y).
Proof.
  intros x y Hx Hy.
  assert (H : forall n, (n < 10)%N -> In n [0;1;2;3;4;5;6;7;8;9]%N) by (intros n Hn; simpl; lia).
  apply H in Hx, Hy. simpl in Hx, Hy.
  repeat destruct Hx as [<-|Hx]; try easy; repeat destruct Hy as [<-|Hy]; easy.
Qed.
Print Assumptions C21_show_parse.

Theorem C21_parse_iff :
  forall s v, is_utf8 s ->
  parse_version s = Ok v <->
  exists d1 d2 rest, (48 <= bval d1 <= 57)%N /\ (48 <= bval d2 <= 57)%N
    /\ s = bs "HTTP/" ++ [d1] ++ bs "." ++ [d2] ++ rest
    /\ v = mkVersion (bval d1 - 48) (bval d2 - 48).
Proof. intros s v Hs. apply (version_text_ok s v Hs). Qed.
Print Assumptions C21_parse_iff.

(** With a two-digit component the round trip fails: the first digit is taken, the dot is then missing, or,
    for the minor version, the rest is dropped silently. *)
Theorem C21_two_digits_refuted :
  parse_version (show_version (mkVersion 10 1)) = Err ParseError
  /\ parse_version (show_version (mkVersion 1 10)) = Ok (mkVersion 1 1).
Proof. now vm_compute. Qed.
Print Assumptions C21_two_digits_refuted.
Example C21_case : parse_version (bs "HTTP/1.1garbage") = Ok v11 /\ parse_version (bs "http/1.1") = Err ParseError
  /\ parse_version (bs "HTTP/+.1") = Err (ParseIntError IInvalidDigit).
Proof. now vm_compute. Qed.

(** C22. A header set built by inserts. *)
Definition inserts (l : list (bytes * bytes)) (m : headers) : headers :=
  fold_left (fun m kv => headers_insert (fst kv) (snd kv) m) l m.
(** Header sets the public interface can produce: read from a message ([headers_from]), collected from
    pairs, or obtained from one of these (or the empty set) by inserting. *)
Inductive reachable : headers -> Prop :=
| reach_new : reachable headers_new
| reach_from l : reachable (headers_from l)
| reach_collect l : reachable (headers_collect l)
| reach_insert k v m : reachable m -> reachable (headers_insert k v m).

Lemma reachable_sorted m : reachable m -> sorted m.
Proof.
  induction 1.
  - constructor.
  - apply headers_from_sorted.
  - apply (headers_from_sorted l).
  - now apply hm_insert_sorted.
Qed.

Theorem C22_insert :
  forall m k v k', reachable m ->
  (to_lowercase k' = to_lowercase k -> headers_get k' (headers_insert k v m) = Some v)
  /\ (to_lowercase k' <> to_lowercase k -> headers_get k' (headers_insert k v m) = headers_get k' m).
Proof.
  intros m k v k' Hm. apply reachable_sorted in Hm. unfold headers_get, headers_insert.
  rewrite hm_get_insert by auto. split; intros H.
  - rewrite H. now rewrite beqb_refl.
  - apply beqb_false in H. now rewrite H.
Qed.
Print Assumptions C22_insert.

Theorem C22_latest_wins :
  forall l k,
  (forall before k' v after, l = before ++ (k', v) :: after -> to_lowercase k' = to_lowercase k ->
     (forall x, In x after -> to_lowercase (fst x) <> to_lowercase k) ->
     headers_get k (inserts l headers_new) = Some v)
  /\ ((forall x, In x l -> to_lowercase (fst x) <> to_lowercase k) ->
      headers_get k (inserts l headers_new) = None).
Proof.
  intros l k.
  assert (Hgen : forall l m, reachable m -> reachable (inserts l m)
    /\ ((forall x, In x l -> to_lowercase (fst x) <> to_lowercase k) -> headers_get k (inserts l m) = headers_get k m)).
  { clear l. induction l as [|[k0 v0] l IH]; intros m Hm; [now split|]. unfold inserts in *. cbn [fold_left fst snd].
    destruct (IH (headers_insert k0 v0 m)) as [H1 H2]; [now constructor|]. split; auto. intros Hx.
    rewrite H2 by (intros; apply Hx; now right). apply C22_insert; auto. intros H. symmetry in H. revert H. apply (Hx (k0, v0)). now left. }
  split.
  - intros before k' v after -> Hk Ha. unfold inserts. rewrite fold_left_app. cbn [fold_left fst snd].
    destruct (Hgen before headers_new ltac:(constructor)) as [Hr _]. fold (inserts before headers_new).
    destruct (Hgen after (headers_insert k' v (inserts before headers_new))) as [_ H]; [now constructor|].
    unfold inserts in H |- *. rewrite H; auto. apply C22_insert; auto.
  - intros H. destruct (Hgen l headers_new ltac:(constructor)) as [_ H1]. rewrite H1; auto.
Qed.
Print Assumptions C22_latest_wins.
Example C22_case :
  headers_get (bs "HOST") (inserts [(bs "Host", bs "a"); (bs "X", bs "b"); (bs "hOst", bs "c")] headers_new) = Some (bs "c")
  /\ headers_get (bs "Y") (inserts [(bs "Host", bs "a")] headers_new) = None
  /\ headers_get (encode_char 8490) (inserts [(bs "K", bs "kelvin")] headers_new) = Some (bs "kelvin").
Proof. now vm_compute. Qed.

(** C23. Iteration and serialization follow the entries of the map. *)
Theorem C23_sorted_unique :
  forall m, reachable m ->
  forall a k1 v1 b k2 v2 c, m = a ++ (k1, v1) :: b ++ (k2, v2) :: c -> bcompare k1 k2 = Lt.
Proof.
  intros m Hm a k1 v1 b k2 v2 c ->. apply reachable_sorted in Hm. induction a as [|[k v] a IH].
  - inversion Hm; subst. apply H1 with (v' := v2). apply in_or_app. right. now left.
  - inversion Hm; subst. auto.
Qed.
Print Assumptions C23_sorted_unique.

(** [bcompare] is the lexicographic order of the byte values. *)
Theorem C23_order_is_lexicographic :
  forall a b, bcompare a b = Lt <->
  exists p, (exists x t, a = p /\ b = p ++ x :: t)
    \/ (exists x y t u, a = p ++ x :: t /\ b = p ++ y :: u /\ (bval x < bval y)%N).
Proof.
  induction a as [|x a IH]; intros [|y b]; cbn [bcompare].
  - split; [easy|]. intros (p & [(x & t & _ & H)|(x & y & t & u & H & _)]); destruct p; easy.
  - split; auto. intros _. exists []. left. exists y, b. auto.
  - split; [easy|]. intros (p & [(z & t & _ & H)|(z & y & t & u & _ & H & _)]); destruct p; easy.
  - destruct (bval x ?= bval y)%N eqn:E.
    + apply N.compare_eq in E. apply bval_inj in E. subst. rewrite IH. split.
      * intros (p & [(z & t & <- & ->)|(z & w & t & u & -> & -> & H)]).
        -- exists (y :: a). left. exists z, t; auto.
        -- exists (y :: p). right. exists z, w, t, u. auto.
      * intros (p & [(z & t & <- & H)|(z & w & t & u & H1 & H2 & H)]).
        -- injection H as H. exists a. left. exists z, t; auto.
        -- destruct p as [|q p]; [injection H1 as <- _; injection H2 as <- _; lia|].
           injection H1 as _ H1. injection H2 as _ H2. exists p. right. exists z, w, t, u. auto.
    + apply N.compare_lt_iff in E. split; auto. intros _. exists []. right. exists x, y, a, b. auto.
    + apply N.compare_gt_iff in E. split; [easy|]. intros (p & [(z & t & <- & H)|(z & w & t & u & H1 & H2 & H)]).
      * injection H as <- _. lia.
      * destruct p as [|q p]; [injection H1 as <- _; injection H2 as <- _; lia|].
        injection H1 as -> _. injection H2 as -> _. lia.
Qed.
Print Assumptions C23_order_is_lexicographic.

(** Equal lookups, equal wire form. [hm_get] is the map's own lookup by exact key. *)
Theorem C23_extensional :
  forall m1 m2, reachable m1 -> reachable m2 -> (forall k, hm_get k m1 = hm_get k m2) ->
  m1 = m2 /\ concat (headers_pieces m1) = concat (headers_pieces m2).
Proof.
  intros m1 m2 H1 H2 H. assert (m1 = m2) as -> by (apply sorted_ext; auto using reachable_sorted). auto.
Qed.
Print Assumptions C23_extensional.

(** For sets built with [insert] alone (or read from a message) the public [get] tells them apart; for collected ones
    it does not (C26). *)
Theorem C23_same_gets :
  forall l1 l2, (forall k, headers_get k (inserts l1 headers_new) = headers_get k (inserts l2 headers_new)) ->
  inserts l1 headers_new = inserts l2 headers_new.
Proof.
  assert (K : forall l m k v, (forall k v, hm_get k m = Some v -> exists k0, k = to_lowercase k0) -> sorted m ->
    hm_get k (inserts l m) = Some v -> exists k0, k = to_lowercase k0).
  { induction l as [|[k1 v1] l IH]; intros m k v Hm Hs E; [eauto|]. cbn [inserts fold_left fst snd] in E.
    change (fold_left _ l ?x) with (inserts l x) in E. eapply IH; [|apply hm_insert_sorted|]; eauto.
    intros k2 v2. unfold headers_insert. rewrite hm_get_insert by auto. destruct (beqb k2 (to_lowercase k1)) eqn:Eb.
    - intros _. apply beqb_true in Eb. eauto.
    - apply Hm. }
  assert (R : forall l m, reachable m -> reachable (inserts l m)).
  { induction l as [|[k v] l IH]; intros m Hm; auto. cbn [inserts fold_left fst snd]. apply IH. now constructor. }
  intros l1 l2 H. apply sorted_ext; [apply reachable_sorted, R, reach_new| apply reachable_sorted, R, reach_new|].
  intros k. pose proof (reachable_sorted _ reach_new) as Hs.
  destruct (hm_get k (inserts l1 headers_new)) as [v|] eqn:E1.
  - destruct (K l1 headers_new k v) as [k0 ->]; auto; [easy|]. specialize (H k0). unfold headers_get in H. congruence.
  - destruct (hm_get k (inserts l2 headers_new)) as [v|] eqn:E2; auto.
    destruct (K l2 headers_new k v) as [k0 ->]; auto; [easy|]. specialize (H k0). unfold headers_get in H. congruence.
Qed.
Print Assumptions C23_same_gets.

(** In particular the order of inserts under different keys does not matter. *)
Theorem C23_insert_order :
  forall m k1 v1 k2 v2, reachable m -> to_lowercase k1 <> to_lowercase k2 ->
  headers_insert k1 v1 (headers_insert k2 v2 m) = headers_insert k2 v2 (headers_insert k1 v1 m).
Proof.
  intros m k1 v1 k2 v2 Hm Hne. apply reachable_sorted in Hm. unfold headers_insert.
  apply sorted_ext; auto using hm_insert_sorted. intros k. rewrite !hm_get_insert by auto using hm_insert_sorted.
  destruct (beqb k (to_lowercase k1)) eqn:E1, (beqb k (to_lowercase k2)) eqn:E2; auto.
  apply beqb_true in E1, E2. congruence.
Qed.
Print Assumptions C23_insert_order.
Example C23_case :
  concat (headers_pieces (inserts [(bs "b", bs "1"); (bs "A", bs "2"); (bs "ab", bs "3"); (bs "B", bs "4")] headers_new))
  = bs "a: 2" ++ CRLF ++ bs "ab: 3" ++ CRLF ++ bs "b: 4" ++ CRLF.
Proof. now vm_compute. Qed.

(** C26. *)
Theorem C26_collect_keeps_keys :
  forall l k v, hm_get k (headers_collect l) = Some v <->
  exists before after, l = before ++ (k, v) :: after /\ forall x, In x after -> fst x <> k.
Proof.
  intros l k v. change (headers_collect l) with (headers_from l). rewrite headers_from_get. split.
  - induction l as [|[k0 v0] l IH]; cbn [last_value]; [easy|].
    destruct (last_value k l) as [w|] eqn:E.
    + intros [= ->]. destruct (IH eq_refl) as (a & b & -> & H). exists ((k0, v0) :: a), b. auto.
    + destruct (beqb k k0) eqn:Eb; [|easy]. apply beqb_true in Eb. intros [= ->]. subst. exists [], l. split; auto.
      intros [k1 v1] Hin Hk. cbn in Hk. subst. clear IH. induction l as [|[k2 v2] l IH]; [easy|].
      cbn [last_value] in E. destruct (last_value k0 l) eqn:E2; [easy|]. destruct (beqb k0 k2) eqn:E3; [easy|].
      destruct Hin as [[= -> ->]|Hin]; [now rewrite beqb_refl in E3|auto].
  - intros (a & b & -> & H). induction a as [|[k1 v1] a IH]; cbn [app last_value].
    + rewrite last_value_none; [now rewrite beqb_refl|]. intros w Hin. now apply H in Hin.
    + now rewrite IH.
Qed.
Print Assumptions C26_collect_keeps_keys.

(** A collected key that is not its own lower case is invisible to [get], under every spelling; one that
    is lower case is found under every spelling. *)
Theorem C26_get_on_collected :
  forall l key v, headers_get key (headers_collect l) = Some v <->
  exists before after, l = before ++ (to_lowercase key, v) :: after /\ forall x, In x after -> fst x <> to_lowercase key.
Proof. intros. apply C26_collect_keeps_keys. Qed.
Print Assumptions C26_get_on_collected.

Theorem C26_upper_case_lost_refuted :
  forall k v, to_lowercase k <> k ->
  hm_get k (headers_collect [(k, v)]) = Some v
  /\ forall key, headers_get key (headers_collect [(k, v)]) = None.
Proof.
  intros k v Hk. split.
  - cbn. now rewrite beqb_refl.
  - intros key. unfold headers_get. cbn. destruct (beqb (to_lowercase key) k) eqn:E; auto.
    apply beqb_true in E. subst. now rewrite to_lowercase_idem in Hk.
Qed.
Print Assumptions C26_upper_case_lost_refuted.
Example C26_case : headers_get (bs "Host") (headers_collect [(bs "Host", bs "h")]) = None
  /\ headers_get (bs "Host") (headers_collect [(bs "host", bs "h")]) = Some (bs "h").
Proof. now vm_compute. Qed.
