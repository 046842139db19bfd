(** Lemmas on versions, statuses, methods and header lines. *)
From Verif Require Import Base Utf8 Case Num Parser Types Transport Lemmas NumLemmas Utf8Lemmas ParserLemmas CaseLemmas.
Local Open Scope N_scope.

Lemma valid_drop a b : utf8_valid a = true -> utf8_valid (a ++ b) = true -> utf8_valid b = true.
Proof. intros. eapply valid_cancel; eauto. Qed.

(** ** Versions *)
Definition dec_digit (b : byte) : Prop := 48 <= bval b <= 57.
Definition dec_value (b : byte) : N := bval b - 48.

Lemma parse_u32_digit b : dec_digit b -> parse_u32 [b] = Ok (dec_value b).
Proof. unfold dec_digit. destruct b; intros [H1 H2]; try (exfalso; revert H1; vm_compute; congruence);
  try (exfalso; revert H2; vm_compute; congruence); reflexivity. Qed.

Lemma parse_u32_nondigit b : ~ dec_digit b -> exists k, parse_u32 [b] = Err (ParseIntError k).
Proof. unfold dec_digit. destruct b; intros H; try (exfalso; apply H; split; vm_compute; congruence);
  eexists; reflexivity. Qed.

Lemma utf8_bs_ascii s : ascii s = true -> is_utf8 s.
Proof. intros. apply is_utf8_valid. now apply ascii_valid. Qed.

Lemma http_utf8 : is_utf8 (bs "HTTP/").
Proof. now apply utf8_bs_ascii. Qed.
Lemma dot_utf8 : is_utf8 (bs ".").
Proof. now apply utf8_bs_ascii. Qed.

Lemma parse_version_ok d1 d2 rest : dec_digit d1 -> dec_digit d2 -> is_utf8 rest ->
  parse_version (bs "HTTP/" ++ d1 :: bs "." ++ d2 :: rest) = Ok (mkVersion (dec_value d1) (dec_value d2)).
Proof.
  intros H1 H2 Hr. unfold parse_version.
  assert (Hv : is_utf8 (bs "HTTP/" ++ d1 :: bs "." ++ d2 :: rest)).
  { apply is_utf8_valid. apply is_utf8_valid in Hr. unfold dec_digit in *. apply valid_app; auto.
    rewrite valid_ascii_cons by lia. apply valid_app; auto. rewrite valid_ascii_cons; auto. lia. }
  destruct (expect_ok _ _ _ _ (reading_new _ Hv) http_utf8) as (p1 & -> & R1); [easy|]. cbn [sbind].
  destruct (parse_digit_ascii _ _ _ _ R1) as (p2 & -> & R2); [unfold dec_digit in *; lia|].
  rewrite parse_u32_digit by auto. cbn [sbind].
  destruct (expect_ok _ _ _ _ R2 dot_utf8) as (p3 & -> & R3); [easy|]. cbn [sbind].
  destruct (parse_digit_ascii _ _ _ _ R3) as (p4 & -> & R4); [unfold dec_digit in *; lia|].
  rewrite parse_u32_digit by auto. reflexivity.
Qed.

(** How a text can fail to be a version, and with what outcome. *)
Definition ch (n : N) (c : bytes) : Prop := scalar n = true /\ 128 <= n /\ c = encode_char n.
Definition version_panics (s : bytes) : Prop :=
  exists a n c b, s = a ++ c ++ b /\ ch n c
    /\ ((length a < 5 /\ 5 < length a + length c)%nat
        \/ a = bs "HTTP/"
        \/ (exists d, dec_digit d /\ a = bs "HTTP/" ++ [d])
        \/ (exists d, dec_digit d /\ a = bs "HTTP/" ++ [d] ++ bs ".")).

Lemma ch_shape n c : ch n c -> (exists b r, c = b :: r /\ 128 <= bval b) /\ is_utf8 c /\ (2 <= length c)%nat.
Proof.
  intros (H1 & H2 & ->). pose proof (encode_char_shape n H1) as (b & r & E & _ & _ & Hi & _). repeat split.
  - exists b, r. split; auto. destruct (N.lt_ge_cases (bval b) 128); auto. lia.
  - exists [n]. split; auto. simpl. now rewrite app_nil_r.
  - clear -H2. unfold encode_char. rewrite (proj2 (N.ltb_ge _ _) H2). repeat destruct (_ <? _); simpl; lia.
Qed.

(** A text cut inside a character: where. *)
Lemma straddle k s : is_utf8 s -> utf8_valid (firstn k s) = false ->
  exists a n c b, s = a ++ c ++ b /\ ch n c /\ (length a < k /\ k < length a + length c)%nat.
Proof.
  intros (cs & Hc & ->). revert k. induction Hc as [|n cs Hn Hc IH]; intros k Hk.
  - now rewrite firstn_nil in Hk.
  - cbn [utf8_encode flat_map] in *. fold (utf8_encode cs) in *.
    destruct (Nat.le_gt_cases (length (encode_char n)) k) as [Hle|Hgt].
    + destruct (IH (k - length (encode_char n))%nat) as (a & m & c & b & E & Hch & Hlt).
      * rewrite firstn_app in Hk. rewrite firstn_all2 in Hk by auto.
        destruct (utf8_valid (firstn _ (utf8_encode cs))) eqn:E; auto.
        rewrite valid_app in Hk; auto. apply utf8_valid_spec. exists [n]. split; auto. simpl. now rewrite app_nil_r.
      * exists (encode_char n ++ a), m, c, b. rewrite E, <- app_assoc. split; auto. split; auto.
        rewrite app_length. lia.
    + destruct k as [|k]; [easy|]. exists [], n, (encode_char n), (utf8_encode cs). split; auto. split.
      * split; auto. split; auto. destruct (N.lt_ge_cases n 128) as [Hlt|]; auto.
        unfold encode_char in Hgt. rewrite (proj2 (N.ltb_lt _ _) Hlt) in Hgt. simpl in Hgt. lia.
      * simpl. lia.
Qed.

Lemma straddle_inv k s a n c b : is_utf8 s -> s = a ++ c ++ b -> ch n c -> is_utf8 a ->
  (length a < k /\ k < length a + length c)%nat -> utf8_valid (firstn k s) = false.
Proof.
  intros Hs -> Hch Ha Hk. destruct (utf8_valid (firstn k (a ++ c ++ b))) eqn:E; auto. exfalso.
  rewrite firstn_app, firstn_all2 in E by lia. rewrite firstn_app in E.
  replace (k - length a - length c)%nat with 0%nat in E by lia. rewrite firstn_O, app_nil_r in E.
  apply is_utf8_valid in Ha. apply (valid_drop _ _ Ha) in E. destruct Hch as (Hn & H128 & ->).
  destruct (valid_cons_cases _ E) as [H0|(m & t & Hm & Ht & _)].
  - apply (f_equal (@length _)) in H0. rewrite firstn_length in H0. simpl in H0. lia.
  - assert (Hlen : (length (encode_char m) <= k - length a)%nat).
    { apply (f_equal (@length _)) in Ht. rewrite firstn_length, app_length in Ht. lia. }
    assert (Hd : Some [n] = ocons m (utf8_decode (t ++ skipn (k - length a) (encode_char n)))).
    { rewrite <- decode_encode_char by auto. rewrite app_assoc, <- Ht, firstn_skipn.
      rewrite <- (app_nil_r (encode_char n)). now rewrite decode_encode_char. }
    destruct (utf8_decode _); [|easy]. injection Hd as -> _. lia.
Qed.

Definition version_text (s : bytes) : Prop :=
  exists d1 d2 rest, dec_digit d1 /\ dec_digit d2 /\ s = bs "HTTP/" ++ d1 :: bs "." ++ d2 :: rest.

(** [version_text], [version_panics] and the remaining texts give success, panic and error. *)
Lemma parse_version_cases s : is_utf8 s ->
  (version_text s /\ exists v, parse_version s = Ok v)
  \/ (version_panics s /\ parse_version s = Panic)
  \/ (exists e, parse_version s = Err e).
Proof.
  intros Hs. unfold parse_version. pose proof (reading_new _ Hs) as R0.
  destruct s as [|x0 s0] eqn:Es.
  { right. right. rewrite (expect_eof _ _ _ R0). cbn. eauto. }
  rewrite <- Es in *. assert (Hne : s <> []) by (subst; easy). clear x0 s0 Es.
  destruct (is_prefix (bs "HTTP/") s) eqn:Ep.
  2:{ rewrite (expect_other _ _ _ _ R0 Hne).
      2:{ intros Hp. apply is_prefix_true in Hp. congruence. }
      destruct (utf8_valid (firstn (length (bs "HTTP/")) s)) eqn:Ev; cbn [sbind fst]; eauto.
      right. left. split; auto. apply straddle in Ev as (a & n & c & b & E & Hch & Hl); auto.
      exists a, n, c, b. auto. }
  apply is_prefix_true in Ep as (r & ->).
  destruct (expect_ok _ _ _ _ R0 http_utf8) as (p1 & -> & R1); auto. cbn [sbind].
  destruct r as [|d1 r].
  { rewrite (parse_digit_eof _ _ R1). cbn. eauto. }
  pose proof R1 as (_ & _ & _ & Hr1). apply is_utf8_valid in Hr1.
  destruct (valid_or_not_ascii _ _ Hr1) as [Hd|(n & u & Hn & Hn2 & Eu & Hd)].
  2:{ right. left. split.
      - exists (bs "HTTP/"), n, (encode_char n), u. rewrite Eu. split; auto. split; [split; auto|auto].
      - rewrite (parse_digit_other _ _ _ _ R1); auto.
        destruct (N.lt_ge_cases (bval d1) 128) as [Hlt|]; auto. rewrite valid_ascii_cons in Hd; easy. }
  destruct (parse_digit_ascii _ _ _ _ R1 Hd) as (p2 & -> & R2).
  destruct (N.le_gt_cases 48 (bval d1)) as [Hd1|Hd1]; [destruct (N.le_gt_cases (bval d1) 57) as [Hd1'|Hd1']|].
  2,3: destruct (parse_u32_nondigit d1) as (k & ->); [unfold dec_digit; lia|]; cbn; eauto.
  rewrite parse_u32_digit by (split; auto). cbn [sbind]. clear Hr1.
  destruct r as [|x r].
  { rewrite (expect_eof _ _ _ R2). cbn. eauto. }
  destruct (Byte.byte_eq_dec x x2e) as [->|Hx].
  2:{ rewrite (expect_other _ _ _ _ R2); [|easy|].
      2:{ intros (t & Ht). injection Ht as ->. easy. }
      destruct (utf8_valid (firstn (length (bs ".")) (x :: r))) eqn:Ev; cbn [sbind fst]; eauto.
      right. left. split; auto. pose proof R2 as (_ & _ & _ & Hr2). apply is_utf8_valid in Hr2.
      destruct (valid_or_not_ascii _ _ Hr2) as [Hxa|(n & u & Hn & Hn2 & Eu & _)].
      - cbn in Ev. rewrite valid_ascii_cons in Ev by auto. easy.
      - exists (bs "HTTP/" ++ [d1]), n, (encode_char n), u. rewrite <- Eu, <- app_assoc. split; auto.
        split; [split; auto|]. right. right. left. exists d1. split; auto. split; auto. }
  change (x2e :: r) with (bs "." ++ r) in R2.
  destruct (expect_ok _ _ _ _ R2 dot_utf8) as (p3 & -> & R3); [easy|]. cbn [sbind].
  destruct r as [|d2 r].
  { rewrite (parse_digit_eof _ _ R3). cbn. eauto. }
  pose proof R3 as (_ & _ & _ & Hr1). apply is_utf8_valid in Hr1.
  destruct (valid_or_not_ascii _ _ Hr1) as [Hd2|(n & u & Hn & Hn2 & Eu & Hd2)].
  2:{ right. left. split.
      - exists (bs "HTTP/" ++ [d1] ++ bs "."), n, (encode_char n), u. rewrite <- Eu, <- !app_assoc. split; auto.
        split; [split; auto|]. do 3 right. exists d1. repeat split; auto.
      - rewrite (parse_digit_other _ _ _ _ R3); auto.
        destruct (N.lt_ge_cases (bval d2) 128) as [Hlt|]; auto. rewrite valid_ascii_cons in Hd2; easy. }
  destruct (parse_digit_ascii _ _ _ _ R3 Hd2) as (p4 & -> & R4).
  destruct (N.le_gt_cases 48 (bval d2)) as [Hv1|Hv1]; [destruct (N.le_gt_cases (bval d2) 57) as [Hv2|Hv2]|].
  2,3: destruct (parse_u32_nondigit d2) as (k & ->); [unfold dec_digit; lia|]; cbn; eauto.
  left. rewrite parse_u32_digit by (split; auto). cbn. split; eauto.
  exists d1, d2, r. repeat split; auto.
Qed.

Lemma version_text_ok s v : is_utf8 s -> parse_version s = Ok v <->
  exists d1 d2 rest, dec_digit d1 /\ dec_digit d2 /\ s = bs "HTTP/" ++ d1 :: bs "." ++ d2 :: rest
    /\ v = mkVersion (dec_value d1) (dec_value d2).
Proof.
  intros Hs. assert (Hok : forall d1 d2 rest, dec_digit d1 -> dec_digit d2 ->
    s = bs "HTTP/" ++ d1 :: bs "." ++ d2 :: rest -> parse_version s = Ok (mkVersion (dec_value d1) (dec_value d2))).
  { intros d1 d2 rest H1 H2 ->. apply parse_version_ok; auto. apply is_utf8_valid in Hs. apply is_utf8_valid.
    unfold dec_digit in *. apply valid_drop in Hs; [|reflexivity]. rewrite valid_ascii_cons in Hs by lia.
    apply valid_drop in Hs; [|reflexivity]. rewrite valid_ascii_cons in Hs by lia. auto. }
  split.
  - intros H. destruct (parse_version_cases s Hs) as [[(d1 & d2 & rest & H1 & H2 & E) _]|[[_ H3]|[e H3]]];
      [|congruence|congruence].
    exists d1, d2, rest. (split; [exact H1|split; [exact H2|split; [exact E|]]]). rewrite (Hok d1 d2 rest H1 H2 E) in H. congruence.
  - intros (d1 & d2 & rest & H1 & H2 & E & ->). eauto.
Qed.

Lemma ch_app_first n c b x t : ch n c -> c ++ b = x :: t -> 128 <= bval x.
Proof.
  intros Hch E. destruct (ch_shape _ _ Hch) as ((y & r & -> & Hy) & _). injection E as -> _. auto.
Qed.

Lemma parse_version_panics s : is_utf8 s -> parse_version s = Panic <-> version_panics s.
Proof.
  intros Hs. split.
  - intros H. destruct (parse_version_cases s Hs) as [[_ [v H3]]|[[H3 _]|[e H3]]]; auto; congruence.
  - intros (a & n & c & b & E & Hch & Hcase). unfold parse_version. pose proof (reading_new _ Hs) as R0.
    destruct (ch_shape _ _ Hch) as ((y & r & Ey & Hy) & Hcu & Hlen).
    assert (Hne : s <> []) by (rewrite E, Ey; destruct a; easy).
    destruct Hcase as [Hlt|Hcase].
    + assert (Ha : is_utf8 a).
      { rewrite E in Hs. destruct (split_before c a b Hcu Hs); auto. now subst. }
      pose proof (straddle_inv 5 s a n c b Hs E Hch Ha Hlt) as Hv.
      rewrite (expect_other _ _ _ _ R0 Hne).
      * change (length (bs "HTTP/")) with 5%nat. now rewrite Hv.
      * intros (t & Ht). rewrite Ht in Hv. change (firstn 5 (bs "HTTP/" ++ t)) with (bs "HTTP/") in Hv. easy.
    + clear Hne Hch. destruct Hcase as [Ha|[(d & Hd & Ha)|(d & Hd & Ha)]]; subst a c s;
        rewrite <- ?app_assoc in R0 |- *;
        (destruct (expect_ok _ _ _ _ R0 http_utf8) as (p1 & -> & R1); [easy|]); cbn [sbind].
      * cbn [app] in R1. now rewrite (parse_digit_other _ _ _ _ R1 Hy).
      * destruct (parse_digit_ascii _ _ _ _ R1) as (p2 & -> & R2); [unfold dec_digit in *; lia|].
        rewrite parse_u32_digit by auto. cbn [sbind].
        rewrite (expect_other _ _ _ _ R2); [|easy|].
        -- cbn [length bs firstn app]. replace (utf8_valid (firstn _ _)) with false; auto. symmetry.
           cbn. unfold utf8_valid. cbn [utf8_decode]. rewrite (proj2 (N.ltb_ge _ _) Hy). reflexivity.
        -- intros (t & Ht). injection Ht as -> _. revert Hy. vm_compute. congruence.
      * destruct (parse_digit_ascii _ _ _ _ R1) as (p2 & -> & R2); [unfold dec_digit in *; lia|].
        rewrite parse_u32_digit by auto. cbn [sbind].
        destruct (expect_ok _ _ (bs ".") _ R2 dot_utf8) as (p3 & -> & R3); [easy|]. cbn [sbind].
        cbn [app] in R3. now rewrite (parse_digit_other _ _ _ _ R3 Hy).
Qed.

(** ** Statuses *)
Lemma no_blank_digits s n : numeral 10 s n -> Forall (fun b => ~ blank b) s.
Proof.
  intros [_ (ds & H & _)]. induction H as [|c d s ds [_ Hd] H IH]; constructor; auto.
  intros [->| ->]; [change (bval SP) with 32 in Hd|change (bval TAB) with 9 in Hd]; lia.
Qed.

Lemma token_whole s : s <> [] -> Forall (fun b => ~ blank b) s -> is_utf8 s ->
  exists p, parse_token (parser_new s) = (Ok s, p) /\ reading p s [].
Proof.
  intros Hne Hb Hu. destruct (parse_token_spec _ _ _ s [] [] (reading_new _ Hu) Hne) as (p & E & R).
  - repeat split; auto. + now rewrite app_nil_r. + easy.
  - exists p. simpl in R. rewrite app_nil_r in R. auto.
Qed.

Lemma parse_status_number s n : numeral 10 s n -> n <= u32_max -> parse_status s = Ok (from_code n).
Proof.
  intros H Hn. unfold parse_status, parse_number.
  destruct (token_whole s) as (p & E & _).
  - now destruct H.
  - eapply no_blank_digits; eauto.
  - apply utf8_bs_ascii. eapply numeral_ascii; eauto. lia.
  - rewrite E. cbn [sbind fst]. unfold parse_u32.
    replace (from_str_radix 10 u32_max s) with (@Ok N n); auto. symmetry.
    apply from_str_radix_spec; try lia. auto.
Qed.

(** ** Header lines *)
Lemma colon_utf8 : is_utf8 (bs ":").
Proof. now apply utf8_bs_ascii. Qed.
Lemma colon_sp_utf8 : is_utf8 (bs ": ").
Proof. now apply utf8_bs_ascii. Qed.

Lemma header_split key rest : is_utf8 (key ++ COLON :: rest) -> is_utf8 key /\ is_utf8 rest.
Proof. rewrite !is_utf8_valid. intros H. now apply valid_split_ascii in H. Qed.

Lemma header_deserialize_ok key value : ~ In COLON key -> is_utf8 (key ++ bs ": " ++ value) ->
  header_deserialize (key ++ bs ": " ++ value) = Ok (to_lowercase key, value).
Proof.
  intros Hk Hu. unfold header_deserialize.
  destruct (parse_until_ok _ _ (bs ":") _ key (SP :: value) (reading_new _ Hu)) as (p1 & -> & R1).
  - now destruct key.
  - apply colon_utf8.
  - apply (first_byte COLON). auto.
  - cbn [sbind]. change (bs ":" ++ SP :: value) with (bs ": " ++ value) in R1.
    destruct (expect_ok _ _ _ _ R1 colon_sp_utf8) as (p2 & -> & R2); [easy|]. cbn [sbind].
    destruct (parse_remaining_spec _ _ _ R2) as (p3 & -> & _). cbn [sbind fst]. unfold header_new.
    now rewrite to_lowercase_idem.
Qed.

Lemma header_deserialize_cases line : is_utf8 line ->
  (exists key value, ~ In COLON key /\ line = key ++ bs ": " ++ value
     /\ header_deserialize line = Ok (to_lowercase key, value))
  \/ (exists key n c rest, ~ In COLON key /\ ch n c /\ line = key ++ COLON :: c ++ rest
     /\ header_deserialize line = Panic)
  \/ (exists e, header_deserialize line = Err e
      /\ (~ In COLON line \/ exists key rest, ~ In COLON key /\ line = key ++ COLON :: rest
           /\ (rest = [] \/ exists b t, rest = b :: t /\ b <> SP /\ bval b < 128))).
Proof.
  intros Hu. destruct (in_dec Byte.byte_eq_dec COLON line) as [Hin|Hnin].
  2:{ right. right. unfold header_deserialize. destruct line as [|b t] eqn:El.
      - rewrite (parse_until_eof _ _ _ (reading_new _ Hu)). cbn. eauto.
      - rewrite (parse_until_none _ _ _ _ (reading_new _ Hu)); [cbn; eauto|easy|].
        intros x y Hxy. apply Hnin. rewrite Hxy. apply in_or_app. right. now left. }
  apply in_split_first in Hin as (key & rest & -> & Hk).
  destruct (header_split _ _ Hu) as [Huk Hur].
  destruct rest as [|b t].
  { right. right. unfold header_deserialize.
    destruct (parse_until_ok _ _ (bs ":") _ key [] (reading_new _ Hu)) as (p1 & -> & R1);
      [now destruct key|apply colon_utf8|now apply (first_byte COLON)|].
    cbn [sbind]. rewrite (expect_other _ _ _ _ R1); [|easy|now intros (r & ?)].
    cbn. eexists. split; [reflexivity|]. right. eauto 10. }
  destruct (Byte.byte_eq_dec b SP) as [->|Hb].
  { left. exists key, t. split; auto. split; [reflexivity|].
    change (key ++ COLON :: SP :: t) with (key ++ bs ": " ++ t). apply header_deserialize_ok; auto. }
  assert (Hexp : header_deserialize (key ++ COLON :: b :: t) =
    if utf8_valid [COLON; b] then Err ParseError else Panic).
  { unfold header_deserialize.
    destruct (parse_until_ok _ _ (bs ":") _ key (b :: t) (reading_new _ Hu)) as (p1 & -> & R1);
      [now destruct key|apply colon_utf8|now apply (first_byte COLON)|].
    cbn [sbind]. rewrite (expect_other _ _ _ _ R1); [|easy|].
    - change (firstn (length (bs ": ")) (bs ":" ++ b :: t)) with [COLON; b].
      now destruct (utf8_valid [COLON; b]).
    - intros (r & Hr). injection Hr as -> _. easy. }
  rewrite valid_ascii_cons in Hexp by reflexivity.
  apply is_utf8_valid in Hur. destruct (valid_or_not_ascii _ _ Hur) as [Ha|(n & u & Hn & Hn2 & Eu & Hv)].
  - right. right. rewrite Hexp, valid_ascii_cons by auto. cbn. eexists. split; [reflexivity|]. right.
    exists key, (b :: t). repeat split; auto. right. eauto.
  - right. left. exists key, n, (encode_char n), u. rewrite Eu in *. repeat split; auto.
    rewrite Hexp, Hv. reflexivity.
Qed.

(** The first colon is where it is. *)
Lemma first_colon_unique (k1 k2 r1 r2 : bytes) : ~ In COLON k1 -> ~ In COLON k2 ->
  k1 ++ COLON :: r1 = k2 ++ COLON :: r2 -> k1 = k2 /\ r1 = r2.
Proof.
  revert k2. induction k1 as [|a k1 IH]; intros [|b k2] H1 H2 E; cbn [app] in E.
  - injection E as ->. auto.
  - injection E as <- _. exfalso. apply H2. now left.
  - injection E as -> _. exfalso. apply H1. now left.
  - injection E as -> E. destruct (IH k2) as [-> ->]; auto; intros ?; [apply H1|apply H2]; now right.
Qed.

Lemma header_deserialize_inv line h : is_utf8 line -> header_deserialize line = Ok h ->
  exists key value, ~ In COLON key /\ line = key ++ bs ": " ++ value /\ h = (to_lowercase key, value).
Proof.
  intros Hu H. destruct (header_deserialize_cases line Hu) as [(k & v & H1 & H2 & H3)|[(k & n & c & r & _ & _ & _ & H3)|(e & H3 & _)]];
    [|congruence|congruence].
  exists k, v. rewrite H3 in H. injection H as <-. auto.
Qed.

Lemma header_deserialize_panics line : is_utf8 line -> header_deserialize line = Panic <->
  exists key n c rest, ~ In COLON key /\ ch n c /\ line = key ++ COLON :: c ++ rest.
Proof.
  intros Hu. split.
  - intros H. destruct (header_deserialize_cases line Hu) as [(k & v & _ & _ & H3)|[(k & n & c & r & H1 & H2 & H4 & H3)|(e & H3 & _)]];
    [congruence| |congruence]. eauto 10.
  - intros (key & n & c & rest & Hk & Hch & E).
    destruct (ch_shape _ _ Hch) as ((y & r & Ey & Hy) & _). rewrite Ey in E.
    destruct (header_deserialize_cases line Hu) as [(k & v & H1 & H2 & H3)|[(k & n' & c' & r' & H1 & H2 & H4 & H3)|(e & H3 & H4)]]; auto; exfalso.
    + rewrite E in H2. change (bs ": " ++ v) with (COLON :: SP :: v) in H2.
      apply first_colon_unique in H2 as [_ H2]; auto. injection H2 as -> _. revert Hy. vm_compute. congruence.
    + destruct H4 as [H4|(k & r' & H1 & H2 & H4)].
      * apply H4. rewrite E. apply in_or_app. right. now left.
      * rewrite E in H2. apply first_colon_unique in H2 as [_ H2]; auto. destruct H4 as [->|(b & t & -> & _ & Hb)]; [easy|].
        injection H2 as -> _. lia.
Qed.

(** ** Methods *)
Lemma parse_method_total s : (exists m, parse_method s = Ok m) \/ parse_method s = Err ParseError.
Proof. unfold parse_method. repeat destruct (beqb _ _); eauto. Qed.

Lemma parse_method_ok s m : parse_method s = Ok m <-> to_uppercase s = show_method m.
Proof.
  unfold parse_method. split.
  - cbv zeta. repeat match goal with
      |- context [if beqb ?a ?b then _ else _] => let E := fresh in destruct (beqb a b) eqn:E;
        [apply beqb_true in E; intros [= <-]; exact E|clear E] end. easy.
  - intros ->. destruct m; reflexivity.
Qed.
