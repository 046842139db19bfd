(** Lemmas on message heads: line sources, header blocks, request and response heads. *)
From Verif Require Import Base Utf8 Case Num Io Parser Types Message Transport Lemmas ReadLemmas NumLemmas
  Utf8Lemmas ParserLemmas CaseLemmas TypesLemmas.

(** ** Simulation of line sources *)
Section Sim.
  Context {L1 L2 : Type} (nl1 : L1 -> res (option bytes) * L1) (nl2 : L2 -> res (option bytes) * L2)
    (R : L1 -> L2 -> Prop)
    (HR : forall a b, R a b -> fst (nl1 a) = fst (nl2 b) /\ R (snd (nl1 a)) (snd (nl2 b))).

  Lemma nl_sim a b : R a b -> exists r a' b', nl1 a = (r, a') /\ nl2 b = (r, b') /\ R a' b'.
  Proof.
    intros H. destruct (HR a b H) as [H1 H2]. destruct (nl1 a) as [r a'], (nl2 b) as [r2 b']. cbn in *. subst. eauto 10.
  Qed.

  Lemma expect_next_sim a b : R a b ->
    exists r a' b', expect_next nl1 a = (r, a') /\ expect_next nl2 b = (r, b') /\ R a' b'.
  Proof.
    intros H. destruct (nl_sim a b H) as (r & a' & b' & E1 & E2 & H'). unfold expect_next. rewrite E1, E2.
    destruct r as [[l|]| | |]; eauto 10.
  Qed.

  Lemma cont_loop_sim fuel : forall line a b, R a b ->
    exists l pk a' b', cont_loop nl1 fuel line a = (l, pk, a') /\ cont_loop nl2 fuel line b = (l, pk, b') /\ R a' b'.
  Proof.
    induction fuel as [|f IH]; intros line a b H; cbn [cont_loop]; [eauto 10|].
    destruct (nl_sim a b H) as (r & a' & b' & E1 & E2 & H'). rewrite E1, E2.
    destruct r as [[l|]| | |]; eauto 10. destruct (starts_blank l); eauto 10.
  Qed.

  Lemma pk_next_sim pk a b : R a b ->
    exists r a' b', pk_next nl1 pk a = (r, a') /\ pk_next nl2 pk b = (r, b') /\ R a' b'.
  Proof. intros H. destruct pk; cbn; eauto 10. now apply nl_sim. Qed.

  Lemma headers_loop_sim fuel : forall acc pk a b, R a b ->
    exists r a' b', headers_loop nl1 fuel acc pk a = (r, a') /\ headers_loop nl2 fuel acc pk b = (r, b') /\ R a' b'.
  Proof.
    induction fuel as [|f IH]; intros acc pk a b H; cbn [headers_loop]; [eauto 10|].
    destruct (pk_next_sim pk a b H) as (r & a' & b' & E1 & E2 & H'). rewrite E1, E2.
    destruct r as [[l|]| | |]; eauto 10.
    destruct (cont_loop_sim (S f) l a' b' H') as (l' & pk' & a'' & b'' & E3 & E4 & H'').
    cbn [cont_loop] in E3, E4 |- *. rewrite E3, E4. destruct pk' as [[x|x| |]|]; eauto 10; destruct (header_deserialize l'); eauto 10.
  Qed.

  Lemma request_head_sim fuel a b : R a b ->
    exists r a' b', request_head nl1 fuel a = (r, a') /\ request_head nl2 fuel b = (r, b') /\ R a' b'.
  Proof.
    intros H. unfold request_head.
    destruct (expect_next_sim a b H) as (r & a' & b' & E1 & E2 & H'). rewrite E1, E2.
    destruct r as [l| | |]; cbn [sbind]; eauto 10.
    destruct (sbind _ _) as [[[[m u] v]| | |] p]; eauto 10.
    unfold headers_deserialize.
    destruct (headers_loop_sim fuel [] None a' b' H') as (r & a'' & b'' & E3 & E4 & H''). rewrite E3, E4.
    destruct r; cbn [sbind]; eauto 10.
  Qed.

  Lemma response_head_sim fuel a b : R a b ->
    exists r a' b', response_head nl1 fuel a = (r, a') /\ response_head nl2 fuel b = (r, b') /\ R a' b'.
  Proof.
    intros H. unfold response_head.
    destruct (expect_next_sim a b H) as (r & a' & b' & E1 & E2 & H'). rewrite E1, E2.
    destruct r as [l| | |]; cbn [sbind]; eauto 10.
    destruct (sbind _ _) as [[[v st]| | |] p]; eauto 10.
    unfold headers_deserialize.
    destruct (headers_loop_sim fuel [] None a' b' H') as (r & a'' & b'' & E3 & E4 & H''). rewrite E3, E4.
    destruct r; cbn [sbind]; eauto 10.
  Qed.
End Sim.

(** The canonical line source: a list of items. *)
Definition il (bld : build) : list item -> res (option bytes) * list item := items_line bld [].

Lemma crlf_il_sim {St} bld (rd : reader St) (R : St -> list item -> Prop) fuel : reader_pos rd R ->
  forall s xs, (R s xs /\ length xs < fuel) ->
  fst (crlf_next bld rd fuel s) = fst (il bld xs)
  /\ (R (snd (crlf_next bld rd fuel s)) (snd (il bld xs)) /\ length (snd (il bld xs)) < fuel).
Proof.
  intros HR s xs [Hs Hf]. destruct (crlf_next_items bld rd R xs s fuel HR Hs Hf) as (s' & E & H').
  rewrite E. unfold il. cbn [fst snd]. pose proof (items_line_length bld [] xs). repeat split; auto. lia.
Qed.

(** ** Fuel does not matter once it exceeds the number of items *)
Lemma il_lt bld xs l ys : il bld xs = (Ok l, ys) -> length ys < length xs.
Proof. apply items_line_lt. Qed.

Lemma il_not_fuel bld xs : fst (il bld xs) <> Fuel /\ fst (il bld xs) <> Panic.
Proof.
  unfold il. generalize (@nil byte) as acc. induction xs as [|[b|e] xs IH]; intros acc; simpl; try easy.
  - destruct (ends_crlf (acc ++ [b])); [|apply IH]. cbn [fst]. unfold line_result.
    destruct (firstn _ _); [easy|]. now destruct (utf8_valid _).
  - destruct (is_retry bld e); [apply IH|easy].
Qed.

(** What a peeked item can be. *)
Definition pk_ok (pk : peeked) : Prop := pk <> Some Fuel /\ pk <> Some Panic.
Lemma pk_guard {A} (pk : peeked) (a b c : A) : pk_ok pk -> match pk with Some Panic => a | Some Fuel => b | _ => c end = c.
Proof. intros [H1 H2]. now destruct pk as [[x|x| |]|]. Qed.

Lemma cont_loop_fuel bld f1 : forall f2 line xs, length xs < f1 -> length xs < f2 ->
  cont_loop (il bld) f1 line xs = cont_loop (il bld) f2 line xs
  /\ pk_ok (snd (fst (cont_loop (il bld) f1 line xs)))
  /\ length (snd (cont_loop (il bld) f1 line xs)) <= length xs
  /\ (forall l, snd (fst (cont_loop (il bld) f1 line xs)) = Some (Ok (Some l)) ->
        length (snd (cont_loop (il bld) f1 line xs)) < length xs).
Proof.
  induction f1 as [|f1 IH]; intros f2 line xs H1 H2; [lia|]. destruct f2 as [|f2]; [lia|].
  cbn [cont_loop]. pose proof (il_not_fuel bld xs) as Hnf. pose proof (items_line_length bld [] xs) as Hle.
  fold (il bld) in Hle. destruct (il bld xs) as [r ys] eqn:E. cbn [fst snd] in *.
  destruct r as [[l|]| | |]; cbn [fst snd]; try easy;
    try (repeat split; auto; unfold pk_ok; easy).
  pose proof (il_lt _ _ _ _ E) as Hlt. destruct (starts_blank l).
  - destruct (IH f2 (line ++ l) ys ltac:(lia) ltac:(lia)) as (Hq & Hpk & Hl & Hl2).
    split; [exact Hq|]. split; [exact Hpk|]. split; [lia|]. intros l0 Hl0. specialize (Hl2 l0 Hl0). lia.
  - cbn [fst snd]. repeat split; auto; try easy.
Qed.

Definition pk_size (pk : peeked) : nat := match pk with Some (Ok (Some _)) => 1 | _ => 0 end.

Lemma headers_loop_fuel bld f1 : forall f2 acc pk xs, length xs + pk_size pk < f1 -> length xs + pk_size pk < f2 ->
  pk_ok pk ->
  headers_loop (il bld) f1 acc pk xs = headers_loop (il bld) f2 acc pk xs
  /\ fst (headers_loop (il bld) f1 acc pk xs) <> Fuel.
Proof.
  induction f1 as [|f1 IH]; intros f2 acc pk xs H1 H2 Hpk; [lia|]. destruct f2 as [|f2]; [lia|].
  unfold headers_loop; fold (headers_loop (il bld)).
  assert (Hn : exists r ys, pk_next (il bld) pk xs = (r, ys) /\ r <> Fuel
    /\ length ys <= length xs /\ (forall l, r = Ok (Some l) -> length ys < length xs + pk_size pk)).
  { destruct pk as [r|]; cbn [pk_next].
    - exists r, xs. split; auto. split; [intros ->; now apply (proj1 Hpk)|]. split; auto. intros l ->. cbn. lia.
    - pose proof (il_not_fuel bld xs) as [Hnf _]. pose proof (items_line_length bld [] xs) as Hle.
      destruct (il bld xs) as [r ys] eqn:E. exists r, ys. unfold il in E. rewrite E in Hle. repeat split; auto.
      intros l ->. cbn. apply il_lt in E. lia. }
  destruct Hn as (r & ys & -> & Hr & Hle & Hlt). destruct r as [[l|]| | |]; try (split; easy).
  specialize (Hlt l eq_refl).
  destruct (cont_loop_fuel bld (S f1) (S f2) l ys ltac:(lia) ltac:(lia)) as (<- & Hpk' & Hl & Hl2).
  destruct (cont_loop (il bld) (S f1) l ys) as [[line' pk'] zs] eqn:Ec. cbn [fst snd] in *. rewrite !(pk_guard _ _ _ _ Hpk').
  destruct (header_deserialize line') as [h| | |] eqn:Eh; try (split; easy).
  - apply IH; auto; unfold pk_size; destruct pk' as [[[l'|]| | |]|]; try lia; specialize (Hl2 l' eq_refl); lia.
  - exfalso. clear -Eh. unfold header_deserialize in Eh.
    destruct (parse_until _ _) as [[k| | |] p1] eqn:E1; cbn [sbind fst] in Eh; try easy.
    + destruct (expect p1 _) as [[[]| | |] p2] eqn:E2; cbn [sbind fst] in Eh; try easy.
      * destruct (parse_remaining p2) as [[v| | |] p3] eqn:E3; cbn [sbind fst] in Eh; try easy.
        unfold parse_remaining, remaining, str_from, str_slice in E3. destruct (_ <? _); [easy|]. now destruct (_ && _) in E3.
      * unfold expect, str_slice in E2. cbv zeta in E2. destruct (_ <=? _); [easy|].
        destruct (_ && _) in E2; [|easy]. now destruct (beqb _ _).
    + unfold parse_until, remaining, str_from, str_slice in E1. destruct (_ <=? _) in E1; [easy|].
      destruct (_ && _) in E1; [|easy]. destruct (find_sub _ _); [|easy]. inversion E1 as [[E3 E4]].
      now destruct (_ && _) in E3.
Qed.

(** ** First lines *)
Definition req_line (line : bytes) : res (method * bytes * version) :=
  fst (dos mt, p1 <- parse_token (parser_new line);
       match parse_method mt with
       | Ok m =>
           dos uri, p2 <- parse_token p1;
           dos vt, p3 <- parse_token p2;
           (do v <- parse_version vt; Ok (m, uri, v), p3)
       | Err e => (Err e, p1) | Panic => (Panic, p1) | Fuel => (Fuel, p1)
       end).
Definition resp_line (line : bytes) : res (version * status) :=
  fst (dos vt, p1 <- parse_token (parser_new line);
       match parse_version vt with
       | Ok v =>
           dos st, p2 <- parse_remaining p1;
           (do x <- parse_status st; Ok (v, x), p2)
       | Err e => (Err e, p1) | Panic => (Panic, p1) | Fuel => (Fuel, p1)
       end).

Lemma request_head_eq {L} (nl : L -> res (option bytes) * L) fuel s :
  request_head nl fuel s =
  dos l, s1 <- expect_next nl s;
  dos x, s1 <- (req_line l, s1);
  dos h, s2 <- headers_deserialize nl fuel s1;
  (do n <- content_length_of h;
   Ok (mkReqHead (fst (fst x)) (snd (fst x)) (snd x) h (headers_get (bs "Transfer-Encoding") h) n), s2).
Proof.
  unfold request_head. destruct (expect_next nl s) as [[l| | |] s1]; cbn [sbind]; auto.
  unfold req_line. destruct (sbind _ _) as [[[[m u] v]| | |] p]; cbn [sbind fst snd]; auto.
Qed.

Lemma response_head_eq {L} (nl : L -> res (option bytes) * L) fuel s :
  response_head nl fuel s =
  dos l, s1 <- expect_next nl s;
  dos x, s1 <- (resp_line l, s1);
  dos h, s2 <- headers_deserialize nl fuel s1;
  (do n <- content_length_of h;
   Ok (mkRespHead (fst x) (snd x) h (headers_get (bs "Transfer-Encoding") h) n), s2).
Proof.
  unfold response_head. destruct (expect_next nl s) as [[l| | |] s1]; cbn [sbind]; auto.
  unfold resp_line. destruct (sbind _ _) as [[[v st]| | |] p]; cbn [sbind fst snd]; auto.
Qed.

Lemma split_utf8 rest tok ws r : token_split rest tok ws r -> is_utf8 rest -> is_utf8 tok /\ is_utf8 r.
Proof.
  intros (-> & _ & Hw & _ & Hnil) Hv. destruct ws as [|w ws].
  - rewrite (Hnil eq_refl) in *. simpl in Hv. rewrite app_nil_r in Hv. split; auto. exists []. now split.
  - apply is_utf8_valid in Hv. inversion Hw; subst.
    apply valid_split_ascii in Hv as [Hv1 Hv2]; [|now apply blank_ascii]. split; [now apply is_utf8_valid|].
    apply is_utf8_valid. apply (valid_drop ws); auto. apply is_utf8_valid. now apply blanks_utf8.
Qed.

Lemma parse_token_cases p pre rest : reading p pre rest ->
  (exists tok ws r p' pre', token_split rest tok ws r /\ rest <> [] /\ parse_token p = (Ok tok, p')
     /\ reading p' pre' r /\ is_utf8 tok)
  \/ (rest = [] /\ parse_token p = (Err UnexpectedEof, p)).
Proof.
  intros Hr. destruct rest as [|b t] eqn:E; [right; split; auto; eapply parse_token_eof; eauto|].
  rewrite <- E in *. left. destruct (token_split_exists rest) as (tok & ws & r & Hs).
  destruct (parse_token_spec p pre rest tok ws r Hr) as (p' & E1 & E2); [subst; easy|auto|].
  exists tok, ws, r, p', (pre ++ tok ++ ws). split; auto. split; [subst; easy|]. split; auto. split; auto.
  destruct Hr as (_ & _ & _ & Hv). now apply (split_utf8 _ _ _ _ Hs).
Qed.

Lemma token_split_unique rest t1 w1 r1 t2 w2 r2 :
  token_split rest t1 w1 r1 -> token_split rest t2 w2 r2 -> t1 = t2 /\ w1 = w2 /\ r1 = r2.
Proof.
  intros (E1 & A1 & B1 & C1 & D1) (E2 & A2 & B2 & C2 & D2).
  assert (Ht : t1 = t2).
  { rewrite <- (before_blank_app t1 (w1 ++ r1)), <- (before_blank_app t2 (w2 ++ r2)); auto; try congruence.
    - intros b t H. destruct w2; [rewrite (D2 eq_refl) in H; easy|]. injection H as <- _. now inversion B2.
    - intros b t H. destruct w1; [rewrite (D1 eq_refl) in H; easy|]. injection H as <- _. now inversion B1. }
  subst t2. split; auto. rewrite E1 in E2. apply app_inv_head in E2. clear -B1 B2 C1 C2 E2.
  revert w2 B2 E2. induction B1 as [|b w1 Hb B1 IH]; intros [|c w2] B2 E2; cbn [app] in E2; auto.
  - subst r1. inversion B2; subst. exfalso. now apply (C1 c (w2 ++ r2) eq_refl).
  - subst r2. exfalso. now apply (C2 b (w1 ++ r1) eq_refl).
  - injection E2 as -> E2. inversion B2; subst. destruct (IH w2) as [-> ->]; auto.
Qed.

(** The exact meaning of a request line. *)
Lemma req_line_spec line : is_utf8 line ->
  (exists m u v t1 w1 r1 w2 r2 t3 w3 r3,
     line <> [] /\ r1 <> [] /\ r2 <> []
     /\ token_split line t1 w1 r1 /\ token_split r1 u w2 r2 /\ token_split r2 t3 w3 r3
     /\ to_uppercase t1 = show_method m /\ parse_version t3 = Ok v /\ req_line line = Ok (m, u, v))
  \/ (exists e, req_line line = Err e)
  \/ (req_line line = Panic /\ exists t1 w1 r1 u w2 r2 t3 w3 r3,
       token_split line t1 w1 r1 /\ token_split r1 u w2 r2 /\ token_split r2 t3 w3 r3
       /\ is_utf8 t3 /\ parse_version t3 = Panic).
Proof.
  intros Hu. unfold req_line.
  destruct (parse_token_cases _ _ _ (reading_new _ Hu)) as [(t1 & w1 & r1 & p1 & pre1 & S1 & N1 & E1 & R1 & U1)|[_ E1]];
    rewrite E1; cbn [sbind fst]; [|eauto].
  destruct (parse_method_total t1) as [[m Em]|Em]; rewrite Em; [|cbn; eauto].
  destruct (parse_token_cases _ _ _ R1) as [(t2 & w2 & r2 & p2 & pre2 & S2 & N2 & E2 & R2 & U2)|[_ E2]];
    rewrite E2; cbn [sbind fst]; [|eauto].
  destruct (parse_token_cases _ _ _ R2) as [(t3 & w3 & r3 & p3 & pre3 & S3 & N3 & E3 & R3 & U3)|[_ E3]];
    rewrite E3; cbn [sbind fst]; [|eauto].
  apply parse_method_ok in Em.
  destruct (parse_version_cases t3 U3) as [[_ [v E]]|[[_ E]|[e E]]]; rewrite E; cbn [rbind]; eauto.
  - left. exists m, t2, v, t1, w1, r1, w2, r2, t3, w3, r3. repeat (split; [auto; fail|]). auto.
  - right. right. split; auto. exists t1, w1, r1, t2, w2, r2, t3, w3, r3. repeat (split; [auto; fail|]). auto.
Qed.

Lemma req_line_ok line t1 w1 r1 u w2 r2 t3 w3 r3 m v :
  is_utf8 line -> line <> [] -> r1 <> [] -> r2 <> [] ->
  token_split line t1 w1 r1 -> token_split r1 u w2 r2 -> token_split r2 t3 w3 r3 ->
  parse_method t1 = Ok m -> parse_version t3 = Ok v -> req_line line = Ok (m, u, v).
Proof.
  intros Hu N1 N2 N3 S1 S2 S3 Em Ev. unfold req_line.
  destruct (parse_token_spec _ _ _ _ _ _ (reading_new _ Hu) N1 S1) as (p1 & E1 & R1). rewrite E1. cbn [sbind].
  rewrite Em. destruct (parse_token_spec _ _ _ _ _ _ R1 N2 S2) as (p2 & E2 & R2). rewrite E2. cbn [sbind].
  destruct (parse_token_spec _ _ _ _ _ _ R2 N3 S3) as (p3 & E3 & R3). rewrite E3. cbn [sbind]. now rewrite Ev.
Qed.

Lemma parse_status_cases s : is_utf8 s -> (exists st, parse_status s = Ok st) \/ (exists e, parse_status s = Err e).
Proof.
  intros Hu. unfold parse_status, parse_number.
  destruct (parse_token_cases _ _ _ (reading_new _ Hu)) as [(t1 & w1 & r1 & p1 & pre1 & S1 & N1 & E1 & R1 & U1)|[_ E1]];
    rewrite E1; cbn [sbind fst]; [|cbn; eauto].
  unfold parse_u32. destruct (from_str_radix_err 10 u32_max t1) as [[n ->]|[k ->]]; cbn; eauto.
Qed.

Lemma resp_line_spec line : is_utf8 line ->
  (exists v st t1 w1 r1, line <> [] /\ token_split line t1 w1 r1 /\ parse_version t1 = Ok v
     /\ parse_status r1 = Ok st /\ resp_line line = Ok (v, st))
  \/ (exists e, resp_line line = Err e)
  \/ (resp_line line = Panic /\ exists t1 w1 r1, token_split line t1 w1 r1 /\ is_utf8 t1 /\ parse_version t1 = Panic).
Proof.
  intros Hu. unfold resp_line.
  destruct (parse_token_cases _ _ _ (reading_new _ Hu)) as [(t1 & w1 & r1 & p1 & pre1 & S1 & N1 & E1 & R1 & U1)|[_ E1]];
    rewrite E1; cbn [sbind fst]; [|eauto].
  destruct (parse_version_cases t1 U1) as [[_ [v E]]|[[_ E]|[e E]]]; rewrite E; cbn [fst]; eauto.
  - destruct (parse_remaining_spec _ _ _ R1) as (p2 & E2 & _). rewrite E2. cbn [sbind fst].
    destruct (parse_status_cases r1) as [[st Es]|[e Es]]; [apply R1| |]; rewrite Es; cbn [rbind]; eauto.
    left. exists v, st, t1, w1, r1. repeat (split; [auto; fail|]). auto.
  - right. right. split; auto. eauto 10.
Qed.

Lemma resp_line_ok line t1 w1 r1 v st : is_utf8 line -> line <> [] -> token_split line t1 w1 r1 ->
  parse_version t1 = Ok v -> parse_status r1 = Ok st -> resp_line line = Ok (v, st).
Proof.
  intros Hu N1 S1 Ev Es. unfold resp_line.
  destruct (parse_token_spec _ _ _ _ _ _ (reading_new _ Hu) N1 S1) as (p1 & E1 & R1). rewrite E1. cbn [sbind].
  rewrite Ev. destruct (parse_remaining_spec _ _ _ R1) as (p2 & E2 & _). rewrite E2. cbn [sbind fst]. now rewrite Es.
Qed.

(** ** Heads on items, independently of the fuel *)
Lemma il_line_utf8 bld xs l ys : il bld xs = (Ok (Some l), ys) -> is_utf8 l /\ l <> [] /\ no_crlf l.
Proof.
  intros H. apply items_line_inv in H as (pre & w & line & _ & _ & _ & Hn & Hl); [|apply no_crlf_nil].
  destruct line as [|b t] eqn:E; [easy|]. rewrite <- E in *. unfold line_result in Hl.
  destruct line as [|b' t'] eqn:E2; [easy|]. rewrite <- E2 in *.
  destruct (utf8_valid line) eqn:Ev; [|easy]. injection Hl as <-. split; [now apply is_utf8_valid|]. split; auto. now rewrite E2.
Qed.

Lemma expect_next_il bld xs : exists r, expect_next (il bld) xs = (r, snd (il bld xs))
  /\ r <> Fuel /\ r <> Panic /\ (forall l, r = Ok l -> il bld xs = (Ok (Some l), snd (il bld xs))).
Proof.
  unfold expect_next. pose proof (il_not_fuel bld xs) as [H1 H2]. destruct (il bld xs) as [[[l|]| | |] ys]; cbn [fst snd] in *; try easy;
    eexists; (split; [reflexivity|]); repeat split; try easy. now intros l0 [= ->].
Qed.

Definition hdrs_of (bld : build) (xs : list item) : res headers * list item :=
  headers_deserialize (il bld) (S (length xs)) xs.

Lemma hdrs_fuel bld f xs : length xs < f -> headers_deserialize (il bld) f xs = hdrs_of bld xs.
Proof.
  intros H. unfold hdrs_of, headers_deserialize. apply headers_loop_fuel; cbn; try lia. split; easy.
Qed.
Lemma hdrs_not_fuel bld xs : fst (hdrs_of bld xs) <> Fuel.
Proof.
  unfold hdrs_of, headers_deserialize. apply (headers_loop_fuel bld (S (length xs)) (S (length xs))); cbn; try lia. split; easy.
Qed.

Definition req_of (bld : build) (xs : list item) : res req_head * list item :=
  dos l, s1 <- expect_next (il bld) xs;
  dos x, s1 <- (req_line l, s1);
  dos h, s2 <- hdrs_of bld s1;
  (do n <- content_length_of h;
   Ok (mkReqHead (fst (fst x)) (snd (fst x)) (snd x) h (headers_get (bs "Transfer-Encoding") h) n), s2).
Definition resp_of (bld : build) (xs : list item) : res resp_head * list item :=
  dos l, s1 <- expect_next (il bld) xs;
  dos x, s1 <- (resp_line l, s1);
  dos h, s2 <- hdrs_of bld s1;
  (do n <- content_length_of h;
   Ok (mkRespHead (fst x) (snd x) h (headers_get (bs "Transfer-Encoding") h) n), s2).

Lemma req_fuel bld f xs : length xs < f -> request_head (il bld) f xs = req_of bld xs.
Proof.
  intros H. rewrite request_head_eq. unfold req_of. destruct (expect_next_il bld xs) as (r & -> & _).
  pose proof (items_line_length bld [] xs) as Hl. fold (il bld) in Hl.
  destruct r; cbn [sbind]; auto. destruct (req_line a); cbn [sbind]; auto. rewrite hdrs_fuel; auto. lia.
Qed.
Lemma resp_fuel bld f xs : length xs < f -> response_head (il bld) f xs = resp_of bld xs.
Proof.
  intros H. rewrite response_head_eq. unfold resp_of. destruct (expect_next_il bld xs) as (r & -> & _).
  pose proof (items_line_length bld [] xs) as Hl. fold (il bld) in Hl.
  destruct r; cbn [sbind]; auto. destruct (resp_line a); cbn [sbind]; auto. rewrite hdrs_fuel; auto. lia.
Qed.

Lemma content_length_cases h : (exists n, content_length_of h = Ok n) \/ (exists k, content_length_of h = Err (ParseIntError k)).
Proof.
  unfold content_length_of. destruct (headers_get _ h) as [v|]; eauto. unfold parse_u64.
  destruct (from_str_radix_err 10 u64_max v) as [[n ->]|[k ->]]; cbn; eauto.
Qed.

Lemma req_not_fuel bld xs : fst (req_of bld xs) <> Fuel.
Proof.
  unfold req_of. destruct (expect_next_il bld xs) as (r & -> & H1 & _ & H2). destruct r as [l| | |]; cbn [sbind fst]; try easy.
  specialize (H2 l eq_refl). apply il_line_utf8 in H2 as (Hu & _).
  destruct (req_line_spec l Hu) as [(m & u & v & H)|[[e ->]|[-> _]]]; cbn [sbind fst]; try easy.
  destruct H as (? & ? & ? & ? & ? & ? & ? & ? & _ & _ & _ & _ & _ & _ & _ & _ & ->). cbn [sbind].
  pose proof (hdrs_not_fuel bld (snd (il bld xs))) as Hh. destruct (hdrs_of bld _) as [[h| | |] s2]; cbn [sbind fst] in *; try easy.
  destruct (content_length_cases h) as [[n ->]|[k ->]]; easy.
Qed.
Lemma resp_not_fuel bld xs : fst (resp_of bld xs) <> Fuel.
Proof.
  unfold resp_of. destruct (expect_next_il bld xs) as (r & -> & H1 & _ & H2). destruct r as [l| | |]; cbn [sbind fst]; try easy.
  specialize (H2 l eq_refl). apply il_line_utf8 in H2 as (Hu & _).
  destruct (resp_line_spec l Hu) as [(v & st & H)|[[e ->]|[-> _]]]; cbn [sbind fst]; try easy.
  destruct H as (? & ? & ? & _ & _ & _ & _ & ->). cbn [sbind].
  pose proof (hdrs_not_fuel bld (snd (il bld xs))) as Hh. destruct (hdrs_of bld _) as [[h| | |] s2]; cbn [sbind fst] in *; try easy.
  destruct (content_length_cases h) as [[n ->]|[k ->]]; easy.
Qed.

(** Any transport. *)
Lemma request_head_items {St} bld (rd : reader St) R fuel s xs : reader_pos rd R -> R s xs -> length xs < fuel ->
  exists s', request_head (crlf_next bld rd fuel) fuel s = (fst (req_of bld xs), s') /\ R s' (snd (req_of bld xs)).
Proof.
  intros HR Hs Hf.
  destruct (request_head_sim (crlf_next bld rd fuel) (il bld) _ (crlf_il_sim bld rd R fuel HR) fuel s xs (conj Hs Hf))
    as (r & s' & xs' & E1 & E2 & [H' _]).
  rewrite (req_fuel bld fuel xs Hf) in E2. rewrite E2. exists s'. auto.
Qed.
Lemma response_head_items {St} bld (rd : reader St) R fuel s xs : reader_pos rd R -> R s xs -> length xs < fuel ->
  exists s', response_head (crlf_next bld rd fuel) fuel s = (fst (resp_of bld xs), s') /\ R s' (snd (resp_of bld xs)).
Proof.
  intros HR Hs Hf.
  destruct (response_head_sim (crlf_next bld rd fuel) (il bld) _ (crlf_il_sim bld rd R fuel HR) fuel s xs (conj Hs Hf))
    as (r & s' & xs' & E1 & E2 & [H' _]).
  rewrite (resp_fuel bld fuel xs Hf) in E2. rewrite E2. exists s'. auto.
Qed.
Lemma headers_items {St} bld (rd : reader St) R fuel s xs : reader_pos rd R -> R s xs -> length xs < fuel ->
  exists s', headers_deserialize (crlf_next bld rd fuel) fuel s = (fst (hdrs_of bld xs), s') /\ R s' (snd (hdrs_of bld xs)).
Proof.
  intros HR Hs Hf.
  destruct (headers_loop_sim (crlf_next bld rd fuel) (il bld) _ (crlf_il_sim bld rd R fuel HR) fuel [] None s xs (conj Hs Hf))
    as (r & s' & xs' & E1 & E2 & [H' _]).
  fold (headers_deserialize (il bld) fuel xs) in E2.
  rewrite (hdrs_fuel bld fuel xs Hf) in E2. rewrite E2. exists s'. auto.
Qed.
