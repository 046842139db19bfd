(** A peer that sends without end: C73. *)
From Verif Require Import Base Utf8 Case Num Io Parser Types Message Outgoing Client Server Transport Lemmas ReadLemmas
  NumLemmas Utf8Lemmas ChunkSpec ChunkLemmas BodyLemmas ParserLemmas TypesLemmas HeadLemmas BlockLemmas MsgLemmas PBody
  PHead PReuse PServer NetLemmas.

(** The bytes of the stream [f] from position [i] up to, not including, position [j]. *)
Definition span (f : nat -> byte) (i j : nat) : bytes := map f (seq i (j - i)).

(** The reader never fails and never ends: with every non-empty buffer it returns at least one of the next bytes of [f]. *)
Definition endless_rel {St} (rd : reader St) (f : nat -> byte) (R : St -> nat -> Prop) : Prop :=
  forall n s i, 0 < n -> R s i ->
  exists j s', i < j <= i + n /\ rd n s = (Ok (span f i j), s') /\ R s' j.
Definition endless {St} (rd : reader St) (s : St) (f : nat -> byte) : Prop :=
  exists R, endless_rel rd f R /\ R s 0.

Lemma span_nil f i : span f i i = [].
Proof. unfold span. now rewrite Nat.sub_diag. Qed.
Lemma span_length f i j : length (span f i j) = j - i.
Proof. unfold span. now rewrite map_length, seq_length. Qed.
Lemma span_cons f i j : i < j -> span f i j = f i :: span f (S i) j.
Proof. intros H. unfold span. replace (j - i) with (S (j - S i)) by lia. reflexivity. Qed.
Lemma span_app f i j k : i <= j <= k -> span f i k = span f i j ++ span f j k.
Proof.
  intros H. unfold span. replace (k - i) with ((j - i) + (k - j)) by lia.
  rewrite seq_app, map_app. now replace (i + (j - i)) with j by lia.
Qed.
Lemma span_shift f i a b : span (fun n => f (i + n)) a b = span f (i + a) (i + b).
Proof.
  unfold span. replace (i + b - (i + a)) with (b - a) by lia. generalize (b - a) as n. revert a.
  intros a n. revert a. induction n as [|n IH]; intros a; cbn; auto. now rewrite IH, Nat.add_succ_r.
Qed.

(** What is left of the stream before position [n], then [zs]. *)
Notation left f i n zs := (map B (span f i n) ++ zs).

Section Lines.
  Context {St : Type} (bld : build) (rd : reader St) (f : nat -> byte) (R : St -> nat -> Prop) (HR : endless_rel rd f R).

  Lemma bytes_next_endless fuel s i : R s i ->
    exists s', bytes_next bld rd (S fuel) s = (Ok (Some (f i)), s') /\ R s' (S i).
  Proof using HR.
    intros H. destruct (HR 1 s i ltac:(lia) H) as (j & s' & Hj & E & H'). assert (j = S i) as -> by lia.
    cbn [bytes_next]. rewrite E, span_cons by lia. eauto.
  Qed.

  Lemma crlf_loop_endless : forall fuel line s i, R s i ->
    fst (crlf_loop bld rd fuel line s) = Fuel
    \/ exists r s' j, crlf_loop bld rd fuel line s = (r, s') /\ i < j /\ R s' j
       /\ forall n zs, j <= n -> items_line bld line (left f i n zs) = (r, left f j n zs).
  Proof using HR.
    induction fuel as [|fu IH]; intros line s i H; [now left|]. cbn [crlf_loop].
    destruct (bytes_next_endless fu s i H) as (s' & -> & H').
    destruct (ends_crlf (line ++ [f i])) eqn:Ee.
    - right. exists (line_result (firstn (length (line ++ [f i]) - 2) (line ++ [f i]))), s', (S i).
      split; [|split; [lia|split; auto]].
      + unfold line_result. destruct (firstn _ _) as [|x l]; auto. now destruct (utf8_valid (x :: l)).
      + intros n zs Hn. rewrite span_cons by lia. cbn [map app items_line]. now rewrite Ee.
    - destruct (IH (line ++ [f i]) s' (S i) H') as [Hf|(r & s2 & j & E & Hj & H2 & Hi)]; [now left|]. right.
      exists r, s2, j. split; auto. split; [lia|]. split; auto.
      intros n zs Hn. rewrite span_cons by lia. cbn [map app items_line]. rewrite Ee. now apply Hi.
  Qed.

  (** No CR LF, no line. *)
  Lemma crlf_loop_never : forall fuel line s i, R s i ->
    (forall n, no_crlf (line ++ span f i n)) -> fst (crlf_loop bld rd fuel line s) = Fuel.
  Proof using HR.
    induction fuel as [|fu IH]; intros line s i H Hn; [easy|]. cbn [crlf_loop].
    destruct (bytes_next_endless fu s i H) as (s' & -> & H').
    assert (Hx : line ++ [f i] = line ++ span f i (S i)) by (now rewrite span_cons, span_nil by lia).
    destruct (ends_crlf (line ++ [f i])) eqn:Ee.
    - exfalso. apply ends_crlf_spec in Ee as [l Hl]. apply (Hn (S i)). exists l, []. now rewrite <- Hx, Hl, app_nil_r.
    - apply (IH (line ++ [f i]) s' (S i) H'). intros n. destruct (Nat.le_gt_cases (S i) n) as [Hle|Hgt].
      + rewrite <- app_assoc. cbn [app]. rewrite <- span_cons by lia. apply Hn.
      + unfold span. replace (n - S i) with 0 by lia. cbn. rewrite app_nil_r, Hx. apply Hn.
  Qed.

  Variable bf : nat.
  Notation nl := (crlf_next bld rd bf).

  Lemma expect_endless s i : R s i ->
    fst (expect_next nl s) = Fuel
    \/ exists r s' j, expect_next nl s = (r, s') /\ i <= j /\ R s' j
       /\ forall n zs, j <= n -> expect_next (il bld) (left f i n zs) = (r, left f j n zs).
  Proof using HR.
    intros H. unfold expect_next, il, crlf_next.
    destruct (crlf_loop_endless bf [] s i H) as [Hf|(r & s' & j & E & Hj & H' & Hi)].
    - left. destruct (crlf_loop bld rd bf [] s) as [[[l|]|e| |] s']; cbn [fst] in Hf; easy.
    - right. rewrite E. exists (match r with Ok (Some l) => Ok l | Ok None => Err UnexpectedEof | Err e => Err e | Panic => Panic | Fuel => Fuel end), s', j.
      split; [now destruct r as [[l|]|e| |]|]. split; [lia|]. split; auto. intros n zs Hn. rewrite Hi by auto.
      now destruct r as [[l|]|e| |].
  Qed.

  Lemma cont_endless : forall fuel line s i, R s i ->
    snd (fst (cont_loop nl fuel line s)) = Some Fuel
    \/ exists l pk s' j, cont_loop nl fuel line s = (l, pk, s') /\ i <= j /\ R s' j
       /\ forall n zs fuel', j <= n -> fuel <= fuel' -> cont_loop (il bld) fuel' line (left f i n zs) = (l, pk, left f j n zs).
  Proof using HR.
    induction fuel as [|fu IH]; intros line s i H; [now left|]. cbn [cont_loop]. unfold crlf_next at 1 3.
    destruct (crlf_loop_endless bf [] s i H) as [Hf|(r & s' & j & E & Hj & H' & Hi)].
    - left. destruct (crlf_loop bld rd bf [] s) as [[[l|]|e| |] s']; cbn [fst snd] in *; easy.
    - rewrite E. assert (Hc : forall n zs fuel', j <= n -> S fu <= fuel' ->
        exists fu', fuel' = S fu' /\ il bld (left f i n zs) = (r, left f j n zs)).
      { intros n zs [|fu'] Hn Hf; [lia|]. exists fu'. split; auto. now apply Hi. }
      destruct r as [[l|]|e| |].
      2-5: right; eexists _, _, s', j; (split; [reflexivity|]); (split; [lia|]); split; auto;
           intros n zs fuel' Hn Hf; destruct (Hc n zs fuel' Hn Hf) as (fu' & -> & E2); cbn [cont_loop]; now rewrite E2.
      destruct (starts_blank l) eqn:Eb.
      + destruct (IH (line ++ l) s' j H') as [Hf|(l2 & pk & s2 & k & E2 & Hk & H2 & Hi2)]; [now left|]. right.
        exists l2, pk, s2, k. split; auto. split; [lia|]. split; auto.
        intros n zs fuel' Hn Hf. destruct (Hc n zs fuel' ltac:(lia) Hf) as (fu' & -> & E3). cbn [cont_loop].
        rewrite E3, Eb. apply Hi2; lia.
      + right. eexists _, _, s', j. split; [reflexivity|]. split; [lia|]. split; auto.
        intros n zs fuel' Hn Hf. destruct (Hc n zs fuel' Hn Hf) as (fu' & -> & E3). cbn [cont_loop]. now rewrite E3, Eb.
  Qed.

  Lemma headers_endless : forall fuel acc pk s i, R s i ->
    fst (headers_loop nl fuel acc pk s) = Fuel
    \/ exists r s' j, headers_loop nl fuel acc pk s = (r, s') /\ i <= j /\ R s' j
       /\ forall n zs fuel', j <= n -> fuel <= fuel' -> headers_loop (il bld) fuel' acc pk (left f i n zs) = (r, left f j n zs).
  Proof using HR.
    induction fuel as [|fu IH]; intros acc pk s i H; [now left|].
    unfold headers_loop at 1 2; fold (headers_loop nl).
    assert (Hp : fst (pk_next nl pk s) = Fuel
      \/ exists r s' j, pk_next nl pk s = (r, s') /\ i <= j /\ R s' j
         /\ forall n zs, j <= n -> pk_next (il bld) pk (left f i n zs) = (r, left f j n zs)).
    { destruct pk as [r|]; cbn [pk_next].
      - right. exists r, s, i. auto.
      - unfold crlf_next. destruct (crlf_loop_endless bf [] s i H) as [Hf|(r & s' & j & E & Hj & H' & Hi)]; [now left|].
        right. exists r, s', j. split; auto. split; [lia|]. auto. }
    destruct Hp as [Hf|(r & s' & j & E & Hj & H' & Hi)].
    { left. destruct (pk_next nl pk s) as [[[l|]|e| |] s']; cbn [fst] in *; easy. }
    rewrite E. destruct r as [[l|]|e| |].
    2-5: right; eexists _, s', j; (split; [reflexivity|]); (split; [lia|]); split; auto;
         intros n zs [|fu'] Hn Hf; [lia|]; cbn [headers_loop]; now rewrite Hi.
    destruct (cont_endless (S fu) l s' j H') as [Hf|(l2 & pk2 & s2 & k & E2 & Hk & H2 & Hi2)].
    { left. destruct (cont_loop nl (S fu) l s') as [[l2 pk2] s2]. cbn [fst snd] in Hf. now subst pk2. }
    rewrite E2.
    assert (Hn : forall n zs fuel', k <= n -> S fu <= fuel' ->
      exists fu', fuel' = S fu' /\ fu <= fu' /\ pk_next (il bld) pk (left f i n zs) = (Ok (Some l), left f j n zs)
        /\ cont_loop (il bld) (S fu') l (left f j n zs) = (l2, pk2, left f k n zs)).
    { intros n zs [|fu'] Hn Hf; [lia|]. exists fu'. split; auto. split; [lia|]. split; [apply Hi; lia|apply Hi2; lia]. }
    assert (Hq : forall r : res headers, (forall fu', fu <= fu' -> forall n zs,
        match pk2 with Some Panic => (Panic, left f k n zs) | Some Fuel => (Fuel, left f k n zs) | _ =>
          match header_deserialize l2 with
          | Ok h => headers_loop (il bld) fu' (acc ++ [h]) pk2 (left f k n zs)
          | Err e => (Err e, left f k n zs) | Panic => (Panic, left f k n zs) | Fuel => (Fuel, left f k n zs)
          end end = (r, left f k n zs)) ->
        fst (r, s2) = Fuel \/ exists r0 s0 j0, (r, s2) = (r0, s0) /\ i <= j0 /\ R s0 j0
          /\ forall n zs fuel', j0 <= n -> S fu <= fuel' -> headers_loop (il bld) fuel' acc pk (left f i n zs) = (r0, left f j0 n zs)).
    { intros r Hr. right. exists r, s2, k. split; auto. split; [lia|]. split; auto. intros n zs fuel' Hk' Hf.
      destruct (Hn n zs fuel' Hk' Hf) as (fu' & -> & Hfu & E3 & E4). unfold headers_loop; fold (headers_loop (il bld)).
      rewrite E3, E4. now apply Hr. }
    destruct pk2 as [[x|x| |]|]; try (apply Hq; reflexivity);
      (destruct (header_deserialize l2) as [h|e| |] eqn:Eh; try (apply Hq; reflexivity));
         (match goal with |- fst (headers_loop _ _ ?a ?p _) = _ \/ _ =>
           destruct (IH a p s2 k H2) as [Hf|(r & s3 & m & E3 & Hm & H3 & Hi3)]; [now left|] end);
         right; exists r, s3, m; (split; [exact E3|]); (split; [lia|]); (split; [exact H3|]); intros n zs fuel' Hn' Hf;
         destruct (Hn n zs fuel' ltac:(lia) Hf) as (fu' & -> & Hfu & E4 & E5);
         unfold headers_loop; fold (headers_loop (il bld)); rewrite E4, E5, Eh; apply Hi3; lia.
  Qed.

  (** A head: never decided, or decided by what the items up to some position say. *)
  Lemma request_head_endless fuel s i : R s i ->
    fst (request_head nl fuel s) = Fuel
    \/ exists r s' j, request_head nl fuel s = (r, s') /\ i <= j /\ R s' j
       /\ forall n zs, fuel + j <= n -> req_of bld (left f i n zs) = (r, left f j n zs).
  Proof using HR.
    intros H. rewrite request_head_eq. destruct (expect_endless s i H) as [Hf|(r & s' & j & E & Hj & H' & Hi)].
    { left. destruct (expect_next nl s) as [[l|e| |] s']; cbn [fst sbind] in *; easy. }
    rewrite E. destruct r as [l|e| |]; cbn [sbind].
    2-4: right; eexists _, s', j; (split; [reflexivity|]); (split; [lia|]); split; auto;
         intros n zs Hn; unfold req_of; now rewrite Hi by lia.
    destruct (req_line l) as [x|e| |] eqn:El; cbn [sbind].
    2-4: right; eexists _, s', j; (split; [reflexivity|]); (split; [lia|]); split; auto;
         intros n zs Hn; unfold req_of; rewrite Hi by lia; cbn [sbind]; now rewrite El.
    unfold headers_deserialize. destruct (headers_endless fuel [] None s' j H') as [Hf|(r & s2 & k & E2 & Hk & H2 & Hi2)].
    { left. destruct (headers_loop nl fuel [] None s') as [[h|e| |] s2]; cbn [fst sbind] in *; easy. }
    rewrite E2. right. eexists _, s2, k.
    split; [instantiate (1 := do h <- r; do n <- content_length_of h; Ok (mkReqHead (fst (fst x)) (snd (fst x)) (snd x) h (headers_get (bs "Transfer-Encoding") h) n)); destruct r; reflexivity|]. split; [lia|]. split; auto.
    intros n zs Hn. unfold req_of. rewrite Hi by lia. cbn [sbind]. rewrite El. cbn [sbind].
    unfold hdrs_of, headers_deserialize. rewrite (Hi2 n zs) by (try lia; rewrite app_length, map_length, span_length; lia).
    destruct r; reflexivity.
  Qed.
  Lemma response_head_endless fuel s i : R s i ->
    fst (response_head nl fuel s) = Fuel
    \/ exists r s' j, response_head nl fuel s = (r, s') /\ i <= j /\ R s' j
       /\ forall n zs, fuel + j <= n -> resp_of bld (left f i n zs) = (r, left f j n zs).
  Proof using HR.
    intros H. rewrite response_head_eq. destruct (expect_endless s i H) as [Hf|(r & s' & j & E & Hj & H' & Hi)].
    { left. destruct (expect_next nl s) as [[l|e| |] s']; cbn [fst sbind] in *; easy. }
    rewrite E. destruct r as [l|e| |]; cbn [sbind].
    2-4: right; eexists _, s', j; (split; [reflexivity|]); (split; [lia|]); split; auto;
         intros n zs Hn; unfold resp_of; now rewrite Hi by lia.
    destruct (resp_line l) as [x|e| |] eqn:El; cbn [sbind].
    2-4: right; eexists _, s', j; (split; [reflexivity|]); (split; [lia|]); split; auto;
         intros n zs Hn; unfold resp_of; rewrite Hi by lia; cbn [sbind]; now rewrite El.
    unfold headers_deserialize. destruct (headers_endless fuel [] None s' j H') as [Hf|(r & s2 & k & E2 & Hk & H2 & Hi2)].
    { left. destruct (headers_loop nl fuel [] None s') as [[h|e| |] s2]; cbn [fst sbind] in *; easy. }
    rewrite E2. right. eexists _, s2, k.
    split; [instantiate (1 := do h <- r; do n <- content_length_of h; Ok (mkRespHead (fst x) (snd x) h (headers_get (bs "Transfer-Encoding") h) n)); destruct r; reflexivity|]. split; [lia|]. split; auto.
    intros n zs Hn. unfold resp_of. rewrite Hi by lia. cbn [sbind]. rewrite El. cbn [sbind].
    unfold hdrs_of, headers_deserialize. rewrite (Hi2 n zs) by (try lia; rewrite app_length, map_length, span_length; lia).
    destruct r; reflexivity.
  Qed.
End Lines.

Lemma bufr_endless {St} bld cap (rd : reader St) f R : endless_rel rd f R ->
  endless_rel (bufr_read bld cap rd) f (fun b i => match bld with
    | Std => exists j, i <= j /\ R (br_inner b) j /\ br_buf b = span f i j
    | NoStd => R (br_inner b) i end).
Proof.
  intros HR n [s buf] i Hn H. unfold bufr_read. destruct bld; cbn [br_inner br_buf] in *.
  - destruct H as (j & Hj & H & ->). destruct (span f i j) as [|b l] eqn:Es.
    + assert (j = i) as -> by (apply (f_equal (@length byte)) in Es; rewrite span_length in Es; cbn in Es; lia).
      destruct (Nat.leb_spec cap n).
      * destruct (HR n s i Hn H) as (k & s' & Hk & E & H'). rewrite E. exists k, (mkBufr s' []). split; auto. split; auto.
        exists k. cbn. rewrite span_nil. auto.
      * destruct (Nat.eq_dec cap 0) as [->|Hc].
        -- lia.
        -- destruct (HR cap s i ltac:(lia) H) as (k & s' & Hk & E & H'). rewrite E.
           exists (Nat.min k (i + n)), (mkBufr s' (skipn n (span f i k))). split; [lia|].
           assert (Hs : span f i k = span f i (Nat.min k (i + n)) ++ span f (Nat.min k (i + n)) k) by (apply span_app; lia).
           split; [|exists k; cbn; split; [lia|split; auto]]; rewrite Hs.
           ++ f_equal. f_equal. rewrite firstn_app, span_length.
              destruct (Nat.le_ge_cases k (i + n)).
              ** rewrite Nat.min_l by lia. rewrite span_nil, firstn_nil, app_nil_r. apply firstn_all2. rewrite span_length. lia.
              ** rewrite Nat.min_r by lia. replace (n - (i + n - i)) with 0 by lia. cbn. rewrite app_nil_r.
                 apply firstn_all2. rewrite span_length. lia.
           ++ rewrite skipn_app, span_length. destruct (Nat.le_ge_cases k (i + n)).
              ** rewrite Nat.min_l by lia. rewrite span_nil, skipn_nil, app_nil_r. apply skipn_all2. rewrite span_length. lia.
              ** rewrite Nat.min_r by lia. replace (n - (i + n - i)) with 0 by lia. cbn.
                 rewrite skipn_all2 by (rewrite span_length; lia). reflexivity.
    + assert (Hlt : i < j).
      { destruct (Nat.eq_dec i j) as [->|]; [rewrite span_nil in Es; easy|lia]. }
      rewrite <- Es. clear Es b l.
      exists (Nat.min j (i + n)), (mkBufr s (skipn n (span f i j))). split; [lia|].
      assert (Hs : span f i j = span f i (Nat.min j (i + n)) ++ span f (Nat.min j (i + n)) j) by (apply span_app; lia).
      split; [|exists j; cbn; split; [lia|split; auto]]; rewrite Hs.
      * f_equal. f_equal. rewrite firstn_app, span_length.
        destruct (Nat.le_ge_cases j (i + n)).
        -- rewrite Nat.min_l by lia. rewrite span_nil, firstn_nil, app_nil_r. apply firstn_all2. rewrite span_length. lia.
        -- rewrite Nat.min_r by lia. replace (n - (i + n - i)) with 0 by lia. cbn. rewrite app_nil_r.
           apply firstn_all2. rewrite span_length. lia.
      * rewrite skipn_app, span_length. destruct (Nat.le_ge_cases j (i + n)).
        -- rewrite Nat.min_l by lia. rewrite span_nil, skipn_nil, app_nil_r. apply skipn_all2. rewrite span_length. lia.
        -- rewrite Nat.min_r by lia. replace (n - (i + n - i)) with 0 by lia. cbn.
           rewrite skipn_all2 by (rewrite span_length; lia). reflexivity.
  - destruct (HR n s i Hn H) as (k & s' & Hk & E & H'). rewrite E. exists k, (mkBufr s' buf). auto.
Qed.
Lemma bufr_new_endless {St} bld cap (rd : reader St) s f : endless rd s f -> endless (bufr_read bld cap rd) (bufr_new s) f.
Proof.
  intros (R & HR & Hs). eexists. split; [apply bufr_endless, HR|]. destruct bld; cbn; auto. exists 0. now rewrite span_nil.
Qed.

(** ** C73. No limit on what a peer may send *)
(** A stream every beginning of which is the beginning of an acceptable request head is read without end: no answer,
    no error, no call of the handler. *)
Theorem C73_request : forall T bld (rd : reader T) t f,
  endless rd t f ->
  (forall n, exists first lines m u v h z, good_request first lines m u v h /\ head_bytes first lines = span f 0 n ++ z) ->
  forall fuel, fst (request_deserialize bld rd fuel t) = Fuel.
Proof.
  intros T bld rd t f (R & HR & Ht) H fuel. unfold request_deserialize.
  destruct (request_head_endless bld rd f R HR fuel fuel t 0 Ht) as [Hf|(r & s' & j & _ & _ & _ & Hi)].
  { destruct (request_head _ fuel t) as [[h|e| |] s']; cbn [fst sbind] in *; easy. }
  exfalso. destruct (H (S (fuel + j))) as (first & lines & m & u & v & h & z & (Hfl & Hl & Hr & Ha & Hc) & Hz).
  specialize (Hi (S (fuel + j)) (map B z) ltac:(lia)). rewrite <- map_app, <- Hz in Hi.
  unfold head_bytes in Hi. rewrite (app_assoc first CRLF), (map_app B (first ++ CRLF)) in Hi.
  rewrite (req_of_line bld first (m, u, v)) in Hi; auto; try (apply request_line_accepted; auto; apply Hfl).
  pose proof (hdrs_accept_exact bld lines h [] Hl Ha) as E. rewrite app_nil_r in E. rewrite E in Hi. cbn [sbind] in Hi.
  apply (f_equal snd) in Hi. cbn [snd] in Hi.
  rewrite span_cons in Hi by lia. easy.
Qed.
Print Assumptions C73_request.

Theorem C73_response : forall T bld (rd : reader T) t f,
  endless rd t f ->
  (forall n, exists first lines v st h z, good_head first lines v st h /\ head_bytes first lines = span f 0 n ++ z) ->
  forall fuel, fst (response_deserialize bld rd fuel t) = Fuel.
Proof.
  intros T bld rd t f (R & HR & Ht) H fuel. unfold response_deserialize.
  destruct (response_head_endless bld rd f R HR fuel fuel t 0 Ht) as [Hf|(r & s' & j & _ & _ & _ & Hi)].
  { destruct (response_head _ fuel t) as [[h|e| |] s']; cbn [fst sbind] in *; easy. }
  exfalso. destruct (H (S (fuel + j))) as (first & lines & v & st & h & z & (Hfl & Hl & Hr & Ha & Hc) & Hz).
  specialize (Hi (S (fuel + j)) (map B z) ltac:(lia)). rewrite <- map_app, <- Hz in Hi.
  unfold head_bytes in Hi. rewrite (app_assoc first CRLF), (map_app B (first ++ CRLF)) in Hi.
  rewrite (resp_of_line bld first (v, st)) in Hi; auto; try (apply status_line_accepted; auto; apply Hfl).
  pose proof (hdrs_accept_exact bld lines h [] Hl Ha) as E. rewrite app_nil_r in E. rewrite E in Hi. cbn [sbind] in Hi.
  apply (f_equal snd) in Hi. cbn [snd] in Hi.
  rewrite span_cons in Hi by lia. easy.
Qed.
Print Assumptions C73_response.

(** The same for a stream in which no line ever ends, whatever it consists of: a head is not rejected before its first
    line is complete, and a chunk is not rejected before the line with its size is. *)
Theorem C73_no_line_end : forall T bld (rd : reader T) t f,
  endless rd t f -> (forall n, no_crlf (span f 0 n)) ->
  forall fuel, fst (request_deserialize bld rd fuel t) = Fuel
    /\ fst (response_deserialize bld rd fuel t) = Fuel
    /\ forall n len, fst (body_read bld rd fuel n (BChunked len (CStream t))) = Fuel.
Proof.
  intros T bld rd t f (R & HR & Ht) H fuel.
  assert (Hl : forall fu, fst (expect_next (crlf_next bld rd fu) t) = Fuel).
  { intros fu. unfold expect_next, crlf_next. pose proof (crlf_loop_never bld rd f R HR fu [] t 0 Ht H) as Hf.
    destruct (crlf_loop bld rd fu [] t) as [[[l|]|e| |] t']; cbn [fst] in *; easy. }
  repeat split.
  - unfold request_deserialize. rewrite request_head_eq. specialize (Hl fuel).
    destruct (expect_next _ t) as [[l|e| |] t']; cbn [fst sbind] in *; easy.
  - unfold response_deserialize. rewrite response_head_eq. specialize (Hl fuel).
    destruct (expect_next _ t) as [[l|e| |] t']; cbn [fst sbind] in *; easy.
  - intros n len. cbn [body_read]. destruct fuel as [|fu]; [easy|]. cbn [chunked_read]. unfold chunk_new. specialize (Hl (S fu)).
    destruct (expect_next _ t) as [[l|e| |] t']; cbn [fst sbind] in *; easy.
Qed.
Print Assumptions C73_no_line_end.

(** What that means for the server: [serve_one] does not return, and the handler is not called. *)
Theorem C73_serve : forall S H bld cap (rd : reader S) (wt : writer S) etext (h : handler H) bufsz hs s f,
  endless rd s f ->
  (forall n, exists first lines m u v hd z, good_request first lines m u v hd /\ head_bytes first lines = span f 0 n ++ z)
  \/ (forall n, no_crlf (span f 0 n)) ->
  forall fuel, exists s', serve_one bld cap rd wt etext h bufsz fuel hs (Ok s) = (Fuel, [], hs, Some s').
Proof.
  intros S H bld cap rd wt etext h bufsz hs s f He Hw fuel. pose proof (bufr_new_endless bld cap rd s f He) as Hb.
  assert (Hq : fst (request_deserialize bld (bufr_read bld cap rd) fuel (bufr_new s)) = Fuel).
  { destruct Hw as [Hw|Hw]; [exact (C73_request _ bld _ _ f Hb Hw fuel)|].
    exact (proj1 (C73_no_line_end _ bld _ _ f Hb Hw fuel)). }
  unfold serve_one, serve_stream, serve_one_inner.
  destruct (request_deserialize bld (bufr_read bld cap rd) fuel (bufr_new s)) as [r t]. cbn [fst] in Hq. subst r. eauto.
Qed.
Print Assumptions C73_serve.

(** For the client: a request that has been sent is never answered. *)
Theorem C73_client : forall S bld cap (rd : reader S) (wt : writer S) f o fuel s,
  endless rd s f ->
  (forall n, exists first lines v st hd z, good_head first lines v st hd /\ head_bytes first lines = span f 0 n ++ z)
  \/ (forall n, no_crlf (span f 0 n)) ->
  finish_send bld cap wt fuel o = (Ok tt, s) -> fst (finish bld cap rd wt fuel o) = Fuel.
Proof.
  intros S bld cap rd wt f o fuel s He Hw Hs. unfold finish. rewrite Hs. cbn [sbind].
  destruct Hw as [Hw|Hw]; [exact (C73_response _ bld _ _ f He Hw fuel)|exact (proj1 (proj2 (C73_no_line_end _ bld _ _ f He Hw fuel)))].
Qed.
Print Assumptions C73_client.

(** An outcome other than waiting is decided by a beginning of the stream: every transport that begins with the same bytes
    gets it too, whatever follows. *)
Theorem C73_decided : forall T bld (rd : reader T) t f fuel r t',
  endless rd t f -> request_deserialize bld rd fuel t = (r, t') -> r <> Fuel ->
  exists n, endless rd t' (fun i => f (n + i)) /\ exists m, n <= m /\
  forall U (rd2 : reader U) u z fuel2, delivers rd2 u (map B (span f 0 m ++ z)) -> m + length z < fuel2 ->
  exists u', request_deserialize bld rd2 fuel2 u = (do q <- r; Ok (req_with_reader u' q), u')
    /\ delivers rd2 u' (map B (span f n m ++ z)).
Proof.
  intros T bld rd t f fuel r t' (R & HR & Ht) Hq Hr. unfold request_deserialize in Hq.
  destruct (request_head_endless bld rd f R HR fuel fuel t 0 Ht) as [Hf|(r0 & s' & j & E & _ & Hj & Hi)].
  { exfalso. destruct (request_head _ fuel t) as [[h|e| |] s']; cbn [fst sbind] in *; try easy. congruence. }
  rewrite E in Hq. assert (t' = s') as -> by (destruct r0; cbn [sbind] in Hq; congruence).
  exists j. split.
  { exists (fun s i => R s (j + i)). split; [|now rewrite Nat.add_0_r].
    intros n s i Hn Hs. destruct (HR n s (j + i) Hn Hs) as (k & s2 & Hk & E2 & H2).
    exists (k - j), s2. split; [lia|]. rewrite span_shift. replace (j + (k - j)) with k by lia. auto. }
  exists (fuel + j). split; [lia|]. intros U rd2 u z fuel2 Hd Hf.
  assert (Hl : length (map B (span f 0 (fuel + j) ++ z)) < fuel2) by (rewrite map_length, app_length, span_length; lia).
  destruct Hd as (R2 & HR2 & Hu).
  destruct (request_items bld rd2 R2 u _ fuel2 HR2 Hu Hl) as (u' & D' & ->).
  specialize (Hi (fuel + j) (map B z) ltac:(lia)). rewrite <- !map_app in Hi. rewrite Hi in *. cbn [fst snd] in *.
  exists u'. split; [|exists R2; auto]. destruct r0 as [h|e| |]; cbn [sbind rbind] in *; injection Hq as <-; cbn [rbind]; auto.
  f_equal. f_equal. unfold req_with_reader. cbn. now rewrite with_reader_new.
Qed.
Print Assumptions C73_decided.

(** Reading at most what is left of the first bytes, as if the stream ended there. *)
Definition cut {St} (rd : reader St) : reader (St * bytes) := fun n sx =>
  match rd n (fst sx) with
  | (Ok got, s') => (Ok (firstn (length got) (snd sx)), (s', skipn (length got) (snd sx)))
  | (Err e, s') => (Err e, (s', snd sx))
  | (Panic, s') => (Panic, (s', snd sx))
  | (Fuel, s') => (Fuel, (s', snd sx))
  end.
(** Not asking for nothing. *)
Definition some {St} (rd : reader St) : reader St := fun n s => match n with O => (Ok [], s) | _ => rd n s end.

Lemma some_bytes {St} bld (rd : reader St) : forall fuel s, bytes_next bld (some rd) fuel s = bytes_next bld rd fuel s.
Proof.
  induction fuel as [|fu IH]; intros s; cbn [bytes_next some]; auto.
  destruct (rd 1 s) as [[[|b l]|e| |] s']; auto. destruct (is_retry bld e); auto.
Qed.
Lemma some_crlf {St} bld (rd : reader St) : forall fuel line s, crlf_loop bld (some rd) fuel line s = crlf_loop bld rd fuel line s.
Proof.
  induction fuel as [|fu IH]; intros line s; cbn [crlf_loop]; auto. rewrite some_bytes.
  destruct (bytes_next bld rd (S fu) s) as [[[b|]|e| |] s']; auto. destruct (ends_crlf (line ++ [b])); auto.
Qed.
Lemma some_request {St} bld (rd : reader St) fuel s :
  request_head (crlf_next bld (some rd) fuel) fuel s = request_head (crlf_next bld rd fuel) fuel s.
Proof.
  destruct (request_head_sim (crlf_next bld (some rd) fuel) (crlf_next bld rd fuel) eq) with (fuel := fuel) (a := s) (b := s)
    as (r & a & b & -> & -> & ->); auto.
  intros a b ->. unfold crlf_next. now rewrite some_crlf.
Qed.

Section Cut.
  Context {St : Type} (bld : build) (rd : reader St) (f : nat -> byte) (R : St -> nat -> Prop) (HR : endless_rel rd f R)
    (m : nat).

  Lemma cut_delivers : reader_pos (cut (some rd)) (fun sx xs => (exists i, R (fst sx) i) /\ xs = map B (snd sx)).
  Proof using HR.
    intros n [s x] xs Hn [[i Hi] ->]. cbn [fst snd] in *. destruct (HR n s i Hn Hi) as (j & s' & Hj & E & H').
    unfold cut, some. cbn [fst snd]. destruct n as [|n]; [lia|]. rewrite E, span_length. destruct x as [|b x]; cbn [map].
    - eexists. rewrite firstn_nil, skipn_nil. split; [reflexivity|]. cbn. eauto.
    - exists (firstn (j - i) (b :: x)), (map B (skipn (j - i) (b :: x))), (s', skipn (j - i) (b :: x)).
      split; auto. split; [destruct (j - i) eqn:Ej; [lia|easy]|]. split; [rewrite firstn_length; lia|].
      split; [now rewrite <- map_app, firstn_skipn|]. cbn. eauto.
  Qed.

  Definition together (s : St) (sx : St * bytes) : Prop :=
    fst sx = s /\ exists i, i < m /\ R s i /\ snd sx = span f i m.
  Definition apart (s : St) (sx : St * bytes) : Prop := snd sx = [].

  Lemma cut_lax : laxr apart (fun s => s) (fun s => s) together (some rd) (cut (some rd)).
  Proof using HR.
    intros n. split.
    - intros s [s0 x] [Hs (i & Hi & H & Hx)]. cbn [fst snd] in *. subst s0 x. unfold cut. cbn [fst snd].
      destruct n as [|n]; cbn [some].
      + left. cbn. split; auto. split; auto. eauto.
      + destruct (HR (S n) s i ltac:(lia) H) as (j & s' & Hj & E & H'). rewrite E, span_length. cbn [fst snd].
        destruct (Nat.lt_ge_cases j m) as [Hjm|Hjm].
        * left. rewrite (span_app f i j m) by lia. rewrite <- (span_length f i j), firstn_app, skipn_app, Nat.sub_diag.
          rewrite firstn_all, skipn_all, app_nil_r. split; auto. split; auto. eauto.
        * right. unfold apart. cbn. apply skipn_all2. rewrite span_length. lia.
    - auto.
    - intros s [s0 x] Hx. unfold apart in *. cbn [snd] in *. subst x. unfold cut. cbn [fst snd].
      destruct (some rd n s0) as [[g|e| |] s1]; cbn; auto. apply skipn_nil.
  Qed.
End Cut.

Lemma framed_with {T U} h (t : T) (u : U) b : framed h t b -> framed h u (with_reader u b).
Proof.
  intros (len & Hl & Hb). exists len. split; auto. destruct Hb as [[H ->]|[H ->]]; [left|right]; split; auto.
  now destruct len.
Qed.

(** A stream that begins with an acceptable head is accepted, and what follows it is what the body is read from. *)
Theorem C73_accepts : forall T bld (rd : reader T) t f first lines m u v h,
  endless rd t f -> good_request first lines m u v h -> head_bytes first lines = span f 0 (length (head_bytes first lines)) ->
  forall fuel, length (head_bytes first lines) + 1 < fuel ->
  exists b t', request_deserialize bld rd fuel t = (Ok (mkRequest m u v h b), t') /\ framed h t' b
    /\ endless rd t' (fun i => f (length (head_bytes first lines) + i)).
Proof.
  intros T bld rd t f first lines m u v h (R & HR & Ht) Hg Hf fuel Hl. set (k := length (head_bytes first lines)) in *.
  pose proof (request_head_lax _ (fun s : T => s) (fun s => s) (together f R (k + 1)) _ _
    (crlf_next_lax _ bld (fun s => s) (fun s => s) (together f R (k + 1)) _ _ (cut_lax rd f R HR (k + 1)) fuel) fuel) as HL.
  pose proof (lg_both _ _ _ _ _ _ _ _ _ HL t (t, span f 0 (k + 1))) as Hb.
  assert (Ht0 : together f R (k + 1) t (t, span f 0 (k + 1))).
  { split; auto. exists 0. split; [lia|]. auto. }
  specialize (Hb Ht0).
  rewrite some_request in Hb.
  assert (Hs : span f 0 (k + 1) = head_bytes first lines ++ span f k (k + 1)) by (rewrite (span_app f 0 k (k + 1)) by lia; now rewrite <- Hf).
  destruct (request_accepts_rel bld (cut (some rd)) _ fuel (t, span f 0 (k + 1)) first lines (map B (span f k (k + 1))) m u v h
    (cut_delivers rd f R HR) Hg) as (b & [t' x'] & E & Hfr & (_ & Hx)).
  { cbn [fst snd]. split; eauto. now rewrite <- map_app, <- Hs. }
  { rewrite app_length, !map_length, span_length. fold k. lia. }
  cbn [fst snd] in Hx. unfold request_deserialize in *.
  destruct (request_head _ fuel (t, span f 0 (k + 1))) as [r2 [s2 y2]]. cbn [fst snd] in Hb.
  assert (y2 = x' /\ s2 = t') as [-> ->] by (destruct r2; cbn [sbind] in E; now injection E).
  assert (Hxs : x' = span f k (k + 1)).
  { assert (Ho : span f k (k + 1) = [f k]) by (rewrite span_cons, Nat.add_1_r by lia; now rewrite span_nil).
    rewrite Ho in *. cbn [map] in Hx. destruct x' as [|c [|d x']]; cbn in Hx; try easy. now injection Hx as ->. }
  destruct (request_head _ fuel t) as [r1 s1]. cbn [fst snd] in Hb.
  destruct Hb as [[-> (Es & i & Hi & Hri & Hxi)]|Hq].
  - cbn [fst snd] in Es, Hxi. subst s1. rewrite Hxs in Hxi.
    assert (i = k) as ->. { apply (f_equal (@length byte)) in Hxi. rewrite !span_length in Hxi. lia. }
    destruct r2 as [hd|e| |]; cbn [sbind] in E; try easy. injection E as <- <- <- <- <-.
    eexists _, t'. split; [reflexivity|]. split; [apply (framed_with _ _ t') in Hfr; now rewrite with_reader_new in Hfr|].
    exists (fun s i => R s (k + i)). split; [|now rewrite Nat.add_0_r].
    intros n s i Hn Hs'. destruct (HR n s (k + i) Hn Hs') as (j & s2 & Hk & E2 & H2).
    exists (j - k), s2. split; [lia|]. rewrite span_shift. replace (k + (j - k)) with j by lia. auto.
  - exfalso. unfold apart in Hq. cbn [snd] in Hq. rewrite Hxs, span_cons in Hq by lia. easy.
Qed.
Print Assumptions C73_accepts.


(** A body that lasts until the connection closes has no end either: a consumer that reads until it is told so never stops. *)
Theorem C73_body : forall T bld (rd : reader T) t f fuel,
  endless rd t f ->
  (forall d o b', ~ drains (body_read bld rd fuel) (BTilClose t) d o b')
  /\ endless (body_read bld rd fuel) (BTilClose t) f.
Proof.
  intros T bld rd t f fuel (R & HR & Ht).
  assert (HE : endless_rel (body_read bld rd fuel) f (fun b i => exists t, b = BTilClose t /\ R t i)).
  { intros n b i Hn (t0 & -> & H). destruct (HR n t0 i Hn H) as (j & t1 & Hj & E & H1). cbn [body_read]. rewrite E. eauto 10. }
  split; [|eexists; split; [exact HE|cbn beta; eauto]].
  assert (HN : forall b d o b', drains (body_read bld rd fuel) b d o b' -> forall i, (exists t, b = BTilClose t /\ R t i) -> False).
  { induction 1 as [n s s' Hn E|n s e s' Hn E|n s got s' rest o s'' Hn E Hg Hd IH]; intros i Hi;
      destruct (HE n s i Hn Hi) as (j & s1 & Hj & E1 & H1); rewrite E in E1; try discriminate.
    - injection E1 as E1 _. rewrite span_cons in E1 by lia. discriminate.
    - injection E1 as _ <-. exact (IH j H1). }
  intros d o b' Hd. destruct (HN _ _ _ _ Hd 0). eauto.
Qed.
Print Assumptions C73_body.

Section Chunks.
  Context {T : Type} (bld : build) (rd : reader T) (f : nat -> byte) (R : T -> nat -> Prop) (HR : endless_rel rd f R).

  (** Nothing ends or spoils the body before any later position: a failure put there would be met. *)
  Definition goes_on (o : option N) (i : nat) : Prop :=
    forall m, i <= m -> exists out, decodes bld o (left f i m [Transport.E (IoError (KOther 0))]) out [].
  Definition goes_on_body (c : cbody T) : Prop :=
    match c with
    | CStream t => exists i, R t i /\ goes_on None i
    | CChunk lim t => exists i, R t i /\ goes_on (Some lim) i
    | CDone _ => False
    end.

  Lemma left_app i j m zs : i <= j <= m -> left f i m zs = map B (span f i j) ++ left f j m zs.
  Proof. intros H. now rewrite (span_app f i j m H), map_app, app_assoc. Qed.

  Lemma exact_endless : forall fuel n acc t i, R t i ->
    fst (read_exact bld rd fuel n acc t) = Fuel
    \/ exists x t', read_exact bld rd fuel n acc t = (Ok x, t') /\ R t' (i + n).
  Proof using HR.
    induction fuel as [|fu IH]; intros n acc t i H.
    - destruct n; [right; exists acc, t; now rewrite Nat.add_0_r|now left].
    - destruct n as [|n]; [right; exists acc, t; now rewrite Nat.add_0_r|]. cbn [read_exact].
      destruct (HR (S n) t i ltac:(lia) H) as (j & t' & Hj & E & H'). rewrite E.
      destruct (span f i j) eqn:Es; [rewrite span_cons in Es by lia; discriminate|]. rewrite <- Es, span_length.
      replace (j - i <=? S n) with true by (symmetry; apply Nat.leb_le; lia).
      destruct (IH (S n - (j - i)) (acc ++ span f i j) t' j H') as [Hf|(x & t2 & E2 & H2)]; [now left|].
      right. exists x, t2. split; auto. now replace (i + S n) with (j + (S n - (j - i))) by lia.
  Qed.

  Lemma items_exact_span : forall n acc xs l, length l = n -> exists x, items_exact bld n acc (map B l ++ xs) = (Ok x, xs).
  Proof using.
    induction n as [|n IH]; intros acc xs [|b l] Hl; cbn in Hl; try discriminate.
    - exists acc. cbn [map app]. now destruct xs.
    - cbn [items_exact map app]. apply IH. lia.
  Qed.

  Lemma chunked_goes_on : forall fuel n c, 0 < n -> goes_on_body c ->
    fst (chunked_read bld rd fuel n c) = Fuel
    \/ exists got c', chunked_read bld rd fuel n c = (Ok got, c') /\ got <> [] /\ goes_on_body c'.
  Proof using HR.
    induction fuel as [|fu IH]; intros n c Hn Hc; [now left|]. destruct c as [t|lim t|t]; cbn [goes_on_body] in Hc; [| |easy].
    - destruct Hc as (i & H & Hg). cbn [chunked_read].
      assert (Hh : fst (chunk_new bld rd (S fu) t) = Fuel \/ exists r t' j, chunk_new bld rd (S fu) t = (r, t') /\ i <= j /\ R t' j
        /\ forall m zs, j <= m -> chunk_head bld (left f i m zs) = (r, left f j m zs)).
      { unfold chunk_new, chunk_head. destruct (expect_endless bld rd f R HR (S fu) t i H) as [Hf|(r & t' & j & E & Hj & H' & Hi)].
        - left. destruct (expect_next _ t) as [[l|e| |] t']; cbn [fst] in Hf; easy.
        - right. rewrite E. exists (do l <- r; do size <- from_str_radix 16 u64_max l; Ok (if (size =? 0)%N then None else Some size)), t', j.
          split; [now destruct r|]. split; auto. split; auto.
          intros m zs Hm. unfold il in Hi. rewrite Hi by auto. now destruct r. }
      destruct Hh as [Hf|(r & t' & j & E & Hj & H' & Hi)].
      { left. destruct (chunk_new bld rd (S fu) t) as [[[l|]|e| |] t']; cbn [fst] in Hf; easy. }
      rewrite E.
      assert (Hs : exists size, r = Ok (Some size) /\ goes_on (Some size) j).
      { pose proof (Hg j Hj) as [out Hd]. inversion Hd; subst; rewrite Hi in H0 by auto; injection H0 as -> E2; rewrite ?span_nil in *; cbn in E2; try discriminate.
        eexists. split; [reflexivity|]. intros m Hm. destruct (Hg m ltac:(lia)) as [out2 Hd2].
        inversion Hd2; subst; rewrite Hi in H0 by auto; try discriminate. injection H0 as -> <-. eauto. }
      destruct Hs as (size & -> & Hsz). apply IH; auto. cbn. eauto.
    - destruct Hc as (i & H & Hg). cbn [chunked_read]. unfold take_read. destruct (N.eqb_spec lim 0) as [->|Hl].
      + destruct (exact_endless (S fu) 2 [] t i H) as [Hf|(x & t' & E & H')].
        { left. destruct (read_exact bld rd (S fu) 2 [] t) as [[l|e| |] t']; cbn [fst] in Hf; easy. }
        rewrite E. apply IH; auto. cbn. exists (i + 2). split; auto. intros m Hm.
        destruct (Hg m ltac:(lia)) as [out Hd]. rewrite (left_app i (i + 2) m) in Hd by lia.
        destruct (items_exact_span 2 [] (left f (i + 2) m [Transport.E (IoError (KOther 0))]) (span f i (i + 2))) as [y Hy];
          [rewrite span_length; lia|].
        inversion Hd; subst; try congruence.
        match goal with He : items_exact _ _ _ _ = (Ok _, _) |- _ => rewrite Hy in He; injection He as <- <-; eauto end.
      + set (k := N.to_nat (N.min (N.of_nat n) lim)). assert (Hk : 0 < k /\ (N.of_nat k <= lim)%N) by (unfold k; lia).
        destruct (HR k t i ltac:(lia) H) as (j & t' & Hj & E & H'). rewrite E, span_length.
        replace (N.of_nat (j - i) <=? lim)%N with true by (symmetry; apply N.leb_le; lia).
        right. destruct (span f i j) eqn:Es; [rewrite span_cons in Es by lia; discriminate|]. rewrite <- Es. eexists _, _. split; [reflexivity|].
        split; [rewrite span_cons by lia; easy|]. cbn. exists j. split; auto. intros m Hm. destruct (Hg m ltac:(lia)) as [out Hd].
        rewrite (left_app i j m) in Hd by lia. destruct (decodes_chunk_app bld lim (span f i j) _ out [] ltac:(rewrite span_length; lia) Hd) as (out' & _ & Hd').
        rewrite span_length in Hd'. eauto.
  Qed.
End Chunks.

(** A body of endlessly many chunks has no end either. *)
Theorem C73_chunks : forall T bld (rd : reader T) t f len fuel,
  endless rd t f -> (forall n, exists p, partial_wire p (span f 0 n)) ->
  forall d o b', ~ drains (body_read bld rd fuel) (BChunked len (CStream t)) d o b'.
Proof.
  intros T bld rd t f len fuel (R & HR & Ht) Hp.
  assert (HN : forall b d o b', drains (body_read bld rd fuel) b d o b' ->
    forall c, b = BChunked len c -> goes_on_body bld f R c -> False).
  { induction 1 as [n s s' Hn E|n s e s' Hn E|n s got s' rest o s'' Hn E Hg Hd IH]; intros c -> Hc;
      cbn [body_read] in E; destruct (chunked_goes_on bld rd f R HR fuel n c Hn Hc) as [Hf|(got' & c' & E' & Hne & Hc')];
      try (destruct (chunked_read bld rd fuel n c) as [x y]; cbn [fst] in Hf; subst x; discriminate);
      rewrite E' in E; injection E as; subst; try easy.
    - eapply IH; eauto. }
  intros d o b' Hd. eapply HN; eauto. cbn. exists 0. split; auto. intros m Hm. destruct (Hp m) as [p Hpm].
  destruct (partial_fail bld p _ (IoError (KOther 0)) [] Hpm) as (e' & _ & Hd'); [now destruct bld|]. eauto.
Qed.
Print Assumptions C73_chunks.

(** Streams for examples: a given beginning, then one byte for ever; read as fast as asked. *)
Definition beginning (p : bytes) (b : byte) : nat -> byte := fun i => nth i p b.
Definition stream_read (f : nat -> byte) : reader nat := fun n i => (Ok (span f i (i + n)), i + n).
Lemma stream_endless f : endless (stream_read f) 0 f.
Proof.
  exists (fun s i => s = i). split; auto. intros n s i Hn ->. exists (i + n), (i + n). split; [lia|]. auto.
Qed.
Lemma beginning_end b : forall n, span (beginning [] b) 0 n = repeat b n.
Proof.
  induction n as [|n IH]; [reflexivity|]. rewrite span_cons by lia. cbn [repeat].
  f_equal. rewrite <- IH. change 1 with (1 + 0) at 1. change (S n) with (1 + n). rewrite <- span_shift.
  unfold span. apply map_ext. intros a. now destruct a.
Qed.
Lemma beginning_span b : forall p n m, n <= m -> exists z, p ++ repeat b m = span (beginning p b) 0 n ++ z.
Proof.
  induction p as [|x p IH]; intros n m Hn.
  - exists (repeat b (m - n)). cbn [app]. rewrite beginning_end, <- repeat_app. f_equal. lia.
  - destruct n as [|n]; [exists ((x :: p) ++ repeat b m); reflexivity|].
    destruct (IH n m ltac:(lia)) as [z Hz]. exists z. cbn [app]. rewrite Hz, (span_cons (beginning (x :: p) b)) by lia. cbn [app]. f_equal. f_equal.
    change 1 with (1 + 0). change (S n) with (1 + n). rewrite <- span_shift. reflexivity.
Qed.
Lemma beginning_all p b : span (beginning p b) 0 (length p) = p.
Proof.
  destruct (beginning_span b p (length p) (length p) ltac:(lia)) as [z Hz].
  apply (f_equal (firstn (length p))) in Hz. rewrite firstn_app, Nat.sub_diag, firstn_all, app_nil_r in Hz.
  rewrite firstn_app, span_length, Nat.sub_0_r, Nat.sub_diag, app_nil_r in Hz. rewrite firstn_all2 in Hz by (rewrite span_length; lia).
  now symmetry.
Qed.

(** A header line that goes on for ever. *)
Definition C73_first : bytes := bs "GET / HTTP/1.1".
Definition C73_stream : nat -> byte := beginning (C73_first ++ CRLF ++ bs "a: ") x61.
Lemma C73_line l : l <> [] -> forallb (fun b => bval b <? 128)%N l = true -> ~ In CR l -> text_line l.
Proof. intros A1 A2 A3. split; auto. split; [now apply no_cr_no_crlf|]. now apply utf8_bs_ascii. Qed.
Lemma C73_good n : exists h, good_request C73_first [bs "a: " ++ repeat x61 n] Get (bs "/") (mkVersion 1 1) h.
Proof.
  assert (T1 : text_line C73_first) by (apply C73_line; try reflexivity; cbn; intuition easy).
  assert (T2 : text_line (bs "a: " ++ repeat x61 n)).
  { apply C73_line; [easy| |].
    - rewrite forallb_app. apply andb_true_iff. split; [reflexivity|]. induction n; cbn; auto.
    - rewrite in_app_iff. intros [H|H]; [vm_compute in H; intuition easy|]. apply repeat_spec in H. easy. }
  exists (headers_from [(bs "a", repeat x61 n)]). split; auto. split; auto.
  split; [apply request_line_meaning; [apply T1|reflexivity]|]. split.
  - exists [bs "a: " ++ repeat x61 n], [(bs "a", repeat x61 n)]. split; [|split; auto].
    + replace [bs "a: " ++ repeat x61 n] with ([(bs "a: " ++ repeat x61 n) ++ concat []]) at 2 by (cbn [concat]; now rewrite app_nil_r).
      change (folded ((bs "a: " ++ repeat x61 n) :: [] ++ []) [(bs "a: " ++ repeat x61 n) ++ concat []]). constructor; try easy. constructor.
    + constructor; auto. exists (bs "a"), (repeat x61 n). repeat split; auto. intros H. vm_compute in H. intuition easy.
  - intros w Hw. vm_compute in Hw. easy.
Qed.

(** The same chunk again and again. *)
Definition C73_chunk : bytes := bs "1" ++ CRLF ++ bs "a" ++ CRLF.
Definition C73_chunks_stream : nat -> byte := fun i => nth (i mod 6) C73_chunk x00.
Lemma C73_chunks_partial : forall n, exists p, partial_wire p (span C73_chunks_stream 0 n).
Proof.
  assert (Hs : size_line (bs "1") (N.of_nat (length (bs "a")))) by (apply size_line_radix; reflexivity).
  intros n. induction n as [n IH] using (well_founded_induction lt_wf). destruct (Nat.lt_ge_cases n 6) as [Hn|Hn].
  - clear IH. destruct n as [|[|[|[|[|[|n]]]]]]; try lia;
      eexists; match goal with |- partial_wire _ ?w => let w' := eval vm_compute in w in change w with w' end.
    1-3: apply pw_line; intros (u & v & E); do 3 (destruct u as [|? u]; try discriminate).
    + now apply (pw_data (bs "1") 1 [] Hs).
    + apply (pw_close (bs "1") (bs "a") []); auto; easy.
    + apply (pw_close (bs "1") (bs "a") [CR]); auto; easy.
  - destruct (IH (n - 6) ltac:(lia)) as [p Hp]. exists (bs "a" ++ p).
    replace (span C73_chunks_stream 0 n) with (bs "1" ++ CRLF ++ bs "a" ++ [CR; LF] ++ span C73_chunks_stream 0 (n - 6)).
    + now apply pw_chunk.
    + rewrite (span_app C73_chunks_stream 0 6 n) by lia. change (span C73_chunks_stream 0 6) with C73_chunk. unfold C73_chunk, CRLF. rewrite <- !app_assoc. do 4 f_equal.
      replace n with (6 + (n - 6)) at 2 by lia. change 6 with (6 + 0) at 2. rewrite <- span_shift. unfold span. apply map_ext. intros i.
      unfold C73_chunks_stream. f_equal. rewrite Nat.add_comm. replace (i + 6) with (i + 1 * 6) by lia. now rewrite Nat.mod_add.
Qed.

Example C73_case :
  (forall n, exists first lines m u v h z, good_request first lines m u v h /\ head_bytes first lines = span C73_stream 0 n ++ z)
  /\ (forall n, no_crlf (span (beginning [] x61) 0 n))
  /\ endless (stream_read C73_stream) 0 C73_stream
  /\ (forall fuel, exists s', serve_one Std 8 (stream_read C73_stream) (mkWriter (fun d s => (Ok (length d), s)) (fun s => (Ok tt, s)))
        (fun _ _ => []) (@default_handler unit) 4 fuel tt (Ok 0) = (Fuel, [], tt, Some s'))
  /\ (forall n, exists p, partial_wire p (span C73_chunks_stream 0 n))
  /\ (forall fuel d o b', ~ drains (body_read Std (stream_read C73_chunks_stream) fuel) (BChunked None (CStream 0)) d o b')
  /\ fst (body_read Std (stream_read C73_chunks_stream) 10 5 (BChunked None (CStream 0))) = Ok (bs "a")
  /\ (forall fuel, 20 < fuel -> exists b t',
        request_deserialize Std (stream_read (beginning (head_bytes C73_first []) x30)) fuel 0
        = (Ok (mkRequest Get (bs "/") (mkVersion 1 1) [] b), t')).
Proof.
  assert (H1 : forall n, exists first lines m u v h z, good_request first lines m u v h /\ head_bytes first lines = span C73_stream 0 n ++ z).
  { intros n. destruct (C73_good n) as [h Hg]. destruct (beginning_span x61 (C73_first ++ CRLF ++ bs "a: ") n n ltac:(lia)) as [z Hz].
    exists C73_first, [bs "a: " ++ repeat x61 n], Get, (bs "/"), (mkVersion 1 1), h, (z ++ CRLF ++ CRLF). split; auto.
    unfold C73_stream. rewrite app_assoc, <- Hz. unfold head_bytes, wire_lines. cbn [flat_map]. now rewrite app_nil_r, <- !app_assoc. }
  split; [exact H1|]. split.
  { intros n. rewrite beginning_end. apply no_cr_no_crlf. intros H. apply repeat_spec in H. easy. }
  split; [apply stream_endless|]. split.
  - intros fuel. eapply C73_serve; [apply stream_endless|]. now left.
  - split; [exact C73_chunks_partial|]. split; [|split; [vm_compute; reflexivity|]].
    { intros fuel. eapply C73_chunks; [apply stream_endless|exact C73_chunks_partial]. }
    intros fuel Hf. set (f := beginning (head_bytes C73_first []) x30).
    destruct (C73_accepts _ Std (stream_read f) 0 f C73_first [] Get (bs "/") (mkVersion 1 1) []) with (fuel := fuel) as (b & t' & E & _).
    + apply stream_endless.
    + split; [apply C73_line; try reflexivity; cbn; intuition easy|]. split; auto.
      split; [apply request_line_meaning; [apply C73_line; try reflexivity; cbn; intuition easy|reflexivity]|]. split.
      * exists [], []. repeat split; constructor.
      * intros w Hw. easy.
    + unfold f. now rewrite beginning_all.
    + cbn. lia.
    + eauto.
Qed.
