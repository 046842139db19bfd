(** C16 for whole messages: exactly which incoming bytes make the parser panic. *)
From Verif Require Import Base Utf8 Case Num Io Parser Types Message Transport Lemmas ReadLemmas NumLemmas
  Utf8Lemmas BodyLemmas ParserLemmas CaseLemmas TypesLemmas HeadLemmas BlockLemmas MsgLemmas PParse PHead.

(** A version token on which [HttpVersion::from_str] panics: a non-ASCII character straddles byte 5, or is where
    "/"'s successor, the dot or the second digit should be. *)
Definition bad_version (s : bytes) : Prop :=
  exists a n b, s = a ++ encode_char n ++ b /\ scalar n = true /\ (128 <= n)%N
    /\ ((length a < 5 /\ 5 < length a + length (encode_char n))
        \/ a = bs "HTTP/"
        \/ (exists d, (48 <= bval d <= 57)%N /\ a = bs "HTTP/" ++ [d])
        \/ (exists d, (48 <= bval d <= 57)%N /\ a = bs "HTTP/" ++ [d] ++ bs ".")).

(** A request line with a known method whose third token is such a version; a status line that starts with one. *)
Definition bad_request_line (first : bytes) : Prop :=
  exists m t1 w1 r1 u w2 r2 t3 w3 r3,
    token_split first t1 w1 r1 /\ token_split r1 u w2 r2 /\ token_split r2 t3 w3 r3
    /\ to_uppercase t1 = show_method m /\ bad_version t3.
Definition bad_status_line (first : bytes) : Prop :=
  exists t1 w1 r1, token_split first t1 w1 r1 /\ bad_version t1.

(** The input starts with a good first line and header lines of which the last one, with the continuation lines
    that have arrived for it, is the first bad one. The input need not go on: neither the end of the header block
    nor even the line after the bad one has to arrive. *)
Definition bad_header_block (lines : list bytes) : Prop :=
  exists oks hs bad, folded lines (oks ++ [bad]) /\ Forall2 header_of oks hs /\ bad_colon bad.

Lemma bad_version_panics s : is_utf8 s -> (parse_version s = Panic <-> bad_version s).
Proof. intros H. now apply C16_version_panics_iff. Qed.
Lemma bad_version_nonempty s : bad_version s -> s <> [].
Proof.
  intros (a & n & b & -> & _ & _ & H) E. apply app_eq_nil in E as [-> E]. apply app_eq_nil in E as [E _]. rewrite E in H.
  destruct H as [[_ H]|[H|[(d & _ & H)|(d & _ & H)]]]; try easy; cbn in H; lia.
Qed.

Lemma req_line_panics line : is_utf8 line -> (req_line line = Panic <-> bad_request_line line).
Proof.
  intros Hu. split.
  - unfold req_line.
    destruct (parse_token_cases _ _ _ (reading_new _ Hu)) as [(t1 & w1 & r1 & p1 & pre1 & S1 & N1 & E1 & R1 & U1)|[_ E1]];
      rewrite E1; cbn [sbind fst]; [|easy].
    destruct (parse_method_total t1) as [[m Em]|Em]; rewrite Em; [|easy].
    destruct (parse_token_cases _ _ _ R1) as [(t2 & w2 & r2 & p2 & pre2 & S2 & N2 & E2 & R2 & U2)|[_ E2]];
      rewrite E2; cbn [sbind fst]; [|easy].
    destruct (parse_token_cases _ _ _ R2) as [(t3 & w3 & r3 & p3 & pre3 & S3 & N3 & E3 & R3 & U3)|[_ E3]];
      rewrite E3; cbn [sbind fst]; [|easy].
    intros H. exists m, t1, w1, r1, t2, w2, r2, t3, w3, r3. repeat (split; [auto; fail|]). split; [now apply parse_method_ok|].
    apply bad_version_panics; auto. now destruct (parse_version t3).
  - intros (m & t1 & w1 & r1 & u & w2 & r2 & t3 & w3 & r3 & S1 & S2 & S3 & M & V).
    assert (N3 : r2 <> []). { intros ->. apply bad_version_nonempty in V. destruct S3 as (E & _). now destruct t3. }
    assert (N2 : r1 <> []). { intros ->. destruct S2 as (E & _). destruct u; [|easy]. now destruct w2, r2. }
    assert (N1 : line <> []). { intros ->. destruct S1 as (E & _). destruct t1; [|easy]. now destruct w1, r1. }
    unfold req_line.
    destruct (split_utf8 _ _ _ _ S1 Hu) as [_ U1]. destruct (split_utf8 _ _ _ _ S2 U1) as [_ U2].
    destruct (split_utf8 _ _ _ _ S3 U2) as [U3 _].
    destruct (parse_token_spec _ _ _ _ _ _ (reading_new _ Hu) N1 S1) as (p1 & E1 & R1). rewrite E1. cbn [sbind].
    apply parse_method_ok in M. rewrite M.
    destruct (parse_token_spec _ _ _ _ _ _ R1 N2 S2) as (p2 & E2 & R2). rewrite E2. cbn [sbind].
    destruct (parse_token_spec _ _ _ _ _ _ R2 N3 S3) as (p3 & E3 & R3). rewrite E3. cbn [sbind].
    apply bad_version_panics in V; auto. now rewrite V.
Qed.

Lemma resp_line_panics line : is_utf8 line -> (resp_line line = Panic <-> bad_status_line line).
Proof.
  intros Hu. split.
  - intros H. destruct (resp_line_spec line Hu) as [(v & st & t1 & w1 & r1 & _ & _ & _ & _ & E)|[[e E]|[_ (t1 & w1 & r1 & S & U & V)]]];
      [congruence..|]. exists t1, w1, r1. split; auto. now apply bad_version_panics.
  - intros (t1 & w1 & r1 & S1 & V). unfold resp_line.
    assert (N1 : line <> []). { intros ->. apply bad_version_nonempty in V. destruct S1 as (E & _). now destruct t1. }
    destruct (parse_token_spec _ _ _ _ _ _ (reading_new _ Hu) N1 S1) as (p1 & E1 & R1). rewrite E1. cbn [sbind].
    destruct (split_utf8 _ _ _ _ S1 Hu) as [U1 _]. apply bad_version_panics in V; auto. now rewrite V.
Qed.

(** ** The header loop *)
(** Whatever the continuation loop does, it has appended lines that start with a blank. *)
Lemma cont_loop_split bld fuel : forall line xs line' pk xs',
  cont_loop (il bld) fuel line xs = (line', pk, xs') ->
  exists conts cx mid, xs = cx ++ mid ++ xs' /\ Forall text_line conts /\ Forall blank_first conts
    /\ noisy bld (wire_lines conts) cx /\ line' = line ++ concat conts
    /\ pk <> Some Panic
    /\ (forall l, pk = Some (Ok (Some l)) -> text_line l /\ ~ blank_first l /\ noisy bld (l ++ CRLF) mid).
Proof.
  induction fuel as [|f IH]; intros line xs line' pk xs' H; cbn [cont_loop] in H.
  { injection H as <- <- <-. exists [], [], []. cbn [app concat]. rewrite app_nil_r. split; auto.
    repeat (split; [constructor|]). split; easy. }
  pose proof (il_not_fuel bld xs) as [_ Hnp]. destruct (items_line_suffix bld xs []) as [mid Hm]. fold (il bld) in Hm.
  destruct (il bld xs) as [r ys] eqn:E. cbn [fst snd] in Hnp, Hm.
  assert (Hstop : (line, Some r, ys) = (line', pk, xs') -> (forall l, r <> Ok (Some l)) ->
    exists conts cx mid, xs = cx ++ mid ++ xs' /\ Forall text_line conts /\ Forall blank_first conts
    /\ noisy bld (wire_lines conts) cx /\ line' = line ++ concat conts
    /\ pk <> Some Panic
    /\ (forall l, pk = Some (Ok (Some l)) -> text_line l /\ ~ blank_first l /\ noisy bld (l ++ CRLF) mid)).
  { intros H' Hr. injection H' as <- <- <-. exists [], [], mid. cbn. rewrite app_nil_r. split; auto.
    repeat (split; [constructor|]). split; [congruence|]. intros l [= ->]. now destruct (Hr l). }
  destruct r as [[l|]|e| |]; try (apply Hstop; [exact H|easy]).
  clear Hstop. pose proof (il_consumed _ _ _ _ E) as (line0 & cx & -> & Hn & Hc & Hr & _).
  apply line_result_some in Hr as (-> & Hne & Hu). assert (Ht : text_line l) by (repeat split; auto).
  destruct (starts_blank l) eqn:Eb.
  - apply IH in H as (conts & cx2 & mid' & -> & H1 & H2 & H3 & -> & H4 & H5).
    exists (l :: conts), (cx ++ cx2), mid'. rewrite <- !app_assoc. split; auto.
    split; [now constructor|]. split; [constructor; auto; now apply starts_blank_true|].
    rewrite wire_lines_cons, (app_assoc l). split; [now apply noisy_app|]. split; auto.
  - injection H as <- <- <-. exists [], [], cx. cbn [app concat]. rewrite app_nil_r. split; auto.
    repeat (split; [constructor|]). split; [easy|]. intros l' [= <-]. split; auto. split; auto.
    now apply starts_blank_false.
Qed.

Definition peeked_line (pk : peeked) : list bytes := match pk with Some (Ok (Some l)) => [l] | _ => [] end.

Lemma headers_loop_panics bld fuel : forall acc pk xs ys,
  headers_loop (il bld) fuel acc pk xs = (Panic, ys) -> pk <> Some Panic -> Forall text_line (peeked_line pk) ->
  exists hx zs lines oks hs bad, xs = hx ++ zs /\ Forall text_line lines /\ noisy bld (wire_lines lines) hx
    /\ folded (peeked_line pk ++ lines) (oks ++ [bad]) /\ Forall2 (fun l h => header_deserialize l = Ok h) oks hs
    /\ header_deserialize bad = Panic.
Proof.
  induction fuel as [|f IH]; intros acc pk xs ys H Hpk Hpt; [easy|].
  unfold headers_loop in H; fold (headers_loop (il bld)) in H.
  destruct (pk_next (il bld) pk xs) as [r xs1] eqn:E.
  assert (H1 : forall l, r = Ok (Some l) -> exists ls1 cx1, xs = cx1 ++ xs1 /\ noisy bld (wire_lines ls1) cx1
                 /\ peeked_line pk ++ ls1 = [l] /\ Forall text_line ls1).
  { intros l ->. destruct pk as [pr|]; cbn [pk_next] in E.
    - injection E as -> ->. exists [], []. repeat split; auto; constructor.
    - apply il_consumed in E as (line0 & cx & -> & Hn1 & Hc & Hr & _).
      apply line_result_some in Hr as (-> & Hne & Hu). exists [l], cx. repeat split; auto.
      + unfold wire_lines. cbn [flat_map]. now rewrite app_nil_r.
      + constructor; auto. repeat split; auto. }
  destruct r as [[l|]|e| |]; try easy.
  2:{ exfalso. destruct pk as [pr|]; cbn [pk_next] in E; [injection E as -> ->; easy|].
      pose proof (il_not_fuel bld xs) as [_ Hnp]. rewrite E in Hnp. easy. }
  destruct (H1 l eq_refl) as (ls1 & cx1 & -> & Hn1 & Hl1 & Ht1). clear H1.
  destruct (cont_loop (il bld) (S f) l xs1) as [[line' pk'] xs2] eqn:Ec.
  pose proof (cont_loop_pk _ _ _ _ _ _ _ Ec) as C6.
  apply cont_loop_split in Ec as (conts & cx & mid & -> & C1 & C2 & C3 & -> & C4 & C5).
  assert (Hok : pk_ok pk' \/ pk' = Some Fuel).
  { destruct pk' as [[x|x| |]|]; auto; try (left; now split); easy. }
  destruct Hok as [Hok| ->]; [rewrite (pk_guard _ _ _ _ Hok) in H|easy].
  destruct (header_deserialize (l ++ concat conts)) as [h| | |] eqn:Eh; try easy.
  - destruct pk' as [[[l'|]|e| |]|]; try (now destruct f).
    + destruct (C5 l' eq_refl) as (T & Bf & Hmid).
      apply IH in H as (hx & zs & lines & oks & hs & bad & -> & Hl & Hn & Hf & Ho & Hb); [|easy|cbn; auto].
      cbn [peeked_line app] in Hf.
      exists (cx1 ++ cx ++ mid ++ hx), zs, (ls1 ++ conts ++ l' :: lines), ((l ++ concat conts) :: oks), (h :: hs), bad.
      split; [now rewrite <- !app_assoc|].
      split; [apply Forall_app; split; auto; apply Forall_app; split; auto|].
      split; [rewrite !wire_lines_app, wire_lines_cons, (app_assoc l'); repeat (apply noisy_app; auto)|].
      split; [|split; auto]. rewrite app_assoc, Hl1. cbn [app]. constructor; auto. intros ? ? [= <- <-]. auto.
  - exists (cx1 ++ cx), (mid ++ xs2), (ls1 ++ conts), [], [], (l ++ concat conts).
    split; [now rewrite <- !app_assoc|]. split; [now apply Forall_app|].
    split; [rewrite wire_lines_app; now apply noisy_app|]. split; [|split; auto].
    rewrite app_assoc, Hl1. cbn [app]. rewrite <- (app_nil_r conts) at 1. constructor; auto; [easy|constructor].
Qed.

(** The converse. *)
Lemma cont_loop_next bld conts : forall fuel line l t zs hx,
  Forall text_line (conts ++ l :: t) -> Forall blank_first conts -> ~ blank_first l -> length conts < fuel ->
  noisy bld (wire_lines (conts ++ l :: t)) hx ->
  exists hx', cont_loop (il bld) fuel line (hx ++ zs) = (line ++ concat conts, Some (Ok (Some l)), hx' ++ zs)
    /\ noisy bld (wire_lines t) hx'.
Proof.
  induction conts as [|c conts IH]; intros fuel line l t zs hx Ht Hb Hr Hf Hx;
    (destruct fuel as [|f]; [simpl in Hf; lia|]); cbn [cont_loop app concat] in *;
    rewrite wire_lines_cons in Hx; inversion Ht as [|? ? Hl Ht']; subst.
  - rewrite app_nil_r. destruct (il_found bld l _ hx zs (proj1 (proj2 Hl)) Hx) as (hx' & -> & H' & Hs).
    rewrite (line_result_text l Hl).
    replace (starts_blank l) with false by (symmetry; now apply starts_blank_false). eauto.
  - inversion Hb as [|? ? Hc Hb']; subst.
    destruct (il_found bld c _ hx zs (proj1 (proj2 Hl)) Hx) as (hx' & -> & H' & Hs). rewrite (line_result_text c Hl).
    rewrite (proj2 (starts_blank_true c) Hc).
    destruct (IH f (line ++ c) l t zs hx') as (hx'' & -> & H3); auto; [simpl in Hf; lia|].
    exists hx''. now rewrite app_assoc.
Qed.

Lemma cont_loop_more bld conts : forall fuel line zs hx,
  Forall text_line conts -> Forall blank_first conts -> length conts < fuel -> noisy bld (wire_lines conts) hx ->
  exists ext pk xs', cont_loop (il bld) fuel line (hx ++ zs) = (line ++ concat conts ++ ext, pk, xs') /\ is_utf8 ext.
Proof.
  induction conts as [|c conts IH]; intros fuel line zs hx Ht Hb Hf Hx.
  - destruct (cont_loop (il bld) fuel line (hx ++ zs)) as [[line' pk'] xs2] eqn:Ec.
    apply cont_loop_split in Ec as (conts & cx & mid & _ & C1 & _ & _ & -> & _).
    exists (concat conts), pk', xs2. split; auto. apply utf8_concat. now apply text_utf8.
  - destruct fuel as [|f]; [simpl in Hf; lia|]. cbn [cont_loop app concat] in *.
    rewrite wire_lines_cons in Hx; inversion Ht as [|? ? Hl Ht']; subst. inversion Hb as [|? ? Hc Hb']; subst.
    destruct (il_found bld c _ hx zs (proj1 (proj2 Hl)) Hx) as (hx' & -> & H' & Hs). rewrite (line_result_text c Hl).
    rewrite (proj2 (starts_blank_true c) Hc).
    destruct (IH f (line ++ c) zs hx') as (ext & pk & xs' & -> & H3); auto; [simpl in Hf; lia|].
    exists ext, pk, xs'. split; auto. now rewrite <- !app_assoc.
Qed.

Lemma noisy_length bld d h : noisy bld d h -> length d <= length h.
Proof. induction 1; simpl; lia. Qed.
Lemma wire_lines_length ls : length ls <= length (wire_lines ls).
Proof. induction ls as [|a ls IHl]; [simpl; lia|]. rewrite wire_lines_cons, !app_length. simpl. lia. Qed.

Lemma headers_loop_bad bld lines logical : folded lines logical ->
  forall oks bad hs fuel acc zs pk hx rest, logical = oks ++ [bad] -> Forall text_line lines ->
  Forall2 (fun l h => header_deserialize l = Ok h) oks hs ->
  (forall ext, is_utf8 ext -> header_deserialize (bad ++ ext) = Panic) ->
  length (hx ++ zs) + pk_size pk < fuel ->
  pk = None \/ (exists l, pk = Some (Ok (Some l))) -> lines = peeked_line pk ++ rest -> noisy bld (wire_lines rest) hx ->
  fst (headers_loop (il bld) fuel acc pk (hx ++ zs)) = Panic.
Proof.
  induction 1 as [|l conts rlines logical Hc Hr Hfold IH]; intros oks bad hs fuel acc zs pk hx rest Hlo Ht Hok Hbad Hf Hpk Hli Hn;
    [now destruct oks|].
  destruct fuel as [|f]; [lia|]. inversion Ht as [|? ? Hl Ht']; subst.
  assert (Hstart : exists hx', pk_next (il bld) pk (hx ++ zs) = (Ok (Some l), hx' ++ zs)
      /\ noisy bld (wire_lines (conts ++ rlines)) hx' /\ length (hx' ++ zs) < length (hx ++ zs) + pk_size pk).
  { destruct Hpk as [->|[l' ->]]; cbn [pk_next peeked_line app] in *.
    - subst rest. rewrite wire_lines_cons in Hn.
      destruct (il_found bld l _ hx zs (proj1 (proj2 Hl)) Hn) as (hx' & E & H' & _).
      rewrite (line_result_text l Hl) in E. exists hx'. split; auto. split; auto. apply il_lt in E. lia.
    - injection Hli as -> <-. exists hx. split; auto. split; auto. cbn. lia. }
  destruct Hstart as (hx1 & E & Hn1 & Hlt).
  unfold headers_loop; fold (headers_loop (il bld)). rewrite E.
  assert (Hlen : length conts < S f).
  { pose proof (noisy_length _ _ _ Hn1) as H1. rewrite wire_lines_app, app_length in H1.
    pose proof (wire_lines_length conts). rewrite !app_length in *. lia. }
  destruct rlines as [|l2 t].
  - inversion Hfold; subst. destruct oks as [|ok oks]; [|cbn in Hlo; injection Hlo as _ Hlo; now destruct oks].
    cbn in Hlo. injection Hlo as <-. rewrite app_nil_r in *.
    destruct (cont_loop_more bld conts (S f) l zs hx1) as (ext & pk' & xs' & Ec & Hu); auto.
    destruct (cont_loop_fuel bld (S f) (S f) l (hx1 ++ zs) ltac:(lia) ltac:(lia)) as (_ & Hp & _).
    rewrite Ec in *. cbn [fst snd] in Hp. rewrite (pk_guard _ _ _ _ Hp).
    rewrite app_assoc, Hbad by auto. reflexivity.
  - destruct oks as [|ok oks]; [cbn in Hlo; injection Hlo as _ ->; inversion Hfold|].
    cbn [app] in Hlo. injection Hlo as <- ->. inversion Hok as [|? h ? hs' Hh Hok']; subst.
    destruct (cont_loop_next bld conts (S f) l l2 t zs hx1) as (hx2 & Ec & Hn2); eauto.
    rewrite Ec, Hh. apply (IH oks bad hs' f (acc ++ [h]) zs (Some (Ok (Some l2))) hx2 t); eauto.
    + apply Forall_app in Ht'. tauto.
    + destruct (cont_loop_fuel bld (S f) (S f) l (hx1 ++ zs) ltac:(lia) ltac:(lia)) as (_ & _ & _ & Hl2).
      rewrite Ec in Hl2. cbn [fst snd] in Hl2. specialize (Hl2 l2 eq_refl). cbn [pk_size]. lia.
Qed.

Lemma bad_colon_more bad ext : is_utf8 bad -> is_utf8 ext -> bad_colon bad -> header_deserialize (bad ++ ext) = Panic.
Proof.
  intros Hb He (key & n & r & B1 & B2 & B3 & ->). apply header_deserialize_panics.
  - rewrite is_utf8_valid in *. now apply valid_app.
  - exists key, n, (encode_char n), (r ++ ext). split; auto. split; [repeat split; auto|]. rewrite <- !app_assoc. cbn [app].
    now rewrite <- app_assoc.
Qed.

Lemma hdrs_panics bld xs : fst (hdrs_of bld xs) = Panic <->
  exists lines hx zs, xs = hx ++ zs /\ noisy bld (wire_lines lines) hx /\ Forall text_line lines /\ bad_header_block lines.
Proof.
  unfold hdrs_of, headers_deserialize. split.
  - destruct (headers_loop _ _ _ _ _) as [r ys] eqn:E. cbn [fst]. intros ->.
    apply headers_loop_panics in E as (hx & zs & lines & oks & hs & bad & -> & Hl & Hn & Hf & Ho & Hb); [|easy|constructor].
    cbn [peeked_line app] in Hf. pose proof (folded_utf8 _ _ Hf (text_utf8 _ Hl)) as Hu. apply Forall_app in Hu as [Hu1 Hu2].
    inversion Hu2 as [|? ? Hub _]; subst.
    exists lines, hx, zs. repeat (split; [auto; fail|]). exists oks, hs, bad. split; auto. split.
    + clear -Ho Hu1. induction Ho as [|l h oks hs H Ho IH]; [constructor|]. apply Forall_cons_iff in Hu1 as [Hu Hu1].
      constructor; auto.
      destruct (header_deserialize_cases l Hu) as [(k & v & H1 & H2 & H3)|[(k & n & c & r & _ & _ & _ & H3)|(e & H3 & _)]];
        rewrite H3 in H; try easy. injection H as <-. exists k, v. auto.
    + apply header_deserialize_panics in Hb as (k & n & c & r & H1 & (H2 & H3 & ->) & H4); auto. exists k, n, r. auto.
  - intros (lines & hx & zs & -> & Hn & Hl & oks & hs & bad & Hf & Ho & Hb).
    pose proof (folded_utf8 _ _ Hf (text_utf8 _ Hl)) as Hu. apply Forall_app in Hu as [Hu1 Hu2]. inversion Hu2 as [|? ? Hub _]; subst.
    apply (headers_loop_bad bld lines _ Hf oks bad hs _ [] zs None hx lines); auto.
    + clear -Ho Hu1. induction Ho as [|l h oks hs (k & v & H & -> & ->) Ho IH]; constructor; inversion Hu1; subst; auto.
      now apply header_deserialize_ok.
    + intros ext He. now apply bad_colon_more.
    + cbn. lia.
Qed.

(** ** Whole messages *)
(** What has arrived when the parser panics: complete lines, of which the last one is to blame. *)
Definition arrived (bld : build) (first : bytes) (lines : list bytes) (xs : list item) : Prop :=
  exists hx zs, xs = hx ++ zs /\ noisy bld (wire_lines (first :: lines)) hx /\ Forall text_line (first :: lines).

Lemma first_found bld first lines hx zs : noisy bld (wire_lines (first :: lines)) hx -> text_line first ->
  exists hx', expect_next (il bld) (hx ++ zs) = (Ok first, hx' ++ zs) /\ noisy bld (wire_lines lines) hx'.
Proof.
  intros Hn Ht. rewrite wire_lines_cons in Hn. unfold expect_next.
  destruct (il_found bld first _ hx zs (proj1 (proj2 Ht)) Hn) as (hx' & -> & H' & _).
  rewrite (line_result_text first Ht). eauto.
Qed.

Lemma content_length_not_panic h : content_length_of h <> Panic.
Proof.
  unfold content_length_of. destruct (headers_get _ _); [|easy]. unfold parse_u64.
  destruct (from_str_radix_err 10 u64_max l) as [[n ->]|[k ->]]; easy.
Qed.

Section Msg.
  Context (bld : build) (A H : Type) (pl : bytes -> res A) (fin : A -> headers -> option N -> H).
  Let msg (xs : list item) : res H * list item :=
    dos l, s1 <- expect_next (il bld) xs;
    dos x, s1 <- (pl l, s1);
    dos h, s2 <- hdrs_of bld s1;
    (do n <- content_length_of h; Ok (fin x h n), s2).

  Lemma msg_panics xs : fst (msg xs) = Panic <->
    exists first lines, arrived bld first lines xs
      /\ (pl first = Panic \/ (exists x, pl first = Ok x) /\ bad_header_block lines).
  Proof.
    split.
    - unfold msg. destruct (expect_next_il bld xs) as (r & E & _ & Hnp & _).
      destruct (expect_next (il bld) xs) as [r' xs1] eqn:E1. injection E as -> _.
      destruct r as [l|e| |]; cbn [sbind fst]; try easy.
      apply first_consumed in E1 as (cx & -> & Hn & Ht).
      destruct (pl l) as [x|e| |] eqn:El; cbn [sbind fst]; try easy.
      + pose proof (hdrs_panics bld xs1) as [Hp _]. destruct (hdrs_of bld xs1) as [rh xs2]. cbn [fst] in Hp.
        destruct rh as [h|e| |]; cbn [sbind fst]; try easy.
        * pose proof (content_length_not_panic h). now destruct (content_length_of h).
        * intros _. destruct (Hp eq_refl) as (lines & hx & zs & -> & H1 & H2 & H3). exists l, lines. split.
          -- exists (cx ++ hx), zs. split; [now rewrite app_assoc|]. split; [|now constructor].
             rewrite wire_lines_cons, app_assoc. now apply noisy_app.
          -- right. split; auto. now exists x.
      + intros _. exists l, []. split; auto. exists cx, xs1. split; auto. split; [|constructor; auto].
        unfold wire_lines. cbn [flat_map]. now rewrite app_nil_r.
    - intros (first & lines & (hx & zs & -> & Hn & Ht) & Hor). inversion Ht as [|? ? Hf Hl]; subst.
      destruct (first_found bld first lines hx zs Hn Hf) as (hx' & E & Hn'). unfold msg. rewrite E. cbn [sbind].
      destruct Hor as [->|[[x ->] Hb]]; [reflexivity|]. cbn [sbind].
      assert (Hp : fst (hdrs_of bld (hx' ++ zs)) = Panic) by (apply hdrs_panics; exists lines, hx', zs; auto).
      destruct (hdrs_of bld (hx' ++ zs)) as [rh xs2]. cbn [fst] in Hp. now subst rh.
  Qed.
End Msg.

(** A request panics exactly when complete lines arrive of which the last is the bad one: the first line with a bad
    version token, or, after a good first line and good header lines, a header line whose first colon is followed
    by a non-ASCII character. What follows, be it an error of the transport or the end, does not matter. *)
Theorem C16_request_panics_iff :
  forall T bld (rd : reader T) fuel t xs, delivers rd t xs -> length xs < fuel ->
  fst (request_deserialize bld rd fuel t) = Panic <->
  exists first lines, arrived bld first lines xs
    /\ (bad_request_line first \/ (exists m u v, request_line_says first m u v) /\ bad_header_block lines).
Proof.
  intros T bld rd fuel t xs D Hf. destruct (request_delivers bld rd t xs fuel D Hf) as (t' & _ & ->). cbn [fst].
  transitivity (fst (req_of bld xs) = Panic); [now destruct (fst (req_of bld xs))|].
  unfold req_of. rewrite (msg_panics bld _ _ req_line (fun x h n => mkReqHead (fst (fst x)) (snd (fst x)) (snd x) h (headers_get (bs "Transfer-Encoding") h) n)).
  split; intros (first & lines & Ha & Hor); exists first, lines; (split; [auto|]);
    destruct Ha as (_ & _ & _ & _ & Ht); inversion Ht as [|? ? (_ & _ & Hu) _]; subst; rewrite req_line_panics in * by auto;
    destruct Hor as [Hor|[Hx Hb]]; auto; right; split; auto.
  - destruct Hx as [[[m u] v] Hx]. exists m, u, v. now apply request_line_meaning.
  - destruct Hx as (m & u & v & Hx). exists (m, u, v). now apply request_line_accepted.
Qed.
Print Assumptions C16_request_panics_iff.

Theorem C16_response_panics_iff :
  forall T bld (rd : reader T) fuel t xs, delivers rd t xs -> length xs < fuel ->
  fst (response_deserialize bld rd fuel t) = Panic <->
  exists first lines, arrived bld first lines xs
    /\ (bad_status_line first \/ (exists v st, status_line_says first v st) /\ bad_header_block lines).
Proof.
  intros T bld rd fuel t xs D Hf. destruct (response_delivers bld rd t xs fuel D Hf) as (t' & _ & ->). cbn [fst].
  transitivity (fst (resp_of bld xs) = Panic); [now destruct (fst (resp_of bld xs))|].
  unfold resp_of. rewrite (msg_panics bld _ _ resp_line (fun x h n => mkRespHead (fst x) (snd x) h (headers_get (bs "Transfer-Encoding") h) n)).
  split; intros (first & lines & Ha & Hor); exists first, lines; (split; [auto|]);
    destruct Ha as (_ & _ & _ & _ & Ht); inversion Ht as [|? ? (_ & _ & Hu) _]; subst; rewrite resp_line_panics in * by auto;
    destruct Hor as [Hor|[Hx Hb]]; auto; right; split; auto.
  - destruct Hx as [[v st] Hx]. exists v, st. now apply status_line_meaning.
  - destruct Hx as (v & st & Hx). exists (v, st). now apply status_line_accepted.
Qed.
Print Assumptions C16_response_panics_iff.

(** The header line is complete, but the transport fails right after it: still a panic; one byte less and it is the
    transport's error. *)
Example C16_panics_case :
  let ok := bs "GET / HTTP/1.1" ++ CRLF ++ bs "k: v" ++ CRLF in
  let bad := bs "a:" ++ [xc3; xa9] ++ CRLF in
  let reset := IoError (KOther 7) in
  (exists first lines, arrived Std first lines (map B (ok ++ bad) ++ [E reset])
     /\ (exists m u v, request_line_says first m u v) /\ bad_header_block lines)
  /\ fst (request_deserialize Std seg_read 100 (text (ok ++ bad) ++ [Fail reset])) = Panic
  /\ fst (request_deserialize Std seg_read 100 (text (ok ++ removelast bad) ++ [Fail reset])) = Err reset
  /\ bad_request_line (bs "get / HTTP/" ++ [xc3; xa9])
  /\ bad_status_line (bs "HTT" ++ [xe2; x82; xac])
  /\ fst (response_deserialize NoStd seg_read 100 (text (bs "HTT" ++ [xe2; x82; xac] ++ CRLF))) = Panic.
Proof.
  cbv zeta. split; [|split; [now vm_compute|split; [now vm_compute|split; [|split; [|now vm_compute]]]]].
  - exists (bs "GET / HTTP/1.1"), [bs "k: v"; bs "a:" ++ [xc3; xa9]]. split; [|split].
    + eexists _, _. split; [reflexivity|]. split; [apply noisy_map|].
      repeat constructor; try easy; try (apply no_cr_no_crlf; intros H; repeat (destruct H as [H|H]; [easy|]); easy);
        apply is_utf8_valid; reflexivity.
    + exists Get, (bs "/"), (mkVersion 1 1). apply request_line_meaning;
        [apply is_utf8_valid; reflexivity|now vm_compute].
    + exists [bs "k: v"], [(bs "k", bs "v")], (bs "a:" ++ [xc3; xa9]). split; [|split].
      * apply (folded_group (bs "k: v") [] [bs "a:" ++ [xc3; xa9]]); [constructor| |].
        -- intros l t [= <- _]. now apply starts_blank_false.
        -- apply (folded_group (bs "a:" ++ [xc3; xa9]) [] []); [constructor|easy|constructor].
      * constructor; [|constructor]. exists (bs "k"), (bs "v"). repeat split; try easy. now intros [H|[]].
      * exists (bs "a"), 233%N, []. repeat split; try easy. intros [H|[]]; easy.
  - exists Get, (bs "get"), [SP], (bs "/ HTTP/" ++ [xc3; xa9]), (bs "/"), [SP], (bs "HTTP/" ++ [xc3; xa9]), (bs "HTTP/" ++ [xc3; xa9]), [], [].
    split; [apply (token_sp (bs "get"))|split; [apply (token_sp (bs "/"))|split; [apply token_end|split; [now vm_compute|]]]];
      try (now repeat constructor; intros [H|H]); try (now intros b s [= <- _] [H|H]).
    exists (bs "HTTP/"), 233%N, []. repeat split; easy || auto.
  - exists (bs "HTT" ++ [xe2; x82; xac]), [], []. split; [apply token_end|].
    + now repeat constructor; intros [H|H].
    + exists (bs "HTT"), 8364%N, []. repeat (split; [easy|]). left. cbn. lia.
Qed.
