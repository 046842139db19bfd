(** Lemmas on whole messages. *)
From Verif Require Import Base Utf8 Case Num Io Parser Types Message Transport Lemmas ReadLemmas NumLemmas
  Utf8Lemmas BodyLemmas ParserLemmas CaseLemmas TypesLemmas HeadLemmas BlockLemmas.

(** ** Deserialization in terms of the delivered items *)
Definition req_with {T} (h : req_head) (t : T) : request (hbody T) :=
  mkRequest (qh_method h) (qh_uri h) (qh_version h) (qh_headers h) (body_new (qh_encoding h) (qh_length h) t).
Definition resp_with {St} (h : resp_head) (s : St) : response (hbody (bufr St)) :=
  mkResponse (sh_version h) (sh_status h) (sh_headers h) (body_new (sh_encoding h) (sh_length h) (bufr_new s)).

Lemma request_items {T} bld (rd : reader T) R t xs fuel : reader_pos rd R -> R t xs -> length xs < fuel ->
  exists t', R t' (snd (req_of bld xs))
    /\ request_deserialize bld rd fuel t = (do h <- fst (req_of bld xs); Ok (req_with h t'), t').
Proof.
  intros HR Ht Hf. destruct (request_head_items bld rd R fuel t xs HR Ht Hf) as (t' & E & H').
  exists t'. split; auto. unfold request_deserialize. rewrite E.
  destruct (fst (req_of bld xs)); reflexivity.
Qed.
Lemma response_items {St} bld (rd : reader St) R s xs fuel : reader_pos rd R -> R s xs -> length xs < fuel ->
  exists s', R s' (snd (resp_of bld xs))
    /\ response_deserialize bld rd fuel s = (do h <- fst (resp_of bld xs); Ok (resp_with h s'), s').
Proof.
  intros HR Ht Hf. destruct (response_head_items bld rd R fuel s xs HR Ht Hf) as (t' & E & H').
  exists t'. split; auto. unfold response_deserialize. rewrite E.
  destruct (fst (resp_of bld xs)); reflexivity.
Qed.

Lemma request_delivers {T} bld (rd : reader T) t xs fuel : delivers rd t xs -> length xs < fuel ->
  exists t', delivers rd t' (snd (req_of bld xs))
    /\ request_deserialize bld rd fuel t = (do h <- fst (req_of bld xs); Ok (req_with h t'), t').
Proof.
  intros (R & HR & Ht) Hf. destruct (request_items bld rd R t xs fuel HR Ht Hf) as (t' & H1 & H2).
  exists t'. split; auto. now exists R.
Qed.
Lemma request_delivers0 {T} bld (rd : reader T) t xs fuel : delivers0 rd t xs -> length xs < fuel ->
  exists t', delivers0 rd t' (snd (req_of bld xs))
    /\ request_deserialize bld rd fuel t = (do h <- fst (req_of bld xs); Ok (req_with h t'), t').
Proof.
  intros (R & HR & HZ & Ht) Hf. destruct (request_items bld rd R t xs fuel HR Ht Hf) as (t' & H1 & H2).
  exists t'. split; auto. exists R. auto.
Qed.
Lemma response_delivers {St} bld (rd : reader St) s xs fuel : delivers rd s xs -> length xs < fuel ->
  exists s', delivers rd s' (snd (resp_of bld xs))
    /\ response_deserialize bld rd fuel s = (do h <- fst (resp_of bld xs); Ok (resp_with h s'), s').
Proof.
  intros (R & HR & Ht) Hf. destruct (response_items bld rd R s xs fuel HR Ht Hf) as (t' & H1 & H2).
  exists t'. split; auto. now exists R.
Qed.
Lemma response_delivers0 {St} bld (rd : reader St) s xs fuel : delivers0 rd s xs -> length xs < fuel ->
  exists s', delivers0 rd s' (snd (resp_of bld xs))
    /\ response_deserialize bld rd fuel s = (do h <- fst (resp_of bld xs); Ok (resp_with h s'), s').
Proof.
  intros (R & HR & HZ & Ht) Hf. destruct (response_items bld rd R s xs fuel HR Ht Hf) as (t' & H1 & H2).
  exists t'. split; auto. exists R. auto.
Qed.

(** ** A first line followed by anything *)
Lemma expect_next_line bld line zs : text_line line ->
  expect_next (il bld) (map B (line ++ CRLF) ++ zs) = (Ok line, zs).
Proof.
  intros H. unfold expect_next, il. rewrite items_line_map by apply H. now rewrite line_result_text.
Qed.

Lemma req_of_line bld line x zs : text_line line -> req_line line = Ok x ->
  req_of bld (map B (line ++ CRLF) ++ zs) =
  (dos h, s2 <- hdrs_of bld zs;
   (do n <- content_length_of h;
    Ok (mkReqHead (fst (fst x)) (snd (fst x)) (snd x) h (headers_get (bs "Transfer-Encoding") h) n), s2)).
Proof. intros Ht Hx. unfold req_of. rewrite expect_next_line by auto. cbn [sbind]. rewrite Hx. reflexivity. Qed.

Lemma resp_of_line bld line x zs : text_line line -> resp_line line = Ok x ->
  resp_of bld (map B (line ++ CRLF) ++ zs) =
  (dos h, s2 <- hdrs_of bld zs;
   (do n <- content_length_of h;
    Ok (mkRespHead (fst x) (snd x) h (headers_get (bs "Transfer-Encoding") h) n), s2)).
Proof. intros Ht Hx. unfold resp_of. rewrite expect_next_line by auto. cbn [sbind]. rewrite Hx. reflexivity. Qed.

(** ** First lines as printed *)
Definition small_version (v : version) : Prop := (vmajor v < 10)%N /\ (vminor v < 10)%N.

Definition version_facts (v : version) : bool :=
  let s := show_version v in
  ascii s && forallb (fun b => negb (is_blank b) && negb (Byte.eqb b CR)) s
  && match s with [] => false | _ => true end
  && match parse_version s with Ok w => (vmajor w =? vmajor v)%N && (vminor w =? vminor v)%N | _ => false end.
Lemma version_facts_all v : small_version v -> version_facts v = true.
Proof.
  destruct v as [x y]. intros [Hx Hy]. cbn in Hx, Hy.
  assert (H : forall n, (n < 10)%N -> In n [0;1;2;3;4;5;6;7;8;9]%N) by (intros n Hn; simpl; lia).
  assert (Hall : forallb (fun x => forallb (fun y => version_facts (mkVersion x y)) [0;1;2;3;4;5;6;7;8;9]%N)
    [0;1;2;3;4;5;6;7;8;9]%N = true) by (vm_compute; reflexivity).
  rewrite forallb_forall in Hall. specialize (Hall x (H x Hx)). cbn beta in Hall. rewrite forallb_forall in Hall. now apply Hall, H.
Qed.

Lemma no_cr_no_crlf s : ~ In CR s -> no_crlf s.
Proof. intros H (a & b & ->). apply H. apply in_or_app. right. now left. Qed.

Lemma show_version_ok v : small_version v ->
  is_utf8 (show_version v) /\ Forall (fun b => ~ blank b) (show_version v) /\ no_crlf (show_version v)
  /\ show_version v <> [] /\ parse_version (show_version v) = Ok v.
Proof.
  intros H. apply version_facts_all in H. unfold version_facts in H. cbv zeta in H.
  apply andb_true_iff in H as [H H4]. apply andb_true_iff in H as [H H3]. apply andb_true_iff in H as [H1 H2].
  rewrite forallb_forall in H2. split; [now apply utf8_bs_ascii|]. split; [|split; [|split]].
  - apply Forall_forall. intros b Hb. apply H2 in Hb. apply andb_true_iff in Hb as [Hb _]. apply negb_true_iff in Hb.
    now apply is_blank_false.
  - apply no_cr_no_crlf. intros Hin. apply H2 in Hin. now rewrite byte_eqb_refl, andb_false_r in Hin.
  - now destruct (show_version v).
  - destruct (parse_version _) as [w| | |]; try easy. apply andb_true_iff in H4 as [H5 H6].
    apply N.eqb_eq in H5, H6. destruct w, v. cbn in *. now subst.
Qed.

Definition sendable_uri (u : bytes) : Prop :=
  u <> [] /\ is_utf8 u /\ Forall (fun b => ~ blank b) u /\ no_crlf u.

Lemma show_method_ok m : is_utf8 (show_method m) /\ Forall (fun b => ~ blank b) (show_method m)
  /\ no_crlf (show_method m) /\ show_method m <> [].
Proof.
  split; [apply utf8_bs_ascii; now destruct m|]. split; [|split].
  - destruct m; repeat constructor; intros [H|H]; easy.
  - apply no_cr_no_crlf. destruct m; cbn; intuition easy.
  - now destruct m.
Qed.

Lemma no_crlf_sp a b : no_crlf a -> no_crlf b -> no_crlf (a ++ SP :: b).
Proof. intros Ha Hb. apply no_crlf_app; auto; [easy|]. now apply no_crlf_cons. Qed.

Definition request_line_of (m : method) (u : bytes) (v : version) : bytes :=
  show_method m ++ SP :: u ++ SP :: show_version v.

Lemma utf8_sp a b : is_utf8 a -> is_utf8 b -> is_utf8 (a ++ SP :: b).
Proof. rewrite !is_utf8_valid. intros. apply valid_app; auto. now rewrite valid_ascii_cons. Qed.

Lemma token_sp t r : Forall (fun b => ~ blank b) t -> (forall b s, r = b :: s -> ~ blank b) ->
  token_split (t ++ SP :: r) t [SP] r.
Proof. intros H1 H2. repeat split; auto. - constructor; auto. now left. - easy. Qed.
Lemma token_end t : Forall (fun b => ~ blank b) t -> token_split t t [] [].
Proof. intros H. repeat split; auto. - now rewrite app_nil_r. - easy. Qed.

Lemma request_line_ok m u v : sendable_uri u -> small_version v ->
  text_line (request_line_of m u v) /\ req_line (request_line_of m u v) = Ok (m, u, v).
Proof.
  intros (U1 & U2 & U3 & U4) Hv. destruct (show_version_ok v Hv) as (V1 & V2 & V3 & V4 & V5).
  destruct (show_method_ok m) as (M1 & M2 & M3 & M4). unfold request_line_of.
  assert (Hu : is_utf8 (show_method m ++ SP :: u ++ SP :: show_version v)) by auto using utf8_sp.
  split.
  - repeat split; auto.
    + now destruct (show_method m).
    + auto using no_crlf_sp.
  - eapply req_line_ok with (t1 := show_method m) (w1 := [SP]) (r1 := u ++ SP :: show_version v)
      (w2 := [SP]) (r2 := show_version v) (t3 := show_version v) (w3 := []) (r3 := []); auto.
    + now destruct (show_method m).
    + now destruct u.
    + apply token_sp; auto. intros b s E. destruct u as [|c u]; [easy|]. injection E as <- _. now inversion U3.
    + apply token_sp; auto. intros b s E. rewrite E in V2. now inversion V2.
    + now apply token_end.
    + now destruct m.
Qed.

Lemma show_status_ok st : (to_code st <= u32_max)%N ->
  ascii (show_status st) = true /\ ~ In CR (show_status st) /\ show_status st <> []
  /\ (forall b s, show_status st = b :: s -> ~ blank b)
  /\ parse_status (show_status st) = Ok (from_code (to_code st)).
Proof.
  intros H. destruct st; try (split; [reflexivity|split; [cbn; intuition easy|split; [easy|split; [|reflexivity]]]];
    intros b s E; injection E as <- _; intros [H'|H']; easy).
  cbn [show_status to_code] in *. pose proof (show_radix_numeral 10 c ltac:(lia) ltac:(lia)) as Hn.
  assert (Hd : Forall (fun b => (48 <= bval b <= 57)%N) (show_dec c)).
  { destruct Hn as [_ (ds & Hf & _)]. unfold show_dec. clear -Hf.
    induction Hf as [|b d s ds [H1 H2] Hf IH]; constructor; auto. lia. }
  split; [|split; [|split; [|split]]].
  - eapply numeral_ascii; eauto. lia.
  - intros Hin. rewrite Forall_forall in Hd. apply Hd in Hin. revert Hin. vm_compute. intuition congruence.
  - apply Hn.
  - intros b s E. rewrite E in Hd. inversion Hd; subst. intros [->| ->]; revert H2; vm_compute; intuition congruence.
  - apply parse_status_number; auto.
Qed.

Definition status_line_of (v : version) (st : status) : bytes := show_version v ++ SP :: show_status st.

Lemma status_line_ok v st : small_version v -> (to_code st <= u32_max)%N ->
  text_line (status_line_of v st) /\ resp_line (status_line_of v st) = Ok (v, from_code (to_code st)).
Proof.
  intros Hv Hs. destruct (show_version_ok v Hv) as (V1 & V2 & V3 & V4 & V5).
  destruct (show_status_ok st Hs) as (S1 & S2 & S3 & S4 & S5). unfold status_line_of.
  assert (Hu : is_utf8 (show_version v ++ SP :: show_status st)) by auto using utf8_sp, utf8_bs_ascii.
  assert (Hne : show_version v ++ SP :: show_status st <> []) by now destruct (show_version v).
  split.
  - repeat split; auto. apply no_crlf_sp; auto. now apply no_cr_no_crlf.
  - eapply resp_line_ok; eauto. apply token_sp; auto.
Qed.

Lemma request_pieces_wire {B} (r : request B) :
  concat (request_pieces r) = request_line_of (rq_method r) (rq_uri r) (rq_version r) ++ CRLF
    ++ concat (headers_pieces (rq_headers r)) ++ CRLF.
Proof.
  unfold request_pieces, request_line_of. rewrite !concat_app. cbn [concat]. fold (show_version (rq_version r)).
  rewrite !app_nil_r. rewrite <- !app_assoc. cbn [app]. change (bs " ") with [SP]. now rewrite <- !app_assoc.
Qed.
Lemma response_pieces_wire {B} (r : response B) :
  concat (response_pieces r) = status_line_of (rs_version r) (rs_status r) ++ CRLF
    ++ concat (headers_pieces (rs_headers r)) ++ CRLF.
Proof.
  unfold response_pieces, status_line_of. rewrite !concat_app. cbn [concat]. fold (show_version (rs_version r)).
  rewrite !app_nil_r. rewrite <- !app_assoc. reflexivity.
Qed.

Lemma req_round_trip bld m u v h n zs : sendable_uri u -> small_version v -> sendable h ->
  content_length_of h = Ok n ->
  req_of bld (map B (request_line_of m u v ++ CRLF ++ concat (headers_pieces h) ++ CRLF) ++ zs) =
  (Ok (mkReqHead m u v h (headers_get (bs "Transfer-Encoding") h) n), zs).
Proof.
  intros Hu Hv Hh Hn. destruct (request_line_ok m u v Hu Hv) as [H1 H2].
  rewrite (app_assoc _ CRLF), map_app, <- app_assoc. rewrite (req_of_line bld _ _ _ H1 H2).
  rewrite hdrs_round_trip by auto. cbn [sbind]. now rewrite Hn.
Qed.
Lemma resp_round_trip bld v st h n zs : small_version v -> (to_code st <= u32_max)%N -> sendable h ->
  content_length_of h = Ok n ->
  resp_of bld (map B (status_line_of v st ++ CRLF ++ concat (headers_pieces h) ++ CRLF) ++ zs) =
  (Ok (mkRespHead v (from_code (to_code st)) h (headers_get (bs "Transfer-Encoding") h) n), zs).
Proof.
  intros Hv Hs Hh Hn. destruct (status_line_ok v st Hv Hs) as [H1 H2].
  rewrite (app_assoc _ CRLF), map_app, <- app_assoc. rewrite (resp_of_line bld _ _ _ H1 H2).
  rewrite hdrs_round_trip by auto. cbn [sbind]. now rewrite Hn.
Qed.

(** ** What a successful parse consumed *)
Lemma il_consumed bld xs r ys : il bld xs = (Ok r, ys) ->
  exists line cx, xs = cx ++ ys /\ noisy bld (line ++ CRLF) cx /\ no_crlf line /\ line_result line = Ok r
    /\ exists cx0, cx = cx0 ++ [B LF].
Proof.
  intros H. apply items_line_inv in H as (pre & w & line & -> & Hw & Hl & Hn & Hr); [|apply no_crlf_nil].
  exists line, (pre ++ [B LF]). rewrite <- app_assoc. split; auto. split; [|split; auto; split; auto; eauto].
  cbn [app] in Hl. subst w. change CRLF with ([CR] ++ [LF]). rewrite app_assoc. clear -Hw.
  induction Hw; cbn [app]; repeat constructor; auto.
Qed.

Lemma noisy_app bld a b xs ys : noisy bld a xs -> noisy bld b ys -> noisy bld (a ++ b) (xs ++ ys).
Proof. intros H1 H2. induction H1; cbn [app]; auto; constructor; auto. Qed.

Lemma line_result_some line l : line_result line = Ok (Some l) -> line = l /\ l <> [] /\ is_utf8 l.
Proof.
  unfold line_result. destruct line as [|b t] eqn:E; [easy|]. rewrite <- E. destruct (utf8_valid line) eqn:Ev; [|easy].
  intros [= <-]. split; auto. split; [now subst|now apply is_utf8_valid].
Qed.
Lemma line_result_none line : line_result line = Ok None -> line = [].
Proof. unfold line_result. destruct line; auto. now destruct (utf8_valid _). Qed.

Lemma cont_loop_consumed bld fuel : forall line xs line' pk xs',
  cont_loop (il bld) fuel line xs = (line', pk, xs') ->
  (exists l, pk = Some (Ok (Some l))) \/ pk = Some (Ok None) ->
  exists conts cx, xs = cx ++ xs' /\ Forall text_line conts
    /\ noisy bld (wire_lines (conts ++ match pk with Some (Ok (Some l)) => [l] | _ => [] end)
                    ++ match pk with Some (Ok None) => CRLF | _ => [] end) cx
    /\ match pk with Some (Ok (Some l)) => text_line l | _ => True end
    /\ (exists cx0, cx = cx0 ++ [B LF]).
Proof.
  induction fuel as [|f IH]; intros line xs line' pk xs' H Hpk; cbn [cont_loop] in H.
  { inversion H; subst. destruct Hpk as [[l ?]|?]; easy. }
  destruct (il bld xs) as [r ys] eqn:E.
  destruct r as [[l|]|e| |]; try (inversion H; subst; destruct Hpk as [[? ?]|?]; easy).
  - pose proof (il_consumed _ _ _ _ E) as (line0 & cx & -> & Hn & Hc & Hr & Hend).
    apply line_result_some in Hr as (-> & Hne & Hu). assert (Ht : text_line l) by (repeat split; auto).
    destruct (starts_blank l).
    + apply IH in H as (conts & cx2 & -> & Hf & Hn2 & Hl & (cx0 & ->)); auto.
      exists (l :: conts), (cx ++ cx0 ++ [B LF]). rewrite <- !app_assoc. cbn [app]. split; auto. split; [now constructor|].
      split; [|split; auto].
      * rewrite wire_lines_cons, <- !app_assoc. rewrite (app_assoc l CRLF). apply noisy_app; auto.
      * exists (cx ++ cx0). now rewrite <- app_assoc.
    + inversion H; subst. exists [], cx. split; auto. split; auto. cbn [app]. rewrite app_nil_r.
      unfold wire_lines. cbn [flat_map]. rewrite app_nil_r. auto.
  - inversion H; subst. pose proof (il_consumed _ _ _ _ E) as (line0 & cx & -> & Hn & Hc & Hr & Hend).
    apply line_result_none in Hr. subst. exists [], cx. auto.
Qed.

Lemma cont_loop_pk bld g : forall l xs line' pk' xs',
  cont_loop (il bld) g l xs = (line', pk', xs') -> pk' <> None.
Proof.
  induction g as [|g IHg]; intros l xs line' pk' xs' Ec; cbn [cont_loop] in Ec; [now inversion Ec|].
  destruct (il bld xs) as [r ys']. destruct r as [[l'|]| | |]; try (now inversion Ec).
  destruct (starts_blank l'); [eauto|now inversion Ec].
Qed.

Lemma headers_loop_consumed bld fuel : forall acc pk xs h ys,
  headers_loop (il bld) fuel acc pk xs = (Ok h, ys) ->
  match pk with
  | Some (Ok None) => xs = ys
  | _ => exists lines cx0, xs = cx0 ++ B LF :: ys /\ Forall text_line lines
           /\ noisy bld (wire_lines lines ++ CRLF) (cx0 ++ [B LF])
  end.
Proof.
  induction fuel as [|f IH]; intros acc pk xs h ys H; [easy|].
  unfold headers_loop in H; fold (headers_loop (il bld)) in H.
  destruct (pk_next (il bld) pk xs) as [r xs1] eqn:E. destruct r as [[l|]|e| |]; try easy.
  - destruct (cont_loop (il bld) (S f) l xs1) as [[line' pk'] xs2] eqn:Ec.
    assert (Hok : pk_ok pk') by (destruct pk' as [[x|x| |]|]; split; easy). rewrite (pk_guard _ _ _ _ Hok) in H.
    destruct (header_deserialize line') as [h0| | |]; try easy.
    assert (Hpk' : (exists l, pk' = Some (Ok (Some l))) \/ pk' = Some (Ok None)).
    { apply cont_loop_pk in Ec.
      destruct f as [|f]; [easy|]. unfold headers_loop in H; fold (headers_loop (il bld)) in H.
      destruct pk' as [[[l'|]| | |]|]; cbn [pk_next] in H; try easy; eauto. }
    destruct (cont_loop_consumed bld (S f) l xs1 line' pk' xs2 Ec Hpk') as (conts & cx & -> & Hf & Hn & Hl & (cx0 & ->)).
    apply IH in H.
    assert (H1 : exists ls1 cx1, xs = cx1 ++ (cx0 ++ [B LF]) ++ xs2 /\ Forall text_line ls1 /\ noisy bld (wire_lines ls1) cx1
                   /\ pk <> Some (Ok None)).
    { destruct pk as [pr|]; cbn [pk_next] in E.
      - injection E as -> ->. exists [], []. repeat split; auto; [constructor|easy].
      - apply il_consumed in E as (line0 & cx & -> & Hn1 & Hc & Hr & _).
        apply line_result_some in Hr as (-> & Hne & Hu). exists [l], cx. repeat split; auto; try easy.
        + constructor; auto. repeat split; auto.
        + unfold wire_lines. cbn [flat_map]. now rewrite app_nil_r. }
    destruct H1 as (ls1 & cx1 & -> & Hf1 & Hn1 & Hpk).
    enough (G : exists lines cx2, cx1 ++ (cx0 ++ [B LF]) ++ xs2 = cx2 ++ B LF :: ys /\ Forall text_line lines
           /\ noisy bld (wire_lines lines ++ CRLF) (cx2 ++ [B LF])).
    { destruct pk as [[[?|]| | |]|]; auto. easy. }
    destruct Hpk' as [[l' ->]| ->].
    + destruct H as (lines & cx2 & -> & Hf2 & Hn2). rewrite app_nil_r in Hn.
      exists (ls1 ++ (conts ++ [l']) ++ lines), (cx1 ++ (cx0 ++ [B LF]) ++ cx2).
      rewrite <- !app_assoc. split; auto. split.
      * repeat (apply Forall_app; split; auto).
      * rewrite !wire_lines_app, <- !app_assoc. apply noisy_app; auto.
        rewrite (app_assoc (wire_lines conts)), <- wire_lines_app. rewrite (app_assoc cx0). apply noisy_app; auto.
    + subst xs2. exists (ls1 ++ conts), (cx1 ++ cx0). rewrite <- !app_assoc. split; auto. split; [now apply Forall_app|].
      rewrite wire_lines_app, <- app_assoc. apply noisy_app; auto. now rewrite app_nil_r in Hn.
  - inversion H; subst. destruct pk as [pr|]; cbn [pk_next] in E.
    + now injection E as -> ->.
    + apply il_consumed in E as (line0 & cx & -> & Hn & Hc & Hr & (cx0 & ->)). apply line_result_none in Hr. subst.
      exists [], cx0. rewrite <- app_assoc. split; auto.
Qed.

Lemma hdrs_consumed bld xs h ys : hdrs_of bld xs = (Ok h, ys) ->
  exists lines cx, xs = cx ++ B LF :: ys /\ Forall text_line lines
    /\ noisy bld (wire_lines lines ++ CRLF) (cx ++ [B LF]).
Proof. unfold hdrs_of. intros H. now apply headers_loop_consumed in H. Qed.

Lemma first_consumed bld xs l ys : expect_next (il bld) xs = (Ok l, ys) ->
  exists cx, xs = cx ++ ys /\ noisy bld (l ++ CRLF) cx /\ text_line l.
Proof.
  unfold expect_next. destruct (il bld xs) as [r s] eqn:E. cbn [sbind].
  destruct r as [[l'|]| | |]; intros [= -> ->] || easy.
  apply il_consumed in E as (line0 & cx & -> & Hn1 & Hc & Hr & _).
  apply line_result_some in Hr as (-> & Hne & Hu). exists cx. repeat split; auto.
Qed.

Lemma req_consumed bld xs h ys : req_of bld xs = (Ok h, ys) ->
  exists first lines cx, xs = cx ++ B LF :: ys /\ Forall text_line (first :: lines)
    /\ noisy bld (wire_lines (first :: lines) ++ CRLF) (cx ++ [B LF])
    /\ req_line first = Ok (qh_method h, qh_uri h, qh_version h).
Proof.
  unfold req_of. destruct (expect_next (il bld) xs) as [r xs1] eqn:E. destruct r as [l| | |]; cbn [sbind]; try easy.
  destruct (req_line l) as [[[m u] v]| | |] eqn:El; try easy.
  destruct (hdrs_of bld xs1) as [r2 xs2] eqn:E2. destruct r2 as [hh| | |]; cbn [sbind]; try easy.
  destruct (content_length_of hh) as [n| | |]; cbn [rbind]; try easy. intros [= <- ->].
  apply first_consumed in E as (cx & -> & Hn & Ht). apply hdrs_consumed in E2 as (lines & cx2 & -> & Hf & Hn2).
  exists l, lines, (cx ++ cx2). rewrite <- !app_assoc. split; auto. split; [now constructor|]. split; auto.
  rewrite wire_lines_cons, <- !app_assoc. rewrite (app_assoc l CRLF). now apply noisy_app.
Qed.
Lemma resp_consumed bld xs h ys : resp_of bld xs = (Ok h, ys) ->
  exists first lines cx, xs = cx ++ B LF :: ys /\ Forall text_line (first :: lines)
    /\ noisy bld (wire_lines (first :: lines) ++ CRLF) (cx ++ [B LF])
    /\ resp_line first = Ok (sh_version h, sh_status h).
Proof.
  unfold resp_of. destruct (expect_next (il bld) xs) as [r xs1] eqn:E. destruct r as [l| | |]; cbn [sbind]; try easy.
  destruct (resp_line l) as [[v st]| | |] eqn:El; try easy.
  destruct (hdrs_of bld xs1) as [r2 xs2] eqn:E2. destruct r2 as [hh| | |]; cbn [sbind]; try easy.
  destruct (content_length_of hh) as [n| | |]; cbn [rbind]; try easy. intros [= <- ->].
  apply first_consumed in E as (cx & -> & Hn & Ht). apply hdrs_consumed in E2 as (lines & cx2 & -> & Hf & Hn2).
  exists l, lines, (cx ++ cx2). rewrite <- !app_assoc. split; auto. split; [now constructor|]. split; auto.
  rewrite wire_lines_cons, <- !app_assoc. rewrite (app_assoc l CRLF). now apply noisy_app.
Qed.

(** ** The exact meaning of an accepted header block *)
Definition header_of (line : bytes) (h : header) : Prop :=
  exists key value, ~ In COLON key /\ line = key ++ bs ": " ++ value /\ h = (to_lowercase key, value).

Lemma utf8_concat ls : Forall is_utf8 ls -> is_utf8 (concat ls).
Proof.
  induction 1 as [|l ls H1 H2 IH]; cbn [concat].
  - apply is_utf8_valid. reflexivity.
  - rewrite is_utf8_valid in *. now apply valid_app.
Qed.

Lemma folded_utf8 lines logical : folded lines logical -> Forall is_utf8 lines -> Forall is_utf8 logical.
Proof.
  induction 1 as [|l conts rest logical H1 H2 H3 IH]; intros H; constructor.
  - inversion H; subst. apply Forall_app in H6 as [H6 _]. apply utf8_concat in H6. rewrite is_utf8_valid in *. now apply valid_app.
  - inversion H; subst. apply Forall_app in H6 as [_ H6]. auto.
Qed.

Lemma text_utf8 lines : Forall text_line lines -> Forall is_utf8 lines.
Proof. intros H. eapply Forall_impl; [|exact H]. intros l (_ & _ & Hu). exact Hu. Qed.

Lemma parses_total logical : Forall is_utf8 logical -> exists hs o, parses logical hs o.
Proof.
  induction 1 as [|l ls Hu H (hs & o & IH)]; [exists [], (Ok tt); constructor|].
  destruct (header_deserialize_cases l Hu) as [(k & v & _ & _ & E)|[(k & n & c & r & _ & _ & _ & E)|(e & E & _)]].
  - eexists _, _. econstructor; eauto.
  - eexists _, _. now apply parses_panic.
  - eexists _, _. eapply parses_err; eauto.
Qed.

Lemma parses_headers logical hs : Forall is_utf8 logical -> (parses logical hs (Ok tt) <-> Forall2 header_of logical hs).
Proof.
  intros Hu. split.
  - intros H. remember (Ok tt) as o. revert Hu. induction H as [|l h ls hs r Hd H IH|l e ls Hd|l ls Hd]; intros Hu; try easy; constructor.
    + inversion Hu; subst. destruct (header_deserialize_inv l h) as (k & v & K1 & K2 & K3); auto. exists k, v. auto.
    + inversion Hu; subst. auto.
  - intros H. revert Hu. induction H as [|l h ls hs (k & v & H1 & -> & ->) H IH]; intros Hu; constructor.
    + inversion Hu; subst. now apply header_deserialize_ok.
    + inversion Hu; subst. auto.
Qed.

Lemma parses_bad logical hs o : parses logical hs o -> o <> Ok tt -> forall hs', Forall is_utf8 logical -> ~ Forall2 header_of logical hs'.
Proof.
  induction 1 as [|l h ls hs r Hd H IH|l e ls Hd|l ls Hd]; intros Ho hs' Hu H'; try easy.
  - inversion H'; subst. inversion Hu; subst. eapply IH; eauto.
  - inversion H' as [|l0 h0 ls0 hs0 Ho1 Hr1 E1 E2]; subst. inversion Hu; subst. destruct Ho1 as (k & v & K1 & -> & ->).
    rewrite header_deserialize_ok in Hd; auto. easy.
  - inversion H' as [|l0 h0 ls0 hs0 Ho1 Hr1 E1 E2]; subst. inversion Hu; subst. destruct Ho1 as (k & v & K1 & -> & ->).
    rewrite header_deserialize_ok in Hd; auto. easy.
Qed.

(** What was accepted, exactly. *)
Definition accepted_block (lines : list bytes) (h : headers) : Prop :=
  exists logical hs, folded lines logical /\ Forall2 header_of logical hs /\ h = headers_from hs.

Lemma hdrs_inv bld xs h ys : hdrs_of bld xs = (Ok h, ys) ->
  exists lines cx, xs = cx ++ B LF :: ys /\ Forall text_line lines
    /\ noisy bld (wire_lines lines ++ CRLF) (cx ++ [B LF]) /\ accepted_block lines h.
Proof.
  intros H. destruct (hdrs_consumed _ _ _ _ H) as (lines & cx & -> & Hf & Hn). exists lines, cx. repeat (split; auto).
  destruct (folded_exists lines) as [logical Hl]. pose proof (folded_utf8 _ _ Hl (text_utf8 _ Hf)) as Hu.
  destruct (parses_total logical Hu) as (hs & o & Hp).
  destruct (hdrs_block bld lines logical hs o (cx ++ [B LF]) ys [] Hl Hf Hp) as (ys' & E & _ & _).
  { now rewrite app_nil_r. }
  rewrite <- app_assoc in E. cbn [app] in E. rewrite E in H. injection H as H _.
  destruct o as [[]| | |]; try easy. injection H as <-. exists logical, hs. split; auto. split; auto. now apply parses_headers.
Qed.

Lemma hdrs_accept bld lines h hx zs rest : Forall text_line lines -> accepted_block lines h ->
  noisy bld (wire_lines lines ++ CRLF ++ rest) hx ->
  exists hx', hdrs_of bld (hx ++ zs) = (Ok h, hx' ++ zs) /\ noisy bld rest hx'.
Proof.
  intros Hf (logical & hs & Hl & Hh & ->) Hn. pose proof (folded_utf8 _ _ Hl (text_utf8 _ Hf)) as Hu.
  apply parses_headers in Hh; auto.
  destruct (hdrs_block bld lines logical hs (Ok tt) hx zs rest Hl Hf Hh Hn) as (ys & E & _ & H).
  destruct (H eq_refl) as (hx' & -> & Hn'). exists hx'. auto.
Qed.

Lemma hdrs_accept_exact bld lines h zs : Forall text_line lines -> accepted_block lines h ->
  hdrs_of bld (map B (wire_lines lines ++ CRLF) ++ zs) = (Ok h, zs).
Proof.
  intros Hf (logical & hs & Hl & Hh & ->). pose proof (folded_utf8 _ _ Hl (text_utf8 _ Hf)) as Hu.
  apply parses_headers in Hh; auto. eapply hdrs_block_exact; eauto.
Qed.

Lemma hdrs_reject bld lines zs : Forall text_line lines -> (forall h, ~ accepted_block lines h) ->
  forall h ys, hdrs_of bld (map B (wire_lines lines ++ CRLF) ++ zs) <> (Ok h, ys).
Proof.
  intros Hf Hno h ys E. destruct (folded_exists lines) as [logical Hl]. pose proof (folded_utf8 _ _ Hl (text_utf8 _ Hf)) as Hu.
  destruct (parses_total logical Hu) as (hs & o & Hp).
  destruct (hdrs_block bld lines logical hs o (map B (wire_lines lines ++ CRLF)) zs [] Hl Hf Hp) as (ys' & E' & _ & _).
  { rewrite app_nil_r. apply noisy_map. }
  rewrite E' in E. injection E as E _. destruct o as [[]| | |]; try easy.
  apply (Hno (headers_from hs)). exists logical, hs. split; auto. split; auto. now apply parses_headers.
Qed.

(** ** Interruptions do not matter *)
Fixpoint strip (bld : build) (xs : list item) : list item :=
  match xs with
  | [] => []
  | B b :: t => B b :: strip bld t
  | E e :: t => if is_retry bld e then strip bld t else E e :: strip bld t
  end.

Lemma items_line_strip bld xs : forall acc,
  items_line bld acc (strip bld xs) = (fst (items_line bld acc xs), strip bld (snd (items_line bld acc xs))).
Proof.
  induction xs as [|[b|e] xs IH]; intros acc; cbn [strip items_line]; auto.
  - destruct (ends_crlf _); auto.
  - destruct (is_retry bld e) eqn:He; auto. cbn [items_line]. now rewrite He.
Qed.

Lemma strip_length bld xs : length (strip bld xs) <= length xs.
Proof. induction xs as [|[b|e] xs IH]; cbn [strip length]; try lia. destruct (is_retry bld e); cbn [length]; lia. Qed.

Lemma strip_sim bld : forall a b, b = strip bld a ->
  fst (il bld a) = fst (il bld b) /\ snd (il bld b) = strip bld (snd (il bld a)).
Proof. intros a b ->. unfold il. now rewrite items_line_strip. Qed.

Lemma req_of_strip bld xs : req_of bld (strip bld xs) = (fst (req_of bld xs), strip bld (snd (req_of bld xs))).
Proof.
  pose proof (strip_length bld xs).
  destruct (request_head_sim (il bld) (il bld) (fun a b => b = strip bld a) (strip_sim bld) (S (length xs)) xs _ eq_refl)
    as (r & a & b & E1 & E2 & ->).
  rewrite req_fuel in E1, E2 by lia. now rewrite E1, E2.
Qed.
Lemma resp_of_strip bld xs : resp_of bld (strip bld xs) = (fst (resp_of bld xs), strip bld (snd (resp_of bld xs))).
Proof.
  pose proof (strip_length bld xs).
  destruct (response_head_sim (il bld) (il bld) (fun a b => b = strip bld a) (strip_sim bld) (S (length xs)) xs _ eq_refl)
    as (r & a & b & E1 & E2 & ->).
  rewrite resp_fuel in E1, E2 by lia. now rewrite E1, E2.
Qed.

(** ** A generic argument about line sources: [I] as long as lines come, [J] after a failure *)
Section Hoare.
  Context {L : Type} (nl : L -> res (option bytes) * L) (I J : L -> Prop) (Good : bytes -> Prop)
    (Hnl : forall a, I a -> match nl a with
                            | (Ok (Some l), a') => I a' /\ Good l
                            | (Ok None, a') => I a'
                            | (Panic, _) => False
                            | (_, a') => J a'
                            end)
    (HIJ : forall a, I a -> J a)
    (Hcat : forall l l', Good l -> Good l' -> Good (l ++ l')).

  Lemma cont_loop_inv fuel : forall line a line' pk a', I a -> Good line ->
    cont_loop nl fuel line a = (line', pk, a') ->
    Good line' /\ pk <> Some Panic /\ J a'
    /\ match pk with
       | Some (Ok (Some l)) => I a' /\ Good l
       | Some (Ok None) => I a'
       | None => I a'
       | _ => True
       end.
  Proof.
    induction fuel as [|f IH]; intros line a line' pk a' Ha Hl E; cbn [cont_loop] in E.
    - injection E as <- <- <-. repeat split; auto. easy.
    - specialize (Hnl a Ha) as H. destruct (nl a) as [[[l|]|e| |] s]; try easy.
      + destruct H as [H1 H2]. destruct (starts_blank l).
        * eapply IH; [exact H1| |exact E]. auto.
        * injection E as <- <- <-. repeat split; auto. easy.
      + injection E as <- <- <-. repeat split; auto; easy.
      + injection E as <- <- <-. repeat split; auto; easy.
      + injection E as <- <- <-. repeat split; auto; easy.
  Qed.

  Definition pk_inv (pk : peeked) (a : L) : Prop :=
    pk <> Some Panic /\ J a /\ match pk with
       | Some (Ok (Some l)) => I a /\ Good l
       | Some (Ok None) => I a
       | None => I a
       | _ => True
       end.

  Lemma headers_loop_inv fuel : forall acc pk a r a', pk_inv pk a ->
    headers_loop nl fuel acc pk a = (r, a') ->
    J a' /\ (r = Panic -> exists l, Good l /\ header_deserialize l = Panic).
  Proof.
    induction fuel as [|f IH]; intros acc pk a r a' (Hp1 & Hp2 & Hp3) E.
    { cbn [headers_loop] in E. injection E as <- <-. easy. }
    unfold headers_loop in E; fold (headers_loop nl) in E.
    assert (Hn : match pk_next nl pk a with
                 | (Ok (Some l), a') => I a' /\ Good l
                 | (Ok None, a') => I a'
                 | (Panic, _) => False
                 | (_, a') => J a'
                 end).
    { destruct pk as [[[l|]|e| |]|]; cbn [pk_next]; auto. now apply Hnl. }
    destruct (pk_next nl pk a) as [[[l|]|e| |] s].
    - destruct Hn as [H1 H2]. destruct (cont_loop nl (S f) l s) as [[line' pk'] s'] eqn:Ec.
      destruct (cont_loop_inv (S f) l s line' pk' s' H1 H2 Ec) as (G & P1 & P2 & P3).
      assert (Hok : pk_ok pk' \/ pk' = Some Fuel).
      { destruct pk' as [[x|x| |]|]; auto; try (left; now split); easy. }
      destruct Hok as [Hok| ->]; [rewrite (pk_guard _ _ _ _ Hok) in E|injection E as <- <-; easy].
      destruct (header_deserialize line') as [h|e| |] eqn:Eh.
      + eapply IH; [|exact E]. split; auto.
      + injection E as <- <-. easy.
      + injection E as <- <-. eauto.
      + injection E as <- <-. easy.
    - injection E as <- <-. split; auto. easy.
    - injection E as <- <-. split; auto. easy.
    - easy.
    - injection E as <- <-. split; auto. easy.
  Qed.

  Lemma expect_next_inv a : I a -> match expect_next nl a with
    | (Ok l, a') => I a' /\ Good l
    | (Panic, _) => False
    | (_, a') => J a'
    end.
  Proof. intros H. specialize (Hnl a H). unfold expect_next. destruct (nl a) as [[[l|]| | |] s]; auto. Qed.

  Lemma request_head_inv fuel a r a' : I a -> request_head nl fuel a = (r, a') ->
    J a' /\ (r = Panic -> exists l, Good l /\ (header_deserialize l = Panic \/ req_line l = Panic)).
  Proof.
    intros Ha E. rewrite request_head_eq in E. pose proof (expect_next_inv a Ha) as H.
    destruct (expect_next nl a) as [[l|e| |] s]; cbn [sbind] in E; try easy;
      try (injection E as <- <-; split; [auto; fail|easy]).
    destruct H as [H1 H2]. destruct (req_line l) as [x|e| |] eqn:El; cbn [sbind] in E;
      try (injection E as <- <-; split; [now auto|easy || eauto]).
    unfold headers_deserialize in E. destruct (headers_loop nl fuel [] None s) as [r2 s2] eqn:E2.
    destruct (headers_loop_inv fuel [] None s r2 s2) as [H3 H4]; auto; [now repeat split; auto|].
    destruct r2 as [h|e| |]; cbn [sbind] in E; injection E as <- <-; split; auto; try easy.
    - destruct (content_length_cases h) as [[n ->]|[k ->]]; easy.
    - intros _. destruct (H4 eq_refl) as (l' & ? & ?). eauto.
  Qed.
  Lemma response_head_inv fuel a r a' : I a -> response_head nl fuel a = (r, a') ->
    J a' /\ (r = Panic -> exists l, Good l /\ (header_deserialize l = Panic \/ resp_line l = Panic)).
  Proof.
    intros Ha E. rewrite response_head_eq in E. pose proof (expect_next_inv a Ha) as H.
    destruct (expect_next nl a) as [[l|e| |] s]; cbn [sbind] in E; try easy;
      try (injection E as <- <-; split; [auto; fail|easy]).
    destruct H as [H1 H2]. destruct (resp_line l) as [x|e| |] eqn:El; cbn [sbind] in E;
      try (injection E as <- <-; split; [now auto|easy || eauto]).
    unfold headers_deserialize in E. destruct (headers_loop nl fuel [] None s) as [r2 s2] eqn:E2.
    destruct (headers_loop_inv fuel [] None s r2 s2) as [H3 H4]; auto; [now repeat split; auto|].
    destruct r2 as [h|e| |]; cbn [sbind] in E; injection E as <- <-; split; auto; try easy.
    - destruct (content_length_cases h) as [[n ->]|[k ->]]; easy.
    - intros _. destruct (H4 eq_refl) as (l' & ? & ?). eauto.
  Qed.
End Hoare.
