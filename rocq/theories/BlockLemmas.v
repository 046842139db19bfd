(** Lemmas on header blocks: physical lines, continuation lines, round trips. *)
From Verif Require Import Base Utf8 Case Num Io Parser Types Message Transport Lemmas ReadLemmas NumLemmas
  Utf8Lemmas ParserLemmas CaseLemmas TypesLemmas HeadLemmas.

(** ** Reading a line that is followed by anything *)
Lemma items_line_app bld xs : forall acc r ys zs, items_line bld acc xs = (r, ys) -> r <> Err UnexpectedEof ->
  items_line bld acc (xs ++ zs) = (r, ys ++ zs).
Proof.
  induction xs as [|[b|e] xs IH]; intros acc r ys zs H Hr; cbn [items_line app] in *.
  - inversion H. congruence.
  - destruct (ends_crlf _); [now inversion H; subst|]. now apply IH.
  - destruct (is_retry bld e); [|now inversion H; subst]. now apply IH.
Qed.

Lemma items_line_suffix bld xs : forall acc, exists pre, xs = pre ++ snd (items_line bld acc xs).
Proof.
  induction xs as [|[b|e] xs IH]; intros acc; cbn [items_line].
  - now exists [].
  - destruct (ends_crlf _); [now exists [B b]|]. destruct (IH (acc ++ [b])) as [pre H]. exists (B b :: pre).
    simpl. now rewrite <- H.
  - destruct (is_retry bld e); [|now exists [E e]]. destruct (IH acc) as [pre H]. exists (E e :: pre).
    simpl. now rewrite <- H.
Qed.

Definition suffix {A} (ys xs : list A) : Prop := exists pre, xs = pre ++ ys.
Lemma suffix_refl {A} (xs : list A) : suffix xs xs.
Proof. now exists []. Qed.
Lemma suffix_trans {A} (a b c : list A) : suffix a b -> suffix b c -> suffix a c.
Proof. intros [p ->] [q ->]. exists (q ++ p). now rewrite app_assoc. Qed.

Lemma line_result_not_eof l : line_result l <> Err UnexpectedEof.
Proof. unfold line_result. destruct l; [easy|]. now destruct (utf8_valid _). Qed.

Lemma il_found bld line rest hx zs : no_crlf line -> noisy bld (line ++ CRLF ++ rest) hx ->
  exists hx', il bld (hx ++ zs) = (line_result line, hx' ++ zs) /\ noisy bld rest hx' /\ suffix hx' hx.
Proof.
  intros Hn Hx. destruct (items_line_found bld line hx rest Hn Hx) as (hx' & E & H'). exists hx'. split; [|split; auto].
  - unfold il. apply items_line_app; auto. apply line_result_not_eof.
  - destruct (items_line_suffix bld hx []) as [pre Hp]. exists pre. now rewrite E in Hp.
Qed.

(** ** Physical and logical lines *)
Definition text_line (l : bytes) : Prop := l <> [] /\ no_crlf l /\ is_utf8 l.
Definition wire_lines (ls : list bytes) : bytes := flat_map (fun l => l ++ CRLF) ls.

(** [starts_with_blank]: the first character is a space or a tab. *)
Definition blank_first (l : bytes) : Prop := exists b t, l = b :: t /\ blank b.

(** Continuation lines are joined, with their leading blank, to the line before. *)
Inductive folded : list bytes -> list bytes -> Prop :=
| folded_nil : folded [] []
| folded_group l conts rest logical :
    Forall blank_first conts -> (forall l' t, rest = l' :: t -> ~ blank_first l') ->
    folded rest logical -> folded (l :: conts ++ rest) ((l ++ concat conts) :: logical).

Lemma starts_blank_true l : starts_blank l = true <-> blank_first l.
Proof.
  destruct l as [|b t]; cbn [starts_blank].
  - split; [easy|]. intros (b & t & H & _). easy.
  - rewrite is_blank_true. split; [intros H; now exists b, t|]. intros (b' & t' & [= <- <-] & H). auto.
Qed.
Lemma starts_blank_false l : starts_blank l = false <-> ~ blank_first l.
Proof. rewrite <- starts_blank_true. now destruct (starts_blank l). Qed.

Lemma folded_exists lines : exists logical, folded lines logical.
Proof.
  induction lines as [lines IH] using (induction_ltof1 _ (@length _)). unfold ltof in IH.
  destruct lines as [|l lines]; [exists []; constructor|].
  assert (Hs : forall ls : list bytes, exists c r, ls = c ++ r /\ Forall blank_first c /\ forall l' t, r = l' :: t -> ~ blank_first l').
  { induction ls as [|a ls (c & r & -> & H1 & H2)].
    - exists [], []. repeat split; auto. easy.
    - destruct (starts_blank a) eqn:E.
      + exists (a :: c), r. repeat split; auto. constructor; auto. now apply starts_blank_true.
      + exists [], (a :: c ++ r). repeat split; auto. intros ? ? [= <- _]. now apply starts_blank_false. }
  destruct (Hs lines) as (c & r & -> & H1 & H2).
  destruct (IH r) as (lo & Hlo); [simpl; rewrite app_length; lia|].
  exists ((l ++ concat c) :: lo). now constructor.
Qed.

Lemma line_result_text l : text_line l -> line_result l = Ok (Some l).
Proof.
  intros (H1 & _ & H3). apply is_utf8_valid in H3. unfold line_result. destruct l; [easy|]. now rewrite H3.
Qed.

(** Where the loop stands: lines still to be processed, one of them possibly peeked already. *)
Definition pending (bld : build) (lines : list bytes) (rest : bytes) (zs : list item) (pk : peeked) (xs : list item) : Prop :=
  exists hx, xs = hx ++ zs
  /\ ((pk = None /\ noisy bld (wire_lines lines ++ CRLF ++ rest) hx)
      \/ (exists l t, lines = l :: t /\ pk = Some (Ok (Some l)) /\ noisy bld (wire_lines t ++ CRLF ++ rest) hx)
      \/ (lines = [] /\ pk = Some (Ok None) /\ noisy bld rest hx)).

Lemma wire_lines_cons l t : wire_lines (l :: t) = l ++ CRLF ++ wire_lines t.
Proof. unfold wire_lines. cbn [flat_map]. now rewrite <- app_assoc. Qed.
Lemma wire_lines_app a b : wire_lines (a ++ b) = wire_lines a ++ wire_lines b.
Proof. apply flat_map_app. Qed.

Lemma cont_loop_block bld conts : forall fuel line rlines rest zs xs,
  Forall text_line (conts ++ rlines) -> Forall blank_first conts ->
  (forall l' t, rlines = l' :: t -> ~ blank_first l') -> length conts < fuel ->
  (exists hx, xs = hx ++ zs /\ noisy bld (wire_lines (conts ++ rlines) ++ CRLF ++ rest) hx) ->
  exists pk xs', cont_loop (il bld) fuel line xs = (line ++ concat conts, pk, xs')
    /\ pending bld rlines rest zs pk xs' /\ pk <> None /\ suffix xs' xs.
Proof.
  induction conts as [|c conts IH]; intros fuel line rlines rest zs xs Ht Hb Hr Hf (hx & -> & Hx);
    (destruct fuel as [|f]; [simpl in Hf; lia|]); cbn [cont_loop app concat] in *.
  - rewrite app_nil_r. destruct rlines as [|l t].
    + destruct (il_found bld [] rest hx zs no_crlf_nil Hx) as (hx' & -> & H' & Hs). cbn [line_result].
      eexists _, _. split; [reflexivity|]. split; [|split; [easy|]].
      * exists hx'. auto 10.
      * destruct Hs as [p ->]. exists p. now rewrite app_assoc.
    + rewrite wire_lines_cons, <- !app_assoc in Hx. inversion Ht as [|? ? Hl Ht']; subst.
      destruct (il_found bld l _ hx zs (proj1 (proj2 Hl)) Hx) as (hx' & -> & H' & Hs). rewrite (line_result_text l Hl).
      replace (starts_blank l) with false by (symmetry; apply starts_blank_false; now apply (Hr l t)).
      eexists _, _. split; [reflexivity|]. split; [|split; [easy|]].
      * exists hx'. split; auto. right. left. exists l, t. auto.
      * destruct Hs as [p ->]. exists p. now rewrite app_assoc.
  - rewrite wire_lines_cons, <- !app_assoc in Hx. inversion Ht as [|? ? Hl Ht']; subst. inversion Hb as [|? ? Hc Hb']; subst.
    destruct (il_found bld c _ hx zs (proj1 (proj2 Hl)) Hx) as (hx' & -> & H' & Hs). rewrite (line_result_text c Hl).
    rewrite (proj2 (starts_blank_true c) Hc).
    destruct (IH f (line ++ c) rlines rest zs (hx' ++ zs)) as (pk & xs' & E & H1 & H2 & H3); auto.
    + simpl in Hf. lia.
    + exists hx'. split; auto.
    + exists pk, xs'. rewrite E. rewrite app_assoc. split; auto. split; auto. split; auto.
      eapply suffix_trans; eauto. destruct Hs as [p ->]. exists p. now rewrite app_assoc.
Qed.

(** The loop over a whole block, with the outcome of the header lines. *)
Inductive parses : list bytes -> list header -> res unit -> Prop :=
| parses_nil : parses [] [] (Ok tt)
| parses_ok l h ls hs r : header_deserialize l = Ok h -> parses ls hs r -> parses (l :: ls) (h :: hs) r
| parses_err l e ls : header_deserialize l = Err e -> parses (l :: ls) [] (Err e)
| parses_panic l ls : header_deserialize l = Panic -> parses (l :: ls) [] Panic.

Lemma headers_loop_block bld lines logical : folded lines logical ->
  forall hs o fuel acc rest zs pk xs, Forall text_line lines -> parses logical hs o ->
  length xs + pk_size pk < fuel -> pending bld lines rest zs pk xs ->
  exists xs', headers_loop (il bld) fuel acc pk xs = (do _ <- o; Ok (headers_from (acc ++ hs)), xs')
    /\ suffix xs' xs
    /\ (o = Ok tt -> exists hx', xs' = hx' ++ zs /\ noisy bld rest hx').
Proof.
  induction 1 as [|l conts rlines logical Hc Hr Hfold IH]; intros hs o fuel acc rest zs pk xs Ht Hp Hf Hpend.
  - inversion Hp; subst. rewrite app_nil_r. destruct fuel as [|f]; [lia|].
    cbn [headers_loop]. destruct Hpend as (hx & -> & [[-> Hx]|[(l & t & H & _)|[_ [-> Hx]]]]); [|easy|].
    + cbn [pk_next]. destruct (il_found bld [] rest hx zs no_crlf_nil Hx) as (hx' & -> & H' & [p ->]). cbn [line_result].
      eexists. split; [reflexivity|]. split; [exists p; now rewrite app_assoc|eauto].
    + cbn [pk_next]. eexists. split; [reflexivity|]. split; [apply suffix_refl|eauto].
  - destruct fuel as [|f]; [lia|]. inversion Ht as [|? ? Hl Ht']; subst.
    assert (Hstart : exists hx, pk_next (il bld) pk xs = (Ok (Some l), hx ++ zs)
      /\ noisy bld (wire_lines (conts ++ rlines) ++ CRLF ++ rest) hx
      /\ suffix (hx ++ zs) xs /\ length (hx ++ zs) < length xs + pk_size pk).
    { destruct Hpend as (hx & -> & [[-> Hx]|[(l' & t & [= <- <-] & -> & Hx)|[H _]]]); [| |easy].
      - rewrite wire_lines_cons, <- !app_assoc in Hx. cbn [pk_next].
        destruct (il_found bld l _ hx zs (proj1 (proj2 Hl)) Hx) as (hx' & E & H' & [p ->]).
        rewrite (line_result_text l Hl) in E. exists hx'. rewrite E. split; auto. split; auto. split.
        + exists p. now rewrite app_assoc.
        + apply il_lt in E. rewrite Nat.add_0_r. lia.
      - cbn [pk_next]. exists hx. split; auto. split; auto. split; [apply suffix_refl|]. cbn [pk_size]. lia. }
    destruct Hstart as (hx & E & Hx & Hs & Hlt).
    assert (Hlen : length conts < S f).
    { assert (length conts <= length (hx ++ zs)); [|lia]. rewrite app_length.
      assert (Hd : forall (d : bytes) h, noisy bld d h -> length d <= length h) by (induction 1; simpl; lia).
      apply Hd in Hx. rewrite wire_lines_app, !app_length in Hx.
      assert (Hcl : forall ls, length ls <= length (wire_lines ls)).
      { induction ls as [|a ls IHl]; [simpl; lia|]. rewrite wire_lines_cons, !app_length. simpl. lia. }
      specialize (Hcl conts). lia. }
    destruct (cont_loop_block bld conts (S f) l rlines rest zs (hx ++ zs)) as (pk' & xs' & Ec & Hp' & Hn' & Hs'); eauto.
    unfold headers_loop; fold (headers_loop (il bld)). rewrite E, Ec.
    assert (Hsuf : suffix xs' xs) by (eapply suffix_trans; eauto).
    assert (Hok : pk_ok pk').
    { destruct (cont_loop_fuel bld (S f) (S f) l (hx ++ zs) ltac:(lia) ltac:(lia)) as (_ & Hok & _). now rewrite Ec in Hok. }
    rewrite (pk_guard _ _ _ _ Hok).
    inversion Hp as [|? h ? hs' ? Hh Hp2|? e ? Hh|? ? Hh]; subst; rewrite Hh.
    + destruct (IH hs' o f (acc ++ [h]) rest zs pk' xs') as (xs'' & E2 & H2 & H3); auto.
      * apply Forall_app in Ht'. tauto.
      * destruct (cont_loop_fuel bld (S f) (S f) l (hx ++ zs) ltac:(lia) ltac:(lia)) as (_ & _ & Hl1 & Hl2).
        rewrite Ec in Hl1, Hl2. cbn [fst snd] in Hl1, Hl2. unfold pk_size.
        destruct pk' as [[[l'|]| | |]|]; try lia. specialize (Hl2 l' eq_refl). lia.
      * exists xs''. rewrite E2. rewrite <- app_assoc. split; auto. split; auto. eapply suffix_trans; eauto.
    + exists xs'. split; auto. split; auto. easy.
    + exists xs'. split; auto. split; auto. easy.
Qed.

Lemma hdrs_block bld lines logical hs o hx zs rest : folded lines logical -> Forall text_line lines ->
  parses logical hs o -> noisy bld (wire_lines lines ++ CRLF ++ rest) hx ->
  exists ys, hdrs_of bld (hx ++ zs) = (do _ <- o; Ok (headers_from hs), ys) /\ suffix ys (hx ++ zs)
    /\ (o = Ok tt -> exists hx', ys = hx' ++ zs /\ noisy bld rest hx').
Proof.
  intros H1 H2 H3 H4. unfold hdrs_of, headers_deserialize.
  destruct (headers_loop_block bld lines logical H1 hs o (S (length (hx ++ zs))) [] rest zs None (hx ++ zs))
    as (ys & E & H5 & H6); auto.
  - cbn. lia.
  - exists hx. split; auto.
  - exists ys. auto.
Qed.

Lemma noisy_map bld d : noisy bld d (map B d).
Proof. induction d; constructor; auto. Qed.

Lemma noisy_nil_suffix bld hx d : noisy bld [] hx -> suffix hx (map B d) -> hx = [].
Proof.
  intros Hn [p Hp]. inversion Hn; subst; auto.
  exfalso. assert (Hin : In (E e) (map B d)) by (rewrite Hp; apply in_or_app; right; now left).
  apply in_map_iff in Hin as (b & Hb & _). easy.
Qed.

Lemma suffix_app_inv {A} (ys zs a : list A) : suffix (ys ++ zs) (a ++ zs) -> suffix ys a.
Proof. intros [p H]. rewrite app_assoc in H. apply app_inv_tail in H. now exists p. Qed.

(** Without interruptions the rest is exact. *)
Lemma hdrs_block_exact bld lines logical hs zs : folded lines logical -> Forall text_line lines ->
  parses logical hs (Ok tt) ->
  hdrs_of bld (map B (wire_lines lines ++ CRLF) ++ zs) = (Ok (headers_from hs), zs).
Proof.
  intros H1 H2 H3.
  destruct (hdrs_block bld lines logical hs (Ok tt) (map B (wire_lines lines ++ CRLF)) zs [] H1 H2 H3) as (ys & E & Hs & Hy).
  - rewrite app_nil_r. apply noisy_map.
  - rewrite E. destruct (Hy eq_refl) as (hx' & -> & Hn). apply suffix_app_inv in Hs.
    rewrite (noisy_nil_suffix _ _ _ Hn Hs). reflexivity.
Qed.

(** ** Serialized header sets *)
Definition sendable_key (k : bytes) : Prop :=
  is_utf8 k /\ ~ In COLON k /\ no_crlf k /\ ~ blank_first k /\ to_lowercase k = k.
Definition sendable_value (v : bytes) : Prop := is_utf8 v /\ no_crlf v.
Definition sendable (m : headers) : Prop :=
  sorted m /\ Forall (fun kv => sendable_key (fst kv) /\ sendable_value (snd kv)) m.

Definition header_line (kv : bytes * bytes) : bytes := fst kv ++ bs ": " ++ snd kv.

Lemma headers_pieces_wire m : concat (headers_pieces m) = wire_lines (map header_line m).
Proof.
  induction m as [|[k v] m IH]; auto. cbn [headers_pieces flat_map map app concat]. rewrite wire_lines_cons.
  unfold header_line at 1. cbn [fst snd]. fold (headers_pieces m). rewrite IH. now rewrite <- !app_assoc.
Qed.

Lemma no_crlf_iff s : no_crlf s <-> forall i, ~ (nth_error s i = Some CR /\ nth_error s (S i) = Some LF).
Proof.
  split.
  - intros H i [H1 H2]. apply H. apply nth_error_split in H1 as (a & b & -> & Hl).
    rewrite nth_error_app2 in H2 by lia. replace (S i - length a) with 1 in H2 by lia. cbn in H2.
    destruct b as [|c b]; [easy|]. cbn in H2. injection H2 as ->. exists a, b. reflexivity.
  - intros H (a & b & ->). apply (H (length a)). split.
    + rewrite nth_error_app2, Nat.sub_diag by lia. reflexivity.
    + rewrite nth_error_app2 by lia. replace (S (length a) - length a) with 1 by lia. reflexivity.
Qed.

Lemma no_crlf_app a b c : c <> LF -> no_crlf a -> no_crlf (c :: b) -> no_crlf (a ++ c :: b).
Proof.
  intros Hc Ha Hb. apply no_crlf_iff. intros i [H1 H2]. rewrite no_crlf_iff in Ha, Hb.
  destruct (Nat.lt_ge_cases (S i) (length a)).
  - rewrite nth_error_app1 in H1, H2 by lia. now apply (Ha i).
  - destruct (Nat.eq_dec (S i) (length a)).
    + rewrite nth_error_app2 in H2 by lia. replace (S i - length a) with 0 in H2 by lia. cbn in H2. congruence.
    + rewrite nth_error_app2 in H1, H2 by lia. apply (Hb (i - length a)). split; auto.
      now replace (S (i - length a)) with (S i - length a) by lia.
Qed.

Lemma no_crlf_cons c b : c <> CR -> no_crlf b -> no_crlf (c :: b).
Proof.
  intros Hc Hb. apply no_crlf_iff. rewrite no_crlf_iff in Hb. intros [|i] [H1 H2].
  - cbn in H1. congruence.
  - now apply (Hb i).
Qed.

Lemma header_line_text k v : is_utf8 k -> no_crlf k -> sendable_value v -> text_line (header_line (k, v)).
Proof.
  intros Hk Hn [Hv Hvn]. unfold header_line. cbn [fst snd]. repeat split.
  - now destruct k.
  - change (bs ": " ++ v) with (COLON :: SP :: v). apply no_crlf_app; try easy.
    apply no_crlf_cons; [easy|]. apply no_crlf_cons; [easy|]. auto.
  - rewrite is_utf8_valid in *. apply valid_app; auto. apply valid_app; auto.
Qed.

Lemma header_line_not_blank k v : ~ blank_first k -> ~ blank_first (header_line (k, v)).
Proof.
  intros H (b & t & E & Hb). unfold header_line in E. cbn [fst snd] in E. destruct k as [|c k].
  - injection E as <- _. destruct Hb; easy.
  - injection E as -> _. apply H. exists b, k. auto.
Qed.

Lemma folded_plain ls : Forall (fun l => ~ blank_first l) ls -> folded ls ls.
Proof.
  induction 1 as [|l ls Hl H IH]; [constructor|].
  pose proof (folded_group l [] ls ls) as Hg. cbn [app concat] in Hg. rewrite app_nil_r in Hg. apply Hg; auto.
  intros l' t ->. now inversion H.
Qed.

Lemma sendable_parses m : Forall (fun kv => sendable_key (fst kv) /\ sendable_value (snd kv)) m ->
  Forall text_line (map header_line m) /\ folded (map header_line m) (map header_line m)
  /\ parses (map header_line m) m (Ok tt).
Proof.
  intros H. split; [|split].
  - apply Forall_forall. intros l Hl. apply in_map_iff in Hl as ([k v] & <- & Hin).
    rewrite Forall_forall in H. apply H in Hin as [(H1 & H2 & H3 & H4 & H5) Hv]. now apply header_line_text.
  - apply folded_plain. apply Forall_forall. intros l Hl. apply in_map_iff in Hl as ([k v] & <- & Hin).
    rewrite Forall_forall in H. apply H in Hin as [(H1 & H2 & H3 & H4 & H5) Hv]. now apply header_line_not_blank.
  - induction H as [|[k v] m [(H1 & H2 & H3 & H4 & H5) Hv] H IH]; cbn [map]; [constructor|]. constructor; auto.
    unfold header_line. cbn [fst snd] in *. rewrite header_deserialize_ok; auto.
    + now rewrite H5.
    + rewrite is_utf8_valid in *. apply valid_app; auto. apply valid_app; auto. destruct Hv as [Hv _]. now apply is_utf8_valid.
Qed.

Lemma hdrs_round_trip bld m zs : sendable m ->
  hdrs_of bld (map B (concat (headers_pieces m) ++ CRLF) ++ zs) = (Ok m, zs).
Proof.
  intros [Hs H]. apply sendable_parses in H as (H1 & H2 & H3). rewrite headers_pieces_wire.
  rewrite (hdrs_block_exact bld _ _ m zs H2 H1 H3). now rewrite headers_from_id.
Qed.
