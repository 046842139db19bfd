(** Properties of the I/O layer and of body bookkeeping. *)
From Verif Require Import Base Utf8 Num Io Message Transport Lemmas ReadLemmas NumLemmas Utf8Lemmas
  ChunkSpec ChunkLemmas BodyLemmas WriteLemmas.

(** C10. A transport failure inside a chunked body: the payload received so far is delivered, then the
    error, once, then end of file; nothing behind the failure is touched. *)
Theorem C10_error_reported_once :
  forall T bld (rd : reader T) t p w e ys len fuel,
  partial_wire p w -> is_retry bld e = false ->
  delivers rd t (map B w ++ E e :: ys) ->
  length (map B w ++ E e :: ys) + 3 < fuel ->
  exists e', (e' = e \/ e' = to_io bld e)
    /\ delivers_end (body_read bld rd fuel) (BChunked len (CStream t)) (map B p ++ [E e'])
        (fun b => exists t', b = BChunked len (CDone t') /\ delivers rd t' ys).
Proof.
  intros T bld rd t p w e ys len fuel H1 H2 H3 H4.
  destruct (partial_fail bld p w e ys H1 H2) as (e' & He & Hd). exists e'. split; auto.
  eapply chunked_body_delivers; eauto.
Qed.
Print Assumptions C10_error_reported_once.

(** Every strict prefix of a well-formed encoding is such a partial input. *)
Theorem C10_covers_all_cuts :
  forall payload wire cut missing, chunked_wire payload wire -> wire = cut ++ missing -> missing <> [] ->
  exists p q, payload = p ++ q /\ partial_wire p cut.
Proof. intros. eapply loose_prefix; eauto using chunked_loose. Qed.
Print Assumptions C10_covers_all_cuts.

(** An interruption between data bytes ends the body although the transport could go on: after whole
    chunks carrying [p1] and [data] short of the announced [n] bytes, an [Interrupted] error makes the
    std [copy] report success with the truncated content. *)
Inductive whole_chunks : bytes -> bytes -> Prop :=
| wc_nil : whole_chunks [] []
| wc_chunk h data a b p w : data <> [] -> size_line h (N.of_nat (length data)) -> whole_chunks p w ->
    whole_chunks (data ++ p) (h ++ CRLF ++ data ++ [a; b] ++ w).

Lemma whole_chunks_decodes bld p w xs out rest : whole_chunks p w -> decodes bld None xs out rest ->
  decodes bld None (map B w ++ xs) (map B p ++ out) rest.
Proof.
  intros H Hd. induction H as [|h data a b p w H1 H2 H3 IH]; auto.
  replace (map B (h ++ CRLF ++ data ++ [a; b] ++ w) ++ xs)
    with (map B (h ++ CRLF ++ data ++ [a; b]) ++ map B w ++ xs) by assoc_map.
  rewrite (map_app B data p), <- (app_assoc (map B data)). now apply decodes_chunk.
Qed.

Theorem C10_interrupted_copy_truncates :
  forall T W (rd : reader T) (wt : writer W) log t p w h n data ys len fuel bufsz sink,
  whole_chunks p w -> size_line h n -> (N.of_nat (length data) < n)%N ->
  delivers rd t (map B (w ++ h ++ CRLF ++ data) ++ E (IoError Interrupted) :: ys) ->
  length (map B (w ++ h ++ CRLF ++ data) ++ E (IoError Interrupted) :: ys) + 3 < fuel ->
  honest wt log -> reliable wt -> 0 < bufsz <= fuel ->
  exists b' sink',
    copy Std (body_read Std rd fuel) wt bufsz fuel (BChunked len (CStream t)) sink
      = (Ok (N.of_nat (length (p ++ data))), (b', sink'))
    /\ log sink' = log sink ++ p ++ data.
Proof.
  intros T W rd wt log t p w h n data ys len fuel bufsz sink H1 H2 H3 H4 H5 H6 H7 H8.
  assert (Hd : decodes Std None (map B (w ++ h ++ CRLF ++ data) ++ E (IoError Interrupted) :: ys)
     (map B (p ++ data) ++ [E (IoError Interrupted)]) ys).
  { replace (map B (w ++ h ++ CRLF ++ data) ++ E (IoError Interrupted) :: ys)
      with (map B w ++ map B (h ++ CRLF) ++ map B data ++ E (IoError Interrupted) :: ys) by assoc_map.
    rewrite (map_app B p data), <- (app_assoc (map B p)). apply whole_chunks_decodes; auto.
    eapply decodes_size; eauto; [lia|]. apply decodes_data; [lia|]. apply d_fail. lia. }
  pose proof (delivers_end_delivers _ _ _ _ (chunked_body_delivers Std rd t _ _ _ fuel len H4 Hd H5)) as Hb.
  assert (Hn : noisy Std ((p ++ data) ++ []) (map B (p ++ data) ++ [E (IoError Interrupted)])).
  { apply noisy_app; auto using noisy_map_B. apply noisy_retry; auto. constructor. }
  rewrite app_nil_r in Hn.
  destruct (copy_complete Std (body_read Std rd fuel) (write_all Std wt fuel) log bufsz ltac:(lia)
     ltac:(intros d w0 Hd0; apply write_all_reliable; auto; lia) fuel 0%N _ sink _ _ Hb Hn) as (b' & sink' & E1 & E2 & E3).
  { rewrite app_length, map_length. simpl. 
    assert (Hpl : length p <= length w).
    { clear -H1. induction H1; auto. rewrite !app_length. lia. }
    rewrite !app_length. rewrite app_length, map_length, !app_length in H5. simpl in H5. lia. }
  exists b', sink'. auto.
Qed.
Print Assumptions C10_interrupted_copy_truncates.

Example C10_case : copy Std (body_read Std seg_read 40) script_writer 5 40
    (BChunked None (CStream [Seg x34 [x0d; x0a; x61; x62]; Fail (IoError Interrupted); Seg x63 [x64; x0d; x0a; x30; x0d; x0a]]))
    ([], [])
  = (Ok 2%N, (BChunked None (CDone [Seg x63 [x64; x0d; x0a; x30; x0d; x0a]]), ([], bs "ab"))).
Proof. reflexivity. Qed.

(** C12. [reads rd b got b']: some reads from [b] with any buffer sizes, successful or failed, delivered [got]. *)
Inductive reads {St} (rd : reader St) : St -> bytes -> St -> Prop :=
| reads_nil s : reads rd s [] s
| reads_step n s got s' more s'' : rd n s = (Ok got, s') -> reads rd s' more s'' -> reads rd s (got ++ more) s''
| reads_fail n s e s' more s'' : rd n s = (Err e, s') -> reads rd s' more s'' -> reads rd s more s''.

Lemma limited_reads {T} bld (rd : reader T) fuel b got b' :
  reads (body_read bld rd fuel) b got b' -> forall n t, b = BLimited n t ->
  (N.of_nat (length got) <= n)%N /\ exists t', b' = BLimited (n - N.of_nat (length got)) t'.
Proof.
  induction 1 as [s|m s got s' more s'' H1 H2 IH|m s e s' more s'' H1 H2 IH]; intros n t ->.
  - split; [simpl; lia|]. exists t. now rewrite N.sub_0_r.
  - simpl in H1. unfold take_read in H1. destruct (n =? 0)%N eqn:En.
    + inversion H1; subst. simpl. eauto.
    + destruct (rd _ t) as [[g| | |] t1]; try easy. destruct (N.of_nat (length g) <=? n)%N eqn:El; [|easy].
      inversion H1; subst. apply N.leb_le in El. destruct (IH _ _ eq_refl) as (I1 & t' & I2).
      rewrite app_length. split; [lia|]. exists t'. rewrite I2. f_equal. lia.
  - simpl in H1. unfold take_read in H1. destruct (n =? 0)%N; [easy|].
    destruct (rd _ t) as [[g| | |] t1]; try easy; [destruct (N.of_nat (length g) <=? n)%N; easy|].
    inversion H1; subst. eauto.
Qed.

(** For every reader, even a misbehaving one, and every sequence of reads. *)
Theorem C12_content_length :
  forall T bld (rd : reader T) fuel,
  (forall n t got b, reads (body_read bld rd fuel) (BLimited n t) got b ->
     (N.of_nat (length got) <= n)%N /\ body_content_length b = Some (n - N.of_nat (length got))%N)
  /\ (forall len c got b, reads (body_read bld rd fuel) (BChunked len c) got b -> body_content_length b = len)
  /\ (forall t got b, reads (body_read bld rd fuel) (BTilClose t) got b -> body_content_length b = None).
Proof.
  intros T bld rd fuel. repeat split.
  - now destruct (limited_reads _ _ _ _ _ _ H n t eq_refl).
  - destruct (limited_reads _ _ _ _ _ _ H n t eq_refl) as (_ & t' & ->). reflexivity.
  - intros len c got b H. remember (BChunked len c) as b0 eqn:Hb. revert c Hb.
    induction H; intros c ->; auto; rewrite body_read_chunked in H; inversion H; subst; eauto.
  - intros t got b H. remember (BTilClose t) as b0 eqn:Hb. revert t Hb.
    induction H; intros t ->; auto; rewrite body_read_tilclose in H; inversion H; subst; eauto.
Qed.
Print Assumptions C12_content_length.

(** The peer closes early: clean end of file, the shortfall shows only in content_length. *)
Theorem C12_short_body_is_clean_eof :
  forall T bld (rd : reader T) t data n fuel got o b,
  delivers rd t (map B data) -> (N.of_nat (length data) < n)%N ->
  drains (body_read bld rd fuel) (BLimited n t) got o b ->
  got = data /\ o = None /\ body_content_length b = Some (n - N.of_nat (length data))%N
  /\ (0 < n - N.of_nat (length data))%N.
Proof.
  intros T bld rd t data n fuel got o b H1 H2 H3.
  pose proof (limited_delivers bld rd t _ n fuel H1) as Hd. rewrite take_items_short in Hd by lia.
  destruct (delivers_drains _ _ _ _ _ _ Hd H3) as (-> & ->). rewrite lead_map, fault_map in *.
  assert (Hr : reads (body_read bld rd fuel) (BLimited n t) data b).
  { clear -H3. remember None as o eqn:Ho. induction H3; try easy.
    - rewrite <- (app_nil_r []). eapply reads_step; eauto using reads_nil.
    - eapply reads_step; eauto. }
  repeat split; try lia. eapply (proj1 (C12_content_length T bld rd fuel)); eauto.
Qed.
Print Assumptions C12_short_body_is_clean_eof.

Example C12_case : exists b, drains (body_read Std seg_read 9) (BLimited 9 [Seg x61 [x62]]) (bs "ab") None b
  /\ body_content_length b = Some 7%N.
Proof.
  exists (BLimited 7 []). split; [|reflexivity]. change (bs "ab") with (bs "ab" ++ []).
  eapply (drains_step _ 7); [lia|reflexivity|easy|]. eapply (drains_eof _ 1); [lia|reflexivity].
Qed.

(** C31. Take delivers exactly the first [n] bytes (failures in between stay), for every inner stream;
    whatever the inner reader does, limit plus delivered bytes is constant and nothing beyond the
    limit is delivered; at limit 0 the inner reader is not called. *)
Theorem C31_take_delivers :
  forall St (rd : reader St) s xs n,
  delivers rd s xs -> delivers (take_read rd) (n, s) (take_items n xs).
Proof. intros. now apply take_delivers. Qed.
Print Assumptions C31_take_delivers.

Theorem C31_take_first_bytes :
  forall data tail, take_items (N.of_nat (length data)) (map B data ++ tail) = map B data
  /\ forall n, (N.of_nat (length data) <= n)%N -> take_items n (map B data) = map B data.
Proof. intros. split; auto using take_items_exact, take_items_short. Qed.
Print Assumptions C31_take_first_bytes.

Theorem C31_take_limit :
  forall St (rd : reader St) n s got lim s',
  reads (take_read rd) (n, s) got (lim, s') -> (lim + N.of_nat (length got) = n)%N.
Proof.
  intros St rd n s got lim s' H. remember (n, s) as a eqn:Ha. remember (lim, s') as z eqn:Hz.
  revert n s lim s' Ha Hz. induction H as [x|m x got y more z H1 H2 IH|m x e y more z H1 H2 IH]; intros n s lim s' Ha Hz; subst.
  - inversion Hz; subst. simpl. lia.
  - unfold take_read in H1. destruct (n =? 0)%N eqn:En.
    + inversion H1; subst. simpl. eauto.
    + destruct (rd _ s) as [[g| | |] s1]; try easy. destruct (N.of_nat (length g) <=? n)%N eqn:El; [|easy].
      inversion H1; subst. apply N.leb_le in El. specialize (IH _ _ _ _ eq_refl eq_refl).
      rewrite app_length. lia.
  - unfold take_read in H1. destruct (n =? 0)%N; [easy|].
    destruct (rd _ s) as [[g| | |] s1]; try easy; [destruct (N.of_nat (length g) <=? n)%N; easy|].
    inversion H1; subst. eauto.
Qed.
Print Assumptions C31_take_limit.

Theorem C31_take_zero_untouched :
  forall St (rd : reader St) s n, take_read rd n (0%N, s) = (Ok [], (0%N, s)).
Proof. reflexivity. Qed.
Print Assumptions C31_take_zero_untouched.

Example C31_case : drains (take_read seg_read) (3%N, [Seg x61 [x62]; Seg x63 [x64]]) (bs "abc") None (0%N, [Seg x64 []]).
Proof.
  change (bs "abc") with (bs "ab" ++ bs "c" ++ []).
  eapply (drains_step _ 7); [lia|reflexivity|easy|]. eapply (drains_step _ 2); [lia|reflexivity|easy|].
  eapply (drains_eof _ 1); [lia|reflexivity].
Qed.

(** C32. read_exact: exactly the next [n] bytes, or an error; never more than [n] consumed. *)
Theorem C32_read_exact :
  forall St bld (rd : reader St) s data pre ys n fuel,
  noisy bld data pre -> delivers rd s (pre ++ ys) -> length (pre ++ ys) < fuel ->
  (length data = n -> (pre = [] \/ exists pre' b, pre = pre' ++ [B b]) ->
     exists s', read_exact bld rd fuel n [] s = (Ok data, s') /\ delivers rd s' ys)
  /\ (length data < n -> ys = [] ->
     exists s', read_exact bld rd fuel n [] s = (Err (io_eof bld), s') /\ delivers rd s' [])
  /\ (length data < n -> forall e zs, ys = E e :: zs -> is_retry bld e = false ->
     exists s', read_exact bld rd fuel n [] s = (Err e, s') /\ delivers rd s' zs).
Proof.
  intros St bld rd s data pre ys n fuel H1 H2 H3.
  destruct (read_exact_items bld rd _ (delivers_pos rd) _ n [] s fuel H2 H3) as (s' & E1 & E2).
  assert (Hgen : forall n acc, length data <= n -> (n = length data -> pre = [] \/ exists pre' b, pre = pre' ++ [B b]) ->
    items_exact bld n acc (pre ++ ys) = items_exact bld (n - length data) (acc ++ data) ys).
  { clear -H1. induction H1 as [|b data xs H1 IH|e data xs He H1 IH]; intros n acc Hn Hl; simpl in *.
    - now rewrite app_nil_r, Nat.sub_0_r.
    - destruct n as [|n]; [lia|]. simpl. rewrite IH; [|lia|].
      + now rewrite <- app_assoc.
      + intros ->. destruct (Hl eq_refl) as [|(pre' & b' & Hp)]; [easy|].
        destruct pre' as [|x pre']; simpl in Hp; inversion Hp; subst; eauto.
    - destruct n as [|n].
      + exfalso. destruct (Hl ltac:(lia)) as [|(pre' & b' & Hp)]; [easy|].
        assert (Hd : data = []) by (apply length_zero_iff_nil; lia). subst data.
        destruct pre' as [|x pre']; simpl in Hp; [easy|]. inversion Hp; subst. clear -H1.
        assert (Hb : forall d ys, noisy bld d ys -> d = [] -> ~ In (B b') ys).
        { induction 1; intros; simpl; try easy. intros [|]; [easy|]. now apply IHnoisy. }
        apply (Hb _ _ H1 eq_refl). apply in_or_app. right. now left.
      + rewrite He. apply IH; [lia|]. intros Hx. destruct (Hl Hx) as [|(pre' & b' & Hp)]; [easy|].
        destruct pre' as [|x pre']; simpl in Hp; inversion Hp; subst; eauto. }
  repeat split.
  - intros Hn Hl. rewrite Hgen in E1, E2 by (auto; lia).
    rewrite Hn, Nat.sub_diag in *. destruct ys as [|[]]; simpl in *; eauto.
  - intros Hn ->. rewrite Hgen in E1, E2 by lia. destruct (n - length data) eqn:Ed; [lia|]. simpl in *. eauto.
  - intros Hn e zs -> He. rewrite Hgen in E1, E2 by lia. destruct (n - length data) eqn:Ed; [lia|].
    simpl in *. rewrite He in *. eauto.
Qed.
Print Assumptions C32_read_exact.

Example C32_case : read_exact Std seg_read 9 3 [] [Seg x61 [x62]; Fail (IoError Interrupted); Seg x63 [x64]]
  = (Ok (bs "abc"), [Seg x64 []]) /\ noisy Std (bs "abc") [B x61; B x62; E (IoError Interrupted); B x63].
Proof. split; [reflexivity|]. repeat (constructor; auto). Qed.

(** C33. write_all: on success everything was accepted in order; in any case a prefix was. copy: on
    success everything the reader had was accepted, and its length is the result; a reader failure or
    a writer failure is reported, and a prefix was accepted. *)
Theorem C33_write_all :
  forall W bld (wt : writer W) log fuel data w r w',
  honest wt log -> write_all bld wt fuel data w = (r, w') ->
  (exists p, prefix p data /\ log w' = log w ++ p)
  /\ (forall u, r = Ok u -> log w' = log w ++ data).
Proof.
  intros W bld wt log fuel data w r w' H1 H2. apply (write_all_log _ _ H1) in H2 as [H2 H3]. split; eauto.
Qed.
Print Assumptions C33_write_all.

Theorem C33_copy :
  forall St W bld (rd : reader St) (wt : writer W) log bufsz fuel s w xs r s' w',
  honest wt log -> delivers rd s xs -> 0 < bufsz ->
  copy bld rd wt bufsz fuel s w = (r, (s', w')) ->
  exists data xs1 xs2 p, xs = xs1 ++ xs2 /\ noisy bld data xs1 /\ prefix p data /\ log w' = log w ++ p
    /\ (forall n, r = Ok n -> xs2 = [] /\ p = data /\ n = N.of_nat (length data)).
Proof.
  intros St W bld rd wt log bufsz fuel s w xs r s' w' H1 H2 H3 H4. unfold copy in H4.
  apply (copy_log _ _ _ log) with (xs := xs) in H4; auto.
  - destruct H4 as (data & xs1 & xs2 & p & -> & A1 & A2 & A3 & A4). exists data, xs1, xs2, p. repeat split; auto; subst r; tauto.
  - intros d w0 r0 w0' H. eapply write_all_log; eauto.
Qed.
Print Assumptions C33_copy.

(** With a reliable sink and a reader that does not fail, copy does succeed. *)
Theorem C33_copy_succeeds :
  forall St W bld (rd : reader St) (wt : writer W) log bufsz fuel s w xs data,
  honest wt log -> reliable wt -> delivers rd s xs -> noisy bld data xs -> 0 < bufsz <= fuel -> length xs < fuel ->
  exists s' w', copy bld rd wt bufsz fuel s w = (Ok (N.of_nat (length data)), (s', w')) /\ log w' = log w ++ data.
Proof.
  intros St W bld rd wt log bufsz fuel s w xs data H1 H2 H3 H4 H5 H6.
  destruct (copy_complete bld rd (write_all bld wt fuel) log bufsz ltac:(lia)
     ltac:(intros d w0 Hd0; apply write_all_reliable; auto; lia) fuel 0%N s w xs data H3 H4 H6) as (s' & w' & E1 & E2 & _).
  eauto.
Qed.
Print Assumptions C33_copy_succeeds.

Example C33_case : copy Std seg_read script_writer 2 9 [Seg x61 [x62; x63]; Seg x64 []] ([Accept 1; Refuse (IoError Interrupted)], [])
  = (Ok 4%N, ([], ([], bs "abcd")))
  /\ copy Std seg_read script_writer 2 9 [Seg x61 [x62; x63]; Seg x64 []] ([Accept 1; Refuse (IoError (KOther 3))], [])
  = (Err (IoError (KOther 3)), ([Seg x63 []; Seg x64 []], ([], bs "a"))).
Proof. split; reflexivity. Qed.

(** C34. BufReader (any positive capacity in std; pass-through in no_std) delivers what the wrapped
    stream delivers, also with empty reads in between. *)
Theorem C34_bufreader_transparent :
  forall St bld cap (rd : reader St) s xs, 0 < cap ->
  (delivers rd s xs -> delivers (bufr_read bld cap rd) (bufr_new s) xs)
  /\ (delivers0 rd s xs -> delivers0 (bufr_read bld cap rd) (bufr_new s) xs).
Proof. intros. split; intros; auto using bufr_delivers, bufr_delivers0. Qed.
Print Assumptions C34_bufreader_transparent.

(** Hence two consumers, one per build, see the same bytes and the same error. *)
Theorem C34_builds_agree :
  forall St cap1 cap2 (rd : reader St) s xs got1 o1 r1 got2 o2 r2, 0 < cap1 -> 0 < cap2 -> delivers rd s xs ->
  drains (bufr_read Std cap1 rd) (bufr_new s) got1 o1 r1 ->
  drains (bufr_read NoStd cap2 rd) (bufr_new s) got2 o2 r2 -> got1 = got2 /\ o1 = o2.
Proof.
  intros St cap1 cap2 rd s xs got1 o1 r1 got2 o2 r2 H1 H2 H3 D1 D2.
  apply (delivers_drains _ _ xs) in D1; auto using bufr_delivers.
  apply (delivers_drains _ _ xs) in D2; auto using bufr_delivers. intuition congruence.
Qed.
Print Assumptions C34_builds_agree.

Example C34_case : delivers (bufr_read Std 2 seg_read) (bufr_new [Seg x61 [x62; x63]; Fail (IoError Interrupted); Seg x64 []])
  [B x61; B x62; B x63; E (IoError Interrupted); B x64].
Proof. apply C34_bufreader_transparent; [lia|]. apply (seg_delivers [Seg x61 [x62; x63]; Fail (IoError Interrupted); Seg x64 []]). Qed.

(** C35. BufWriter: the accepted bytes followed by the buffered ones grow by a prefix of what is
    written, by all of it on success; a failed flush loses nothing and a successful flush or
    into_inner empties the buffer; a drop hands over a prefix. *)
Theorem C35_bufwriter_write :
  forall W bld cap (wt : writer W) log fuel ps b r b',
  honest wt log -> bufw_inv bld cap b ->
  bufw_pieces bld cap wt fuel ps b = (r, b') ->
  (exists p, prefix p (concat ps) /\ log (bw_inner b') ++ bw_buf b' = (log (bw_inner b) ++ bw_buf b) ++ p)
  /\ (forall u, r = Ok u -> log (bw_inner b') ++ bw_buf b' = (log (bw_inner b) ++ bw_buf b) ++ concat ps)
  /\ bufw_inv bld cap b'.
Proof.
  intros W bld cap wt log fuel ps b r b' H1 H2 H3.
  apply (bufw_pieces_log wt log H1) in H3 as [[H3 H4] H5]; auto. repeat split; auto. intros u ->. apply H4. eauto.
Qed.
Print Assumptions C35_bufwriter_write.

Theorem C35_bufwriter_flush :
  forall W bld cap (wt : writer W) log fuel b r b',
  honest wt log -> bufw_inv bld cap b ->
  bufw_flush bld wt fuel b = (r, b') \/ bufw_into_inner bld wt fuel b = (r, b') ->
  log (bw_inner b') ++ bw_buf b' = log (bw_inner b) ++ bw_buf b
  /\ (forall u, r = Ok u -> bw_buf b' = [] /\ log (bw_inner b') = log (bw_inner b) ++ bw_buf b)
  /\ bufw_inv bld cap b'.
Proof.
  intros W bld cap wt log fuel b r b' H1 H2 H3.
  assert (H : blog log b' = blog log b /\ ((exists a, r = Ok a) -> bw_buf b' = []) /\ bufw_inv bld cap b').
  { destruct H3 as [H3|H3]; [eapply bufw_flush_log|eapply bufw_into_inner_log]; eauto. }
  unfold blog in H. destruct H as (A1 & A2 & A3). repeat split; eauto.
  rewrite A2, app_nil_r in A1; eauto.
Qed.
Print Assumptions C35_bufwriter_flush.

Theorem C35_bufwriter_drop :
  forall W bld (wt : writer W) log fuel b, honest wt log ->
  prefix (log (bufw_drop bld wt fuel b)) (log (bw_inner b) ++ bw_buf b).
Proof. intros. now apply (bufw_drop_log wt log). Qed.
Print Assumptions C35_bufwriter_drop.

Theorem C35_bufwriter_starts_empty : forall W bld cap (w : W), bufw_inv bld cap (bufw_new w).
Proof. intros. apply bufw_new_inv. Qed.
Print Assumptions C35_bufwriter_starts_empty.

Example C35_case : bufw_pieces Std 3 script_writer 9 [bs "ab"; bs "cd"; bs "efghi"] (bufw_new ([Accept 1; Accept 9; Accept 2; Refuse (IoError (KOther 1))], []))
  = (Err (IoError (KOther 1)), mkBufw ([], bs "abcd") []).
Proof. vm_compute. reflexivity. Qed.

(** C36. In-memory readers. *)
Theorem C36_slice : forall s, delivers0 slice_read s (map B s).
Proof.
  intros s. exists (fun s xs => xs = map B s). repeat split; auto.
  - intros n x xs Hn ->. unfold slice_read. destruct x as [|b x]; simpl.
    + rewrite firstn_nil, skipn_nil. eauto.
    + destruct n as [|n]; [lia|]. simpl. exists (b :: firstn n x), (map B (skipn n x)). eexists.
      repeat split; try easy.
      * simpl. rewrite firstn_length. lia.
      * simpl. f_equal. now rewrite <- map_app, firstn_skipn.
  - intros x xs ->. left. unfold slice_read. simpl. eauto.
Qed.
Print Assumptions C36_slice.

Theorem C36_slice_read_exact :
  forall n s, (n <= length s -> exists p q, s = p ++ q /\ length p = n /\ slice_read_exact n s = (Ok p, q))
  /\ (length s < n -> slice_read_exact n s = (Err UnexpectedEof, s)).
Proof.
  intros n s. unfold slice_read_exact. split; intros H.
  - rewrite (proj2 (Nat.ltb_ge _ _) H). exists (firstn n s), (skipn n s). repeat split; auto.
    + now rewrite firstn_skipn.
    + now apply firstn_length_le.
  - now rewrite (proj2 (Nat.ltb_lt _ _) H).
Qed.
Print Assumptions C36_slice_read_exact.

Lemma skipn_add {A} k j (l : list A) : skipn j (skipn k l) = skipn (k + j) l.
Proof. revert l; induction k; intros [|x l]; simpl; auto. now destruct j. Qed.

Theorem C36_cursor : forall s pos,
  delivers0 cursor_read (s, pos) (map B (skipn (N.to_nat (N.min pos (N.of_nat (length s)))) s)).
Proof.
  intros s pos.
  exists (fun c xs => fst c = s /\ xs = map B (skipn (N.to_nat (N.min (snd c) (N.of_nat (length s)))) s)).
  repeat split; auto.
  - intros n [s' p] xs Hn [Hs ->]. simpl in Hs. subst s'. unfold cursor_read. cbn [snd].
    set (k := N.to_nat (N.min p (N.of_nat (length s)))). destruct (skipn k s) as [|b r] eqn:E.
    + simpl. rewrite firstn_nil. eexists. split; [reflexivity|]. cbn [fst snd]. split; auto.
      simpl. rewrite N.add_0_r. fold k. now rewrite E.
    + destruct n as [|n]; [lia|]. cbn [map firstn]. exists (b :: firstn n r), (map B (skipn n r)). eexists.
      repeat split; try easy.
      * simpl. rewrite firstn_length. lia.
      * simpl. f_equal. now rewrite <- map_app, firstn_skipn.
      * cbn [fst snd]. f_equal.
        assert (Hk : k < length s).
        { destruct (Nat.lt_ge_cases k (length s)) as [|Hk]; auto. rewrite skipn_all2 in E by lia. easy. }
        assert (Hl : length (skipn k s) = S (length r)) by now rewrite E.
        rewrite skipn_length in Hl.
        assert (Hx : skipn n r = skipn (k + S n) s).
        { rewrite <- skipn_add, E. reflexivity. }
        rewrite Hx. destruct (Nat.le_gt_cases (S n) (S (length r))) as [Hle|Hgt].
        -- f_equal. cbn [length]. rewrite firstn_length. unfold k in *. lia.
        -- rewrite !skipn_all2; auto; cbn [length]; rewrite ?firstn_length; unfold k in *; lia.
  - intros [s' p] xs [Hs ->]. simpl in Hs. subst s'. left. unfold cursor_read. cbn [snd firstn].
    eexists. split; [reflexivity|]. cbn [fst snd length]. split; auto. simpl. now rewrite N.add_0_r.
Qed.
Print Assumptions C36_cursor.

Example C36_case : drains cursor_read (bs "abc", 1%N) (bs "bc") None (bs "abc", 3%N).
Proof.
  change (bs "bc") with (bs "b" ++ bs "c" ++ []).
  eapply (drains_step _ 1); [lia|reflexivity|easy|]. eapply (drains_step _ 2); [lia|reflexivity|easy|].
  eapply (drains_eof _ 1); [lia|reflexivity].
Qed.

(** C17. Numbers: accepted exactly an optional plus and digits whose value fits; printing and parsing
    are inverse. *)
Theorem C17_number_syntax :
  forall radix max s n, (radix = 10 \/ radix = 16)%N ->
  (from_str_radix radix max s = Ok n <->
   (n <= max)%N /\ (numeral radix s n \/ exists t, s = x2b :: t /\ numeral radix t n)).
Proof. intros radix max s n [-> | ->]; apply from_str_radix_spec; lia. Qed.
Print Assumptions C17_number_syntax.

Theorem C17_otherwise_error :
  forall radix max s, (forall n, from_str_radix radix max s <> Ok n) ->
  exists k, from_str_radix radix max s = Err (ParseIntError k).
Proof. intros radix max s H. destruct (from_str_radix_err radix max s) as [[n Hn]|?]; auto. now apply H in Hn. Qed.
Print Assumptions C17_otherwise_error.

Theorem C17_value_unique :
  forall radix s n m, (radix = 10 \/ radix = 16)%N -> numeral radix s n -> numeral radix s m -> n = m.
Proof. intros radix s n m [-> | ->]; apply numeral_functional; lia. Qed.
Print Assumptions C17_value_unique.

Theorem C17_print_parse :
  forall n, (n <= u64_max)%N ->
  from_str_radix 10 u64_max (show_radix 10 n) = Ok n /\ from_str_radix 16 u64_max (show_hex n) = Ok n.
Proof. intros n H. split; apply parse_show; auto; lia. Qed.
Print Assumptions C17_print_parse.

Theorem C17_print_is_numeral :
  forall n, numeral 10 (show_radix 10 n) n /\ numeral 16 (show_hex n) n.
Proof. intros. split; apply show_radix_numeral; lia. Qed.
Print Assumptions C17_print_is_numeral.

Example C17_case : from_str_radix 16 u64_max (bs "+00fF") = Ok 255%N
  /\ from_str_radix 16 u64_max (bs "ffffffffffffffff") = Ok u64_max
  /\ from_str_radix 16 u64_max (bs "10000000000000000") = Err (ParseIntError IPosOverflow)
  /\ from_str_radix 10 u64_max (bs "-1") = Err (ParseIntError IInvalidDigit)
  /\ from_str_radix 10 u64_max (bs "1 ") = Err (ParseIntError IInvalidDigit).
Proof. repeat split. Qed.
