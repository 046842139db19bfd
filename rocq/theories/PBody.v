(** Properties of line framing and bodies. Each theorem is closed by a lemma proved elsewhere; beside
    each an [Example] shows a concrete case meeting the hypotheses. *)
From Verif Require Import Base Utf8 Num Io Message Transport Lemmas ReadLemmas NumLemmas Utf8Lemmas
  ChunkSpec ChunkLemmas BodyLemmas.

(** C01. Line framing: for every transport, segmentation and position, a [next] on the line iterator
    returns exactly the bytes before the first CR LF, and leaves exactly what follows it. The items
    [pre] are the line's bytes and the CR, with retried interruptions in between. *)
Theorem C01_line_framing :
  forall St bld (rd : reader St) s line pre ys fuel,
  no_crlf line ->
  noisy bld (line ++ [CR]) pre ->
  delivers rd s (pre ++ B LF :: ys) ->
  length (pre ++ B LF :: ys) < fuel ->
  exists r s', crlf_next bld rd fuel s = (r, s') /\ delivers rd s' ys
    /\ (line = [] -> r = Ok None)
    /\ (line <> [] -> is_utf8 line -> r = Ok (Some line))
    /\ (line <> [] -> ~ is_utf8 line -> r = Err Utf8Error).
Proof.
  intros St bld rd s line pre ys fuel H1 H2 H3 H4.
  destruct (crlf_next_items bld rd _ _ s fuel (delivers_pos rd) H3 H4) as (s' & E1 & E2).
  rewrite (items_line_noisy bld [] (line ++ [CR])) in E1, E2; simpl; auto using no_crlf_cr.
  assert (Hl : items_line bld ([] ++ line ++ [CR]) (B LF :: ys) = (line_result line, ys)).
  { simpl. replace ((line ++ [CR]) ++ [LF]) with (line ++ CRLF) by now rewrite <- app_assoc.
    rewrite ends_crlf_line. do 2 f_equal. rewrite app_length. simpl.
    replace (length line + 2 - 2) with (length line) by lia.
    rewrite firstn_app, Nat.sub_diag, firstn_all. simpl. apply app_nil_r. }
  rewrite Hl in E1, E2. exists (line_result line), s'. simpl in *. repeat split; auto.
  - intros ->. reflexivity.
  - intros Hn Hu. apply utf8_valid_spec in Hu. unfold line_result. rewrite Hu. now destruct line.
  - intros Hn Hu. unfold line_result. destruct (utf8_valid line) eqn:E.
    + apply utf8_valid_spec in E. easy.
    + now destruct line.
Qed.
Print Assumptions C01_line_framing.

Example C01_case : let evs := [Seg x61 [x0d]; Fail (IoError Interrupted); Seg x0d [x0a; x62]] in
  no_crlf (bs "a" ++ [CR])
  /\ crlf_next Std seg_read 10 evs = (Ok (Some (bs "a" ++ [CR])), [Seg x62 []]).
Proof.
  split; [|reflexivity]. apply no_crlf_cr. intros (a & b & H). destruct a as [|? [|? ?]]; easy.
Qed.

(** C02. A stream without a CR LF, ended by end of file or a failure, never yields a line. *)
Theorem C02_no_partial_line :
  forall St bld (rd : reader St) s line pre fuel,
  no_crlf line -> noisy bld line pre ->
  (delivers rd s pre -> length pre < fuel ->
     exists s', crlf_next bld rd fuel s = (Err UnexpectedEof, s') /\ delivers rd s' [])
  /\ (forall e ys, delivers rd s (pre ++ E e :: ys) -> length (pre ++ E e :: ys) < fuel ->
     is_retry bld e = false ->
     exists s', crlf_next bld rd fuel s = (Err e, s') /\ delivers rd s' ys).
Proof.
  intros St bld rd s line pre fuel H1 H2. split.
  - intros H3 H4. destruct (crlf_next_items bld rd _ _ s fuel (delivers_pos rd) H3 H4) as (s' & E1 & E2).
    rewrite (items_line_eof bld line) in E1, E2 by auto. eauto.
  - intros e ys H3 H4 He. destruct (crlf_next_items bld rd _ _ s fuel (delivers_pos rd) H3 H4) as (s' & E1 & E2).
    rewrite (items_line_error bld line) in E1, E2 by auto. eauto.
Qed.
Print Assumptions C02_no_partial_line.

(** C02, converse direction: whenever a line (or the end of the block) is returned, the stream really
    had that line followed by CR LF. *)
Theorem C02_line_was_there :
  forall St bld (rd : reader St) s xs fuel r s',
  delivers rd s xs -> length xs < fuel -> crlf_next bld rd fuel s = (Ok r, s') ->
  exists line pre ys, xs = pre ++ B LF :: ys /\ noisy bld (line ++ [CR]) pre /\ no_crlf line
    /\ delivers rd s' ys
    /\ match r with Some l => l = line /\ l <> [] /\ is_utf8 l | None => line = [] end.
Proof.
  intros St bld rd s xs fuel r s' H1 H2 H3.
  destruct (crlf_next_items bld rd _ _ s fuel (delivers_pos rd) H1 H2) as (s2 & E1 & E2).
  rewrite H3 in E1. inversion E1; subst s2. destruct (items_line bld [] xs) as [r' ys] eqn:El. simpl in *. subst r'.
  apply items_line_inv in El as (pre & w & line & -> & Hn & Hw & Hl & Hr); auto using no_crlf_nil.
  simpl in Hw. subst w. exists line, pre, ys. repeat split; auto. unfold line_result in Hr. destruct line as [|c l].
  - inversion Hr; subst. reflexivity.
  - destruct (utf8_valid (c :: l)) eqn:E; inversion Hr; subst. repeat split; try easy. now apply utf8_valid_spec.
Qed.
Print Assumptions C02_line_was_there.

Example C02_case : delivers seg_read [Seg x61 []; Fail (IoError (KOther 5))] [B x61; E (IoError (KOther 5))]
  /\ crlf_next Std seg_read 10 [Seg x61 []; Fail (IoError (KOther 5)); Seg x0d [x0a]]
     = (Err (IoError (KOther 5)), [Seg x0d [x0a]])
  /\ crlf_next NoStd seg_read 10 [Seg x61 [x0d]; Seg x62 []] = (Err UnexpectedEof, []).
Proof. repeat split. exact (seg_delivers [Seg x61 []; Fail (IoError (KOther 5))]). Qed.

(** C04. A well-formed chunked encoding is decoded exactly, whatever the segmentation and the sizes
    of the buffers; at the end the reader stands right behind the last-chunk line. *)
Theorem C04_chunked_decode :
  forall T bld (rd : reader T) t payload wire rest len fuel,
  chunked_wire payload wire ->
  delivers rd t (map B wire ++ rest) ->
  length (map B wire ++ rest) + 3 < fuel ->
  delivers_end (body_read bld rd fuel) (BChunked len (CStream t)) (map B payload)
    (fun b => exists t', b = BChunked len (CDone t') /\ delivers rd t' rest).
Proof. intros. eapply chunked_body_delivers; eauto using loose_decodes, chunked_loose. Qed.
Print Assumptions C04_chunked_decode.

(** The same in terms of a consumer that reads with arbitrary buffers until end of file. *)
Theorem C04_chunked_drain :
  forall T bld (rd : reader T) t payload wire rest len fuel got o b,
  chunked_wire payload wire ->
  delivers rd t (map B wire ++ rest) ->
  length (map B wire ++ rest) + 3 < fuel ->
  drains (body_read bld rd fuel) (BChunked len (CStream t)) got o b ->
  got = payload /\ o = None /\ delivers rd (body_reader b) rest.
Proof.
  intros T bld rd t payload wire rest len fuel got o b H1 H2 H3 H4.
  destruct (delivers_end_drains _ _ _ _ _ _ _ (C04_chunked_decode _ bld rd t payload wire rest len fuel H1 H2 H3) H4)
    as (-> & -> & H).
  rewrite lead_map, fault_map in *. repeat split; auto.
  destruct (H eq_refl) as (t' & -> & Ht). exact Ht.
Qed.
Print Assumptions C04_chunked_drain.

Example C04_case : chunked_wire (bs "hello world") (bs "005" ++ CRLF ++ bs "hello" ++ CRLF ++ bs "6" ++ CRLF ++ bs " world" ++ CRLF ++ bs "0" ++ CRLF).
Proof.
  apply (cw_chunk (bs "005") (bs "hello") (bs " world") (bs "6" ++ CRLF ++ bs " world" ++ CRLF ++ bs "0" ++ CRLF)); try easy.
  - split; [easy|]. exists [0; 0; 5]%N. split; [|reflexivity].
    repeat (apply Forall2_cons; [split; [reflexivity|left; split; reflexivity]|]). constructor.
  - apply (cw_chunk (bs "6") (bs " world") [] (bs "0" ++ CRLF)); try easy.
    + split; [easy|]. exists [6]%N. split; [|reflexivity].
      repeat (apply Forall2_cons; [split; [reflexivity|left; split; reflexivity]|]). constructor.
    + apply cw_last. split; [easy|]. exists [0]%N. split; [|reflexivity].
      repeat (apply Forall2_cons; [split; [reflexivity|left; split; reflexivity]|]). constructor.
Qed.

(** C06. If the transport ends anywhere inside a chunked encoding, the body delivers a prefix of the
    payload and then an error, never a clean end of file. *)
Theorem C06_truncated_is_error :
  forall T bld (rd : reader T) t payload wire cut missing len fuel,
  chunked_wire payload wire ->
  wire = cut ++ missing -> missing <> [] ->
  delivers rd t (map B cut) ->
  length (map B cut) + 3 < fuel ->
  exists p q e, payload = p ++ q /\ (e = io_eof bld \/ e = to_io bld UnexpectedEof)
    /\ delivers (body_read bld rd fuel) (BChunked len (CStream t)) (map B p ++ [E e])
    /\ forall got o b, drains (body_read bld rd fuel) (BChunked len (CStream t)) got o b ->
       got = p /\ o = Some e.
Proof.
  intros T bld rd t payload wire cut missing len fuel H1 H2 H3 H4 H5.
  destruct (loose_prefix _ _ (chunked_loose _ _ H1) cut missing H2 H3) as (p & q & -> & Hp).
  destruct (partial_eof bld p cut Hp) as (e & Hk & He).
  pose proof (chunked_body_delivers bld rd t _ _ _ fuel len H4 He H5) as Hd.
  exists p, q, e. repeat split; eauto using delivers_end_delivers.
  - destruct (delivers_end_drains _ _ _ _ _ _ _ Hd H) as (-> & _). rewrite lead_app. apply app_nil_r.
  - destruct (delivers_end_drains _ _ _ _ _ _ _ Hd H) as (_ & -> & _). now rewrite fault_app.
Qed.
Print Assumptions C06_truncated_is_error.

Example C06_case : bs "2" ++ CRLF ++ bs "ab" ++ CRLF ++ bs "0" ++ CRLF = (bs "2" ++ CRLF ++ bs "ab" ++ CRLF ++ bs "0" ++ [CR]) ++ [LF]
  /\ drains (body_read Std seg_read 30)
       (BChunked None (CStream [Seg x32 [x0d; x0a; x61; x62]; Seg x0d [x0a; x30; x0d]]))
       (bs "ab") (Some (IoError (KOther 0))) (BChunked None (CDone [])).
Proof.
  split; [reflexivity|]. change (bs "ab") with (bs "ab" ++ []).
  eapply (drains_step _ 7); [lia|reflexivity|easy|]. eapply (drains_err _ 3); [lia|reflexivity].
Qed.

(** C07. Exact language. For arbitrary input the chunked reader either ends cleanly, and then the
    input starts with an accepted encoding and exactly its data were delivered; or it reports an
    error after delivering the data of all complete chunks and of the incomplete last one. *)
Theorem C07_exact_language :
  forall T bld (rd : reader T) t input len fuel,
  delivers rd t (map B input) -> length input + 3 < fuel ->
  (exists p w rest, input = w ++ rest /\ loose_wire p w
     /\ delivers_end (body_read bld rd fuel) (BChunked len (CStream t)) (map B p)
          (fun b => exists t', b = BChunked len (CDone t') /\ delivers rd t' (map B rest)))
  \/ (exists p e, (partial_wire p input \/ bad_wire p input)
     /\ delivers (body_read bld rd fuel) (BChunked len (CStream t)) (map B p ++ [E e])).
Proof.
  intros T bld rd t input len fuel H1 H2.
  destruct (wire_cases input) as [(p & w & rest & -> & Hw)|[[p Hp]|[p Hp]]].
  - left. exists p, w, rest. repeat split; auto. rewrite map_app in H1.
    eapply chunked_body_delivers; eauto using loose_decodes.
    rewrite app_length, !map_length. rewrite app_length in H2. lia.
  - right. destruct (partial_eof bld p input Hp) as (e & _ & He). exists p, e. split; auto.
    eapply delivers_end_delivers, chunked_body_delivers; eauto. now rewrite map_length.
  - right. destruct (bad_decodes bld p input [] Hp) as (e & r & He). exists p, e. split; auto.
    rewrite app_nil_r in He. eapply delivers_end_delivers, chunked_body_delivers; eauto. now rewrite map_length.
Qed.
Print Assumptions C07_exact_language.

(** ... and it ends cleanly with payload [p] exactly when the input starts with an accepted encoding
    of [p]. *)
Theorem C07_accepts_iff :
  forall T bld (rd : reader T) t input len fuel p,
  delivers rd t (map B input) -> length input + 3 < fuel ->
  ((exists b, drains (body_read bld rd fuel) (BChunked len (CStream t)) p None b)
   <-> exists w rest, input = w ++ rest /\ loose_wire p w).
Proof.
  intros T bld rd t input len fuel p H1 H2. split.
  - intros [b Hb]. destruct (C07_exact_language T bld rd t input len fuel H1 H2)
      as [(p' & w & rest & Hi & Hw & Hd)|(p' & e & _ & Hd)].
    + apply delivers_end_delivers in Hd. destruct (delivers_drains _ _ _ _ _ _ Hd Hb) as (-> & _).
      rewrite lead_map. eauto.
    + destruct (delivers_drains _ _ _ _ _ _ Hd Hb) as (_ & Hf). rewrite fault_app in Hf. easy.
  - intros (w & rest & -> & Hw). rewrite map_app in H1.
    assert (Hd : delivers (body_read bld rd fuel) (BChunked len (CStream t)) (map B p)).
    { eapply delivers_end_delivers, chunked_body_delivers; eauto using loose_decodes.
      rewrite app_length, !map_length. rewrite app_length in H2. lia. }
    apply delivers_can_drain in Hd as [b Hb]. rewrite lead_map, fault_map in Hb. eauto.
Qed.
Print Assumptions C07_accepts_iff.

(** ... and which error a line that is not a size line ends the body with: an empty line, a line that is not UTF-8, any
    other line. The std build hides them all behind the same I/O error. *)
Definition size_line_error (l : bytes) (e : error) : Prop :=
  (l = [] /\ e = UnexpectedEof) \/ (l <> [] /\ ~ is_utf8 l /\ e = Utf8Error)
  \/ (l <> [] /\ is_utf8 l /\ exists k, e = ParseIntError k).
Theorem C07_bad_size_line :
  forall T bld (rd : reader T) t l ys len fuel,
  no_crlf l -> ~ (exists n, size_line l n) ->
  delivers rd t (map B (l ++ CRLF) ++ ys) -> length (map B (l ++ CRLF) ++ ys) + 3 < fuel ->
  exists e, size_line_error l e
    /\ delivers_end (body_read bld rd fuel) (BChunked len (CStream t))
         [E (match bld with Std => IoError (KOther 0) | NoStd => e end)]
         (fun b => exists t', b = BChunked len (CDone t') /\ delivers rd t' ys).
Proof.
  intros T bld rd t l ys len fuel H1 H2 H3 H4.
  assert (He : exists e, size_line_error l e /\ chunk_head bld (map B (l ++ CRLF) ++ ys) = (Err e, ys)).
  { unfold chunk_head, expect_next. rewrite items_line_map by auto. unfold line_result, size_line_error.
    destruct l as [|c l]; [exists UnexpectedEof; auto|]. destruct (utf8_valid (c :: l)) eqn:Hu.
    - apply utf8_valid_spec in Hu. cbn [sbind]. destruct (from_str_radix_err 16 u64_max (c :: l)) as [[n Hn]|[k Hk]].
      + exfalso. apply H2. exists n. now apply size_line_radix.
      + rewrite Hk. exists (ParseIntError k). split; [|reflexivity]. right; right. repeat split; eauto. easy.
    - exists Utf8Error. split; [|reflexivity]. right; left. repeat split; [easy|].
      intros Hv. apply utf8_valid_spec in Hv. congruence. }
  destruct He as (e & He & Hc). exists e. split; auto.
  change (match bld with Std => IoError (KOther 0) | NoStd => e end) with (to_io bld e).
  eapply chunked_body_delivers; eauto. now apply d_bad.
Qed.
Print Assumptions C07_bad_size_line.

Example C07_bad_case : no_crlf [] /\ ~ (exists n, size_line [] n)
  /\ body_read NoStd seg_read 9 5 (BChunked None (CStream [Seg x0d [x0a; x61]])) = (Err UnexpectedEof, BChunked None (CDone [Seg x61 []]))
  /\ body_read NoStd seg_read 9 5 (BChunked None (CStream [Seg x7a [x0d; x0a]])) = (Err (ParseIntError IInvalidDigit), BChunked None (CDone []))
  /\ body_read NoStd seg_read 9 5 (BChunked None (CStream [Seg xff [x0d; x0a]])) = (Err Utf8Error, BChunked None (CDone [])).
Proof.
  split; [exact no_crlf_nil|]. split; [|repeat split; reflexivity].
  intros [n Hn]. apply size_line_radix in Hn. easy.
Qed.

(** The two bytes behind a chunk's data are not checked, and a size may carry a plus sign. *)
Example C07_case : loose_wire (bs "ab") (bs "+2" ++ CRLF ++ bs "ab" ++ [x58; x59] ++ bs "0" ++ CRLF).
Proof.
  rewrite <- (app_nil_r (bs "ab")) at 1. apply lw_chunk; [easy| |].
  - split; [easy|]. right. exists (bs "2"). split; auto. split; [easy|]. exists [2]%N. split; [|reflexivity].
    repeat (apply Forall2_cons; [split; [reflexivity|left; split; reflexivity]|]). constructor.
  - apply lw_last. split; [easy|]. left. split; [easy|]. exists [0]%N. split; [|reflexivity].
    repeat (apply Forall2_cons; [split; [reflexivity|left; split; reflexivity]|]). constructor.
Qed.

(** C08. After end of file or an error a chunked body is finished for good: with whatever transport
    implementation [rd'] and buffer, later reads return 0 bytes and leave the transport alone. *)
Theorem C08_chunked_stays_finished :
  forall T bld (rd : reader T) fuel len n c r b',
  body_read bld rd fuel n (BChunked len c) = (r, b') ->
  r = Ok [] \/ (exists e, r = Err e) ->
  forall (rd' : reader T) fuel' n', 0 < fuel' -> body_read bld rd' fuel' n' b' = (Ok [], b').
Proof.
  intros T bld rd fuel len n c r b' H Hr rd' fuel' n' Hf. rewrite body_read_chunked in H.
  destruct (chunked_read bld rd fuel n c) as [r2 c2] eqn:E. simpl in H. inversion H; subst.
  apply chunked_done in E as [t ->]; auto. destruct fuel'; [lia|]. reflexivity.
Qed.
Print Assumptions C08_chunked_stays_finished.

Example C08_case : exists b', body_read Std seg_read 9 5 (BChunked None (CStream [Seg x7a [x0d; x0a]])) = (Err (IoError (KOther 0)), b').
Proof. eexists. reflexivity. Qed.

(** C09. Reads with an empty buffer leave length-delimited and read-until-close bodies undisturbed
    ([delivers0]: the body delivers the same items however empty reads are interspersed) and are
    no-ops on a finished chunked body (C08). *)
Theorem C09_empty_read_harmless :
  forall T bld (rd : reader T) t xs n fuel,
  delivers0 rd t xs ->
  delivers0 (body_read bld rd fuel) (BLimited n t) (take_items n xs)
  /\ delivers0 (body_read bld rd fuel) (BTilClose t) xs.
Proof. intros. split; auto using limited_delivers0, tilclose_delivers0. Qed.
Print Assumptions C09_empty_read_harmless.

(** Inside a chunk an empty read throws two bytes of payload away and continues as if a size line
    followed. *)
Theorem C09_empty_read_in_chunk :
  forall T bld (rd : reader T) f lim t a b w,
  lim <> 0%N -> delivers0 rd t (B a :: B b :: w) -> 2 <= f ->
  exists t', delivers0 rd t' w
    /\ chunked_read bld rd (S f) 0 (CChunk lim t) = chunked_read bld rd f 0 (CStream t').
Proof. intros. apply chunked_empty_read with (a := a) (b := b); auto. lia. Qed.
Print Assumptions C09_empty_read_in_chunk.

(** So the unconditional claim "an empty read does not change what the body delivers" is false. *)
Theorem C09_empty_read_refuted :
  ~ (forall T bld (rd : reader T) t xs out len fuel,
      delivers0 rd t xs -> length xs + 3 < fuel ->
      delivers (body_read bld rd fuel) (BChunked len (CStream t)) out ->
      forall got b, body_read bld rd fuel 1 (BChunked len (CStream t)) = (Ok [got], b) ->
      forall r b2 rest, body_read bld rd fuel 0 b = (r, b2) -> out = B got :: rest ->
      delivers (body_read bld rd fuel) b2 rest).
Proof.
  intros H.
  set (evs := [Seg x34 (bs "" ++ CRLF ++ bs "abcd" ++ CRLF ++ bs "0" ++ CRLF)]).
  assert (Hx : chunk_head Std (items_of evs) = (Ok (Some 4%N), map B (bs "abcd" ++ CRLF ++ bs "0" ++ CRLF))) by reflexivity.
  assert (Hw : loose_wire (bs "abcd") (bs "4" ++ CRLF ++ bs "abcd" ++ CRLF ++ bs "0" ++ CRLF)).
  { rewrite <- (app_nil_r (bs "abcd")) at 1. apply (lw_chunk (bs "4") (bs "abcd") CR LF); [easy| |].
    - split; [easy|]. left. split; [easy|]. exists [4]%N. split; [|reflexivity].
      repeat (apply Forall2_cons; [split; [reflexivity|left; split; reflexivity]|]). constructor.
    - apply lw_last. split; [easy|]. left. split; [easy|]. exists [0]%N. split; [|reflexivity].
      repeat (apply Forall2_cons; [split; [reflexivity|left; split; reflexivity]|]). constructor. }
  assert (Hd : delivers (body_read Std seg_read 30) (BChunked None (CStream evs)) (map B (bs "abcd"))).
  { eapply delivers_end_delivers, chunked_body_delivers.
    - apply seg_delivers.
    - apply (loose_decodes Std _ _ [] Hw).
    - simpl. lia. }
  specialize (H _ Std seg_read evs _ _ None 30 (seg_delivers0 evs) ltac:(simpl; lia) Hd x61 _ eq_refl _ _ _ eq_refl eq_refl).
  destruct H as (R & HR & Hs). specialize (HR 1 _ _ ltac:(lia) Hs). simpl in HR.
  destruct HR as (got & xs' & s' & H1 & H2 & _). vm_compute in H1. inversion H1; subst. easy.
Qed.
Print Assumptions C09_empty_read_refuted.

(** Harmless in a length-delimited body; inside the chunk "ab0" CR LF..., "ab" is lost, "0" is then read as a size,
    and the body ends cleanly. *)
Example C09_case :
  body_read Std seg_read 9 0 (BLimited 2 [Seg x61 [x62]]) = (Ok [], BLimited 2 [Seg x61 [x62]])
  /\ body_read Std seg_read 30 0 (BChunked None (CChunk 4 [Seg x61 (bs "b0" ++ CRLF ++ bs "0" ++ CRLF)]))
     = (Ok [], BChunked None (CDone [Seg x30 CRLF])).
Proof. split; reflexivity. Qed.

(** C11. A length-delimited body delivers exactly the announced bytes and leaves the rest. *)
Theorem C11_limited_exact :
  forall T bld (rd : reader T) t data tail fuel,
  delivers rd t (map B data ++ tail) ->
  delivers_end (body_read bld rd fuel) (BLimited (N.of_nat (length data)) t) (map B data)
    (fun b => exists t', b = BLimited 0 t' /\ delivers rd t' tail).
Proof. intros. now apply limited_delivers_end. Qed.
Print Assumptions C11_limited_exact.

(** With any announced length and any stream: at most [n] bytes, transport errors in place, nothing
    lost around them. *)
Theorem C11_limited_items :
  forall T bld (rd : reader T) t xs n fuel,
  delivers rd t xs -> delivers (body_read bld rd fuel) (BLimited n t) (take_items n xs).
Proof. intros. now apply limited_delivers. Qed.
Print Assumptions C11_limited_items.

Theorem C11_limited_finished :
  forall T bld (rd : reader T) t fuel n, body_read bld rd fuel n (BLimited 0 t) = (Ok [], BLimited 0 t).
Proof. reflexivity. Qed.
Print Assumptions C11_limited_finished.

Example C11_case : drains (body_read Std seg_read 9) (BLimited 3 [Seg x61 [x62]; Seg x63 [x64]]) (bs "abc") None (BLimited 0 [Seg x64 []]).
Proof.
  change (bs "abc") with (bs "ab" ++ bs "c" ++ []).
  eapply (drains_step _ 7); [lia|reflexivity|easy|]. eapply (drains_step _ 2); [lia|reflexivity|easy|].
  eapply (drains_eof _ 1); [lia|reflexivity].
Qed.
