(** Property C52: a client and a server together. *)
From Verif Require Import Base Utf8 Case Num Io Parser Types Message Outgoing Client Server Transport.
From Verif Require Import Lemmas ReadLemmas NumLemmas ChunkSpec ChunkLemmas BodyLemmas WriteLemmas ParserLemmas CaseLemmas
  TypesLemmas HeadLemmas BlockLemmas MsgLemmas OutLemmas SimLemmas KeepLemmas ErrLemmas PBody PIo PParse PHead POut PReuse PServer.

(** A request as the client serializes it is a request on the wire in the sense of the server theorems. *)
Lemma sent_request {B} (r : request B) : sendable_uri (rq_uri r) -> small_version (rq_version r) -> sendable (rq_headers r) ->
  good_length (rq_headers r) ->
  exists first lines, good_request first lines (rq_method r) (rq_uri r) (rq_version r) (rq_headers r)
    /\ head_bytes first lines = concat (request_pieces r).
Proof.
  intros Hu Hv [Hs Hh] Hg. destruct (request_line_ok (rq_method r) _ _ Hu Hv) as [H1 H2].
  destruct (sendable_parses _ Hh) as (P1 & P2 & P3).
  exists (request_line_of (rq_method r) (rq_uri r) (rq_version r)), (map header_line (rq_headers r)). split.
  - split; auto. split; auto. split; [apply request_line_meaning; auto; apply H1|]. split; auto.
    exists (map header_line (rq_headers r)), (rq_headers r). split; auto. split; [|now rewrite headers_from_id].
    apply parses_headers; auto. now apply text_utf8.
  - rewrite request_pieces_wire, headers_pieces_wire. reflexivity.
Qed.

Lemma noisy_det bld d1 d2 xs : noisy bld d1 xs -> noisy bld d2 xs -> d1 = d2.
Proof.
  intros H. revert d2. induction H as [|b d xs H IH|e d xs He H IH]; intros d2 H2; inversion H2; subst; auto. f_equal. auto.
Qed.

Lemma upload_wire {S Bd} bld cap (wt : writer S) log bufsz (rdb : reader Bd) fuel r body xs data s o sa n b' o1 s1 :
  honest wt log -> 0 < bufsz -> 0 < fuel -> delivers rdb body xs -> noisy bld data xs -> has_body (rq_method r) = true ->
  send bld cap wt fuel r s = (Ok o, sa) ->
  copy bld rdb (outgoing_writer bld cap wt fuel) bufsz fuel body o = (Ok n, (b', o1)) ->
  finish_send bld cap wt fuel o1 = (Ok tt, s1) ->
  exists pieces, concat pieces = data /\ Forall (fun p => length p <= bufsz) pieces
    /\ log s1 = log s ++ concat (request_pieces r) ++ flat_map chunk_of pieces ++ bs "0" ++ CRLF ++ CRLF.
Proof.
  intros Hh Hb Hf Hd Hn Hm E1 E2 E3.
  apply (request_serialize_log bld cap wt log Hh) in E1 as [_ E1]. destruct (E1 o eq_refl) as (L1 & I1 & _ & K1).
  unfold copy in E2. apply (copy_out_log bld cap wt log Hh rdb bufsz Hb fuel Hf) with (xs := xs) in E2; auto.
  destruct E2 as (ps & xs1 & xs2 & q & -> & N1 & N2 & N3 & N4 & N5 & N6 & N7 & -> & -> & _ & N8).
  apply (finish_send_log bld cap wt log Hh) in E3 as (_ & _ & L3); auto.
  exists ps. rewrite app_nil_r in Hn. split; [eapply noisy_det; eauto|]. split.
  - eapply Forall_impl; [|exact N2]. intros p Hp. apply Hp.
  - rewrite (L3 eq_refl), N4, L1, N6, K1, Hm. unfold terminator, encoded. now rewrite <- !app_assoc.
Qed.

Lemma show_loop_length radix f : forall n acc, length (show_loop f radix n acc) <= f + length acc.
Proof.
  induction f as [|f IH]; intros n acc; cbn [show_loop]; [lia|]. destruct (_ =? 0)%N; [cbn [length]; lia|].
  eapply Nat.le_trans; [apply IH|]. cbn [length]. lia.
Qed.
Lemma chunk_of_length data : (N.of_nat (length data) <= u64_max)%N -> length (chunk_of data) <= length data + 70.
Proof.
  intros Hu. destruct data as [|d data]; [cbn; lia|].
  change (chunk_of (d :: data)) with (show_hex (N.of_nat (length (d :: data))) ++ CRLF ++ (d :: data) ++ CRLF).
  set (n := N.of_nat (length (d :: data))) in *. rewrite !app_length.
  pose proof (show_loop_length 16 (S (N.size_nat n)) n []) as Hl. change (length CRLF) with 2. cbn [length] in *.
  unfold show_hex, show_radix.
  assert (N.size_nat n <= 64); [|lia].
  assert (Hs : (N.size n <= 64)%N).
  { destruct (N.eq_dec n 0) as [->|Hn]; [cbn; lia|]. rewrite N.size_log2 by auto. apply N.le_succ_l.
    apply N.log2_lt_pow2; [lia|]. eapply N.le_lt_trans; [exact Hu|]. reflexivity. }
  clear -Hs. destruct n as [|q]; cbn in *; [lia|].
  assert (E : N.of_nat (Pos.size_nat q) = Npos (Pos.size q)).
  { clear. induction q as [q IH|q IH|]; cbn [Pos.size_nat Pos.size]; [| |reflexivity]; rewrite Nat2N.inj_succ, IH; reflexivity. }
  lia.
Qed.

(** The client's side does not get stuck: on a stream that keeps accepting bytes, and with a body that can be read
    to its end, the whole request is sent. *)
Theorem C52_client_sends : forall S Bd bld cap (wt : writer S) log bufsz (rdb : reader Bd) fuel (r : request unit) body xs data s,
  honest wt log -> reliable wt -> 0 < bufsz -> (N.of_nat bufsz <= u64_max)%N -> delivers rdb body xs -> noisy bld data xs ->
  has_body (rq_method r) = true ->
  cap <= fuel -> bufsz + 70 <= fuel -> length xs < fuel -> length (concat (request_pieces r)) <= fuel ->
  exists o sa n b' o1 s1 pieces, send bld cap wt fuel r s = (Ok o, sa)
    /\ copy bld rdb (outgoing_writer bld cap wt fuel) bufsz fuel body o = (Ok n, (b', o1))
    /\ finish_send bld cap wt fuel o1 = (Ok tt, s1)
    /\ concat pieces = data
    /\ log s1 = log s ++ concat (request_pieces r) ++ flat_map chunk_of pieces ++ bs "0" ++ CRLF ++ CRLF.
Proof.
  intros S Bd bld cap wt log bufsz rdb fuel r body xs data s Hh Hr Hb Hu Hd Hn Hm Hc Hf Hx Hl.
  destruct (send_reliable bld cap wt log fuel r s Hh Hr Hc Hl) as (o & sa & E1).
  pose proof E1 as E. apply (request_serialize_log bld cap wt log Hh) in E as [_ E]. destruct (E o eq_refl) as (_ & I1 & _ & K1).
  rewrite Hm in K1.
  destruct (copy_out_reliable bld cap wt log Hh rdb bufsz Hb fuel ltac:(lia) Hr Hc
    ltac:(intros d Hd1; pose proof (chunk_of_length d ltac:(lia)); lia) fuel 0%N body o xs data Hd Hn Hx I1 K1) as (b' & o1 & n & E2).
  assert (I2 : oinv bld cap o1).
  { pose proof E2 as E'. apply (copy_out_log bld cap wt log Hh rdb bufsz Hb fuel ltac:(lia)) with (xs := xs) in E'; auto.
    destruct E' as (? & ? & ? & ? & _ & _ & _ & _ & _ & Hi & _). exact Hi. }
  destruct (finish_send_reliable bld cap wt log fuel o1 Hh Hr Hc ltac:(lia) I2) as (s1 & E3).
  destruct (upload_wire bld cap wt log bufsz rdb fuel r body xs data s o sa n b' o1 s1 Hh Hb ltac:(lia) Hd Hn Hm E1 E2 E3) as (ps & P1 & _ & P2).
  exists o, sa, n, b', o1, s1, ps. auto.
Qed.
Print Assumptions C52_client_sends.

(** ** C52. End to end *)
(** The request reaches the handler: if the client got as far as waiting for the response, and the server's stream
    carries the bytes the client wrote, in whatever segments, then the handler is called once, with the client's uri,
    and what it does is a run on exactly the bytes of the client's body. *)
Theorem C52_upload : forall S1 Bd bld1 cap1 (wt1 : writer S1) log1 bufsz1 (rdb : reader Bd) fuel1 (r : request unit) body xs data s o sa n b' o1 s1
    S2 H bld2 cap2 (rd2 : reader S2) etext (hd : handler H) fuel2 hs t zs f wire,
  (* the client *)
  honest wt1 log1 -> 0 < bufsz1 -> (N.of_nat bufsz1 <= u64_max)%N -> 0 < fuel1 -> delivers rdb body xs -> noisy bld1 data xs ->
  sendable_uri (rq_uri r) -> small_version (rq_version r) -> sendable (rq_headers r) -> good_length (rq_headers r) ->
  hm_get (bs "transfer-encoding") (rq_headers r) = Some (bs "chunked") ->
  send bld1 cap1 wt1 fuel1 r s = (Ok o, sa) ->
  copy bld1 rdb (outgoing_writer bld1 cap1 wt1 fuel1) bufsz1 fuel1 body o = (Ok n, (b', o1)) ->
  finish_send bld1 cap1 wt1 fuel1 o1 = (Ok tt, s1) ->
  (* the network *)
  log1 s1 = log1 s ++ wire -> delivers rd2 t (map B wire ++ zs) ->
  (* the server *)
  0 < cap2 -> length (map B wire ++ zs) + 3 < fuel2 -> body_method hd (rq_method r) = Some f -> reads_some (f (rq_uri r) hs) ->
  forall y cs hs' t', serve_one_inner bld2 cap2 rd2 etext hd fuel2 hs t = (y, cs, hs', t') ->
  cs = [Called (rq_method r) (rq_uri r)]
  /\ exists len, (y = Fuel /\ hs' = hs /\ ~ stops len fuel2 (f (rq_uri r) hs) data) \/ runs len (f (rq_uri r) hs) data (y, hs').
Proof.
  intros S1 Bd bld1 cap1 wt1 log1 bufsz1 rdb fuel1 r body xs data s o sa n b' o1 s1 S2 H bld2 cap2 rd2 etext hd fuel2 hs t zs f wire
    Hh Hb Hbu Hf Hd Hn Hu Hv Hs Hg Hte E1 E2 E3 Hw Ht Hc Hf2 Hm Hp y cs hs' t' E.
  assert (Hm' : has_body (rq_method r) = true) by (destruct (rq_method r); easy).
  destruct (upload_wire bld1 cap1 wt1 log1 bufsz1 rdb fuel1 r body xs data s o sa n b' o1 s1 Hh Hb Hf Hd Hn Hm' E1 E2 E3)
    as (ps & <- & Hps & Hl).
  rewrite Hw in Hl. apply app_inv_head in Hl.
  destruct (sent_request r Hu Hv Hs Hg) as (first & lines & Hq & Hhb).
  assert (Hcw : carries (rq_headers r) (concat ps) (flat_map chunk_of ps ++ bs "0" ++ CRLF)).
  { apply carries_chunks; auto. apply C05_encodes. eapply Forall_impl; [|exact Hps]. cbn. intros p Hlp. lia. }
  assert (Hwire : map B wire ++ zs
    = map B (head_bytes first lines ++ flat_map chunk_of ps ++ bs "0" ++ CRLF) ++ (map B CRLF ++ zs)).
  { rewrite app_assoc, <- map_app. f_equal. f_equal. rewrite Hl, Hhb, <- !app_assoc. reflexivity. }
  rewrite Hwire in Ht, Hf2.
  destruct (C46_body S2 H bld2 cap2 rd2 etext hd fuel2 hs t first lines (map B CRLF ++ zs) _ _ _ _ _ _ f Hc Hq Hm Hcw Ht Hf2 Hp y cs hs' t' E)
    as [-> (len & _ & K)].
  split; auto. exists len. exact K.
Qed.
Print Assumptions C52_upload.

(** The response reaches the client. [honest_framing]: the handler's headers do not contradict the length of the body
    it returned. *)
Definition honest_framing (h : headers) (out : bytes) : Prop :=
  hm_get (bs "transfer-encoding") h <> Some (bs "chunked")
  /\ (hm_get (bs "content-length") h = None
      \/ exists w, hm_get (bs "content-length") h = Some w /\ u64_text w (N.of_nat (length out))).

Theorem C52_download : forall S1 bld1 cap1 (rd1 : reader S1) fuel1 s1 Q (q : response Q) out,
  0 < cap1 -> small_version (rs_version q) -> (to_code (rs_status q) < 2 ^ 32)%N -> sendable (rs_headers q) ->
  honest_framing (rs_headers q) out ->
  delivers rd1 s1 (map B (response_wire q out)) -> length (response_wire q out) + 3 < fuel1 ->
  exists resp s2, response_deserialize bld1 rd1 fuel1 s1 = (Ok resp, s2)
    /\ rs_version resp = rs_version q /\ rs_headers resp = rs_headers q
    /\ to_code (rs_status resp) = to_code (rs_status q)
    /\ ((forall c, rs_status q <> StUnknown c) -> rs_status resp = rs_status q)
    /\ (exists b, drains (body_read bld1 (bufr_read bld1 cap1 rd1) fuel1) (rs_body resp) out None b)
    /\ forall got e b, drains (body_read bld1 (bufr_read bld1 cap1 rd1) fuel1) (rs_body resp) got e b -> got = out /\ e = None.
Proof.
  intros S1 bld1 cap1 rd1 fuel1 s1 Q q out Hc Hv Hcode Hs [Hte Hcl] Hd Hf.
  assert (Ew : map B (response_wire q out) = map B (concat (response_pieces q)) ++ map B out).
  { rewrite <- map_app. f_equal. rewrite response_pieces_wire. unfold response_wire. now rewrite <- !app_assoc. }
  assert (Hg : good_length (rs_headers q)).
  { intros w Hw. destruct Hcl as [Hcl|(w' & Hcl & Hn)]; [congruence|]. rewrite Hw in Hcl. injection Hcl as <-. eauto. }
  rewrite Ew in Hd. assert (Hf' : length (map B (concat (response_pieces q)) ++ map B out) + 3 < fuel1) by (rewrite <- Ew, map_length; lia).
  destruct (C29_response_round_trip S1 bld1 rd1 fuel1 s1 Q q (map B out) Hv Hcode Hs Hg Hd ltac:(lia)) as (st & b & s2 & E & H1 & H2 & Hfr & Ds2).
  exists (mkResponse (rs_version q) st (rs_headers q) b), s2. cbn [rs_version rs_headers rs_status rs_body].
  repeat (split; [assumption || reflexivity|]).
  assert (K : exists P, delivers_end (body_read bld1 (bufr_read bld1 cap1 rd1) fuel1) b (map B out) P).
  { destruct Hcl as [Hcl|(w & Hcl & Hn)].
    - destruct Hfr as (len & Hlen & Hb). destruct Hb as [[Hb _]|[_ ->]]; [congruence|].
      destruct Hlen as [[_ ->]|(w & n & Hw & _)]; [|congruence]. exists (fun _ => True).
      apply delivers_delivers_end, tilclose_delivers, bufr_delivers; auto.
    - pose proof (carries_length (rs_headers q) out w Hte Hcl Hn) as Hcar.
      destruct (bufr_delivers bld1 cap1 rd1 s2 (map B out) Hc Ds2) as (R & HR & Hs2).
      eexists. apply (carries_read bld1 (bufr_read bld1 cap1 rd1) R (bufr_new s2) (rs_headers q) out out [] b fuel1 HR Hfr Hcar).
      + now rewrite app_nil_r.
      + rewrite app_length in Hf'. rewrite app_nil_r. lia. }
  destruct K as [P K]. split.
  - destruct (delivers_can_drain (body_read bld1 (bufr_read bld1 cap1 rd1) fuel1) b (map B out)) as [b1 Hb1].
    + destruct K as (R & HR & Hb & _). now exists R.
    + rewrite lead_map, fault_map in Hb1. eauto.
  - intros got e b1 Hdr. destruct (delivers_end_drains _ _ _ _ _ _ _ K Hdr) as (-> & -> & _). now rewrite lead_map, fault_map.
Qed.
Print Assumptions C52_download.

(** Both together: the handler computes its answer [q], with the body [out], from the bytes of the client's body, and
    that is what the client gets. *)
Theorem C52_end_to_end : forall S1 Bd bld1 cap1 (rd1 : reader S1) (wt1 : writer S1) log1 bufsz1 (rdb : reader Bd) fuel1 (r : request unit) body xs data
    s o sa n b' o1 s1 S2 H bld2 cap2 (rd2 : reader S2) (wt2 : writer S2) log2 etext (hd : handler H) bufsz2 fuel2 hs t zs f wire q hs' ys out,
  (* the client sends a request and a body *)
  honest wt1 log1 -> 0 < bufsz1 -> (N.of_nat bufsz1 <= u64_max)%N -> 0 < fuel1 -> delivers rdb body xs -> noisy bld1 data xs ->
  sendable_uri (rq_uri r) -> small_version (rq_version r) -> sendable (rq_headers r) -> good_length (rq_headers r) ->
  hm_get (bs "transfer-encoding") (rq_headers r) = Some (bs "chunked") ->
  send bld1 cap1 wt1 fuel1 r s = (Ok o, sa) ->
  copy bld1 rdb (outgoing_writer bld1 cap1 wt1 fuel1) bufsz1 fuel1 body o = (Ok n, (b', o1)) ->
  finish_send bld1 cap1 wt1 fuel1 o1 = (Ok tt, s1) ->
  log1 s1 = log1 s ++ wire -> delivers rd2 t (map B wire ++ zs) ->
  (* the handler answers [q], however the body arrives *)
  0 < cap2 -> length (map B wire ++ zs) + 3 < fuel2 ->
  body_method hd (rq_method r) = Some f -> reads_some (f (rq_uri r) hs) ->
  (forall len, stops len fuel2 (f (rq_uri r) hs) data) ->
  (forall len a, runs len (f (rq_uri r) hs) data a -> a = (Ok (inl q), hs')) ->
  delivers (body_read bld2 (bufr_read bld2 cap2 dyn_read) fuel2) (rs_body q) ys -> noisy bld2 out ys ->
  (* the server's writes succeed *)
  honest wt2 log2 -> reliable wt2 -> silent rd2 log2 -> 0 < bufsz2 -> bufsz2 <= fuel2 ->
  length (response_wire q []) <= fuel2 -> length ys < fuel2 ->
  exists t2, serve_stream bld2 cap2 rd2 wt2 etext hd bufsz2 fuel2 hs t = (Ok tt, [Called (rq_method r) (rq_uri r)], hs', t2)
    /\ log2 t2 = log2 t ++ response_wire q out
    (* and the answer comes back *)
    /\ (0 < cap1 -> small_version (rs_version q) -> (to_code (rs_status q) < 2 ^ 32)%N -> sendable (rs_headers q) ->
        honest_framing (rs_headers q) out ->
        delivers rd1 s1 (map B (response_wire q out)) -> length (response_wire q out) + 3 < fuel1 ->
        exists resp s2, finish bld1 cap1 rd1 wt1 fuel1 o1 = (Ok resp, s2)
          /\ rs_headers resp = rs_headers q /\ to_code (rs_status resp) = to_code (rs_status q)
          /\ (rs_status q = OK -> fst (exchange bld1 cap1 rd1 wt1 bufsz1 rdb fuel1 r body s) = Ok (rs_body resp))
          /\ (exists b, drains (body_read bld1 (bufr_read bld1 cap1 rd1) fuel1) (rs_body resp) out None b)
          /\ forall got e b, drains (body_read bld1 (bufr_read bld1 cap1 rd1) fuel1) (rs_body resp) got e b -> got = out /\ e = None).
Proof.
  intros S1 Bd bld1 cap1 rd1 wt1 log1 bufsz1 rdb fuel1 r body xs data s o sa n b' o1 s1 S2 H bld2 cap2 rd2 wt2 log2 etext hd bufsz2 fuel2 hs t zs
    f wire q hs' ys out Hh Hb Hbu Hf Hd Hn Hu Hv Hs Hg Hte E1 E2 E3 Hw Ht Hc Hf2 Hm Hp Hst Hru Hy Hyn Hh2 Hr2 Hs2 Hz Hz2 L1 L2.
  destruct (serve_one_inner bld2 cap2 rd2 etext hd fuel2 hs t) as [[[y cs] h1] t1] eqn:E.
  destruct (C52_upload S1 Bd bld1 cap1 wt1 log1 bufsz1 rdb fuel1 r body xs data s o sa n b' o1 s1 S2 H bld2 cap2 rd2 etext hd fuel2 hs t zs f wire
    Hh Hb Hbu Hf Hd Hn Hu Hv Hs Hg Hte E1 E2 E3 Hw Ht Hc Hf2 Hm Hp y cs h1 t1 E) as [-> (len & [(_ & _ & K)|K])].
  { destruct K. apply Hst. }
  apply Hru in K. injection K as -> ->.
  destruct (C50_complete S2 H bld2 cap2 rd2 wt2 etext log2 hd bufsz2 fuel2 hs t _ _ _ _ q ys out Hh2 Hr2 Hs2 Hz E (or_introl eq_refl) Hy Hyn L1 Hz2 L2)
    as (t2 & E' & Hlog).
  exists t2. split; auto. split; auto. intros Hc1 Hqv Hqc Hqs Hqf Hd1 Hf1.
  destruct (C52_download S1 bld1 cap1 rd1 fuel1 s1 _ q out Hc1 Hqv Hqc Hqs Hqf Hd1 Hf1) as (resp & s2 & Er & _ & A1 & A2 & A3 & A4 & A5).
  exists resp, s2. assert (Ef : finish bld1 cap1 rd1 wt1 fuel1 o1 = (Ok resp, s2)) by (unfold finish; now rewrite E3).
  repeat (split; [assumption|]). split; [|auto]. intros Hok. unfold exchange. rewrite E1. cbn [sbind]. rewrite E2, Ef. cbn [sbind].
  rewrite A3, Hok; [reflexivity|]. intros c. now rewrite Hok.
Qed.
Print Assumptions C52_end_to_end.

(** A handler that reads the body to its end, with a buffer of [n] bytes, meets the conditions. *)
Theorem C52_reading_to_the_end : forall A n (done : bytes -> A) failed len fuel data,
  0 < n -> length data + 2 <= fuel -> (forall e, reads_some (failed e)) ->
  reads_some (slurp n (fun d => Ret (done d)) failed [])
  /\ stops len fuel (slurp n (fun d => Ret (done d)) failed []) data
  /\ forall a, runs len (slurp n (fun d => Ret (done d)) failed []) data a -> a = done data.
Proof.
  intros A n done failed len fuel data Hn Hf Hfa. split; [|split].
  - apply slurp_reads_some; auto. intros. constructor.
  - pose proof (slurp_stops len n (fun d => Ret (done d)) failed (fuel - S (length data)) data [] Hn) as Hs.
    replace (S (length data) + (fuel - S (length data))) with fuel in Hs by lia. apply Hs.
    destruct (fuel - S (length data)) eqn:E; [lia|]. constructor.
  - intros a Ha. apply slurp_runs in Ha. cbn [app] in Ha. now inversion Ha.
Qed.
Print Assumptions C52_reading_to_the_end.

(** One exchange, with both ends and the segmentation written out. *)
Definition C52_url : url := mkUrl (bs "http") (Some (bs "h")) None (bs "/up") None.
Definition C52_reply : bytes := reply (bs "200 OK") (bs "hello, server").
Example C52_case :
  match builder_new C52_url Put with
  | Ok r =>
      sendable_uri (rq_uri r) /\ small_version (rq_version r) /\ sendable (rq_headers r) /\ good_length (rq_headers r)
      /\ hm_get (bs "transfer-encoding") (rq_headers r) = Some (bs "chunked")
      /\ match send Std 16 wire3_writer 300 r ([], segs [firstn 20 C52_reply; skipn 20 C52_reply]) with
         | (Ok o, _) =>
             match copy Std slice_read (outgoing_writer Std 16 wire3_writer 300) 5 300 (bs "hello, server") o with
             | (Ok n, (_, o1)) =>
                 match finish_send Std 16 wire3_writer 300 o1 with
                 | (Ok _, s1) =>
                     (* the server's run on what the client wrote, arriving in two parts *)
                     serve_text echo [firstn 31 (fst s1); skipn 31 (fst s1)]
                       = (Ok tt, [Called Put (bs "/up")], [bs "hello, server"], C52_reply)
                     (* the client's result *)
                     /\ match finish Std 16 wire3_read wire3_writer 300 o1 with
                        | (Ok resp, _) =>
                            rs_status resp = OK
                            /\ fst (body_read Std (bufr_read Std 16 wire3_read) 300 100 (rs_body resp)) = Ok (firstn 1 (bs "hello, server"))
                        | _ => False
                        end
                 | _ => False
                 end
             | _ => False
             end
         | _ => False
         end
  | _ => False
  end.
Proof.
  set (x := builder_new C52_url Put). vm_compute in x. subst x. cbv iota beta. cbn [rq_uri rq_version rq_headers].
  split; [|split; [|split; [|split]]].
  - repeat split; try easy.
    + now apply utf8_bs_ascii.
    + assert (H : forallb (fun b => negb (is_blank b)) (bs "/up") = true) by reflexivity. rewrite forallb_forall in H.
      apply Forall_forall. intros b Hb. apply H, negb_true_iff in Hb. now apply is_blank_false.
    + apply no_cr_no_crlf. cbn. intuition easy.
  - split; reflexivity.
  - apply sendable_check; [reflexivity|].
    exact (headers_from_sorted [(bs "accept", bs "*/*"); (bs "host", bs "h"); (bs "transfer-encoding", bs "chunked"); (bs "user-agent", bs "http_io")]).
  - intros w H. vm_compute in H. discriminate.
  - split; [reflexivity|]. vm_compute. repeat split; reflexivity.
Qed.
