(** Property C72: a handler that fetches its answer from another server and passes it on. *)
From Verif Require Import Base Utf8 Case Num Io Parser Types Message Outgoing Client Server Transport.
From Verif Require Import Lemmas ReadLemmas NumLemmas ChunkSpec ChunkLemmas BodyLemmas WriteLemmas ParserLemmas CaseLemmas
  TypesLemmas HeadLemmas BlockLemmas MsgLemmas OutLemmas SimLemmas KeepLemmas ErrLemmas PBody PIo PParse PHead POut PReuse PServer
  PEnd PForward PCommands PDocs.

(** ** The answer that is passed on *)
(** A user's code, written with the public parts of the crate: [HttpResponse::new(resp.status, Box::new(resp.body))]
    (src/protocol.rs 1578-1586), then [headers] (a public field, 1567) is set to [h]. With [h = resp.headers] the answer is
    copied as it was received. *)
Definition passed_on {T} bld cap (rd : reader T) fuel (resp : response (hbody (bufr T))) (h : headers) : dyn_response :=
  let r := response_new (rs_status resp) (dyn_of (body_read bld (bufr_read bld cap rd) fuel) (rs_body resp)) in
  mkResponse (rs_version r) (rs_status r) h (rs_body r).

Lemma passed_delivers {T} bld cap (rd : reader T) fuel resp h xs : 0 < cap ->
  delivers (body_read bld (bufr_read bld cap rd) fuel) (rs_body resp) xs ->
  delivers (body_read bld (bufr_read bld cap dyn_read) fuel) (rs_body (passed_on bld cap rd fuel resp h)) xs.
Proof. intros Hc H. cbn [passed_on rs_body]. now apply tilclose_delivers, bufr_delivers, dyn_delivers. Qed.

(** What an answer with headers [h] brings that is not chunked, on a connection that carries [data] and then [zs]:
    all of it if there is no length, up to the length otherwise, and what there is if that is less. *)
Definition brings (h : headers) (data : bytes) (zs : list item) : Prop :=
  hm_get (bs "transfer-encoding") h <> Some (bs "chunked")
  /\ ((hm_get (bs "content-length") h = None /\ zs = [])
      \/ exists w n, hm_get (bs "content-length") h = Some w /\ u64_text w n
           /\ (N.of_nat (length data) = n \/ ((N.of_nat (length data) < n)%N /\ zs = []))).

Lemma take_items_short data : forall n, (N.of_nat (length data) <= n)%N -> take_items n (map B data) = map B data.
Proof.
  induction data as [|c data IH]; intros n Hn; cbn [map take_items]; auto. cbn [length] in Hn.
  destruct (N.eqb_spec n 0) as [->|_]; [lia|]. rewrite IH; auto. lia.
Qed.

Lemma brings_delivers {T} bld (rd : reader T) fuel t h data zs b : brings h data zs -> framed h t b ->
  delivers rd t (map B data ++ zs) -> delivers (body_read bld rd fuel) b (map B data).
Proof.
  intros [Hte Hcl] (len & Hlen & Hb) Hd. destruct Hb as [[Hb _]|[_ ->]]; [congruence|].
  destruct Hcl as [[Hcl ->]|(w & n & Hcl & Hn & Hl)].
  - destruct Hlen as [[_ ->]|(w & n & Hw & _)]; [|congruence]. rewrite app_nil_r in Hd. now apply tilclose_delivers.
  - destruct Hlen as [[Hc _]|(w' & n' & Hw & Hn' & ->)]; [congruence|]. rewrite Hw in Hcl. injection Hcl as ->.
    assert (n' = n) as ->.
    { pose proof (content_length_good _ _ _ Hw Hn) as E1. rewrite (content_length_good _ _ _ Hw Hn') in E1. congruence. }
    destruct Hl as [<-|[Hl ->]].
    + eapply delivers_end_delivers, limited_delivers_end; eauto.
    + rewrite app_nil_r in Hd. rewrite <- (take_items_short data n) by lia. now apply limited_delivers.
Qed.

(** The second client's view of a head that is passed on. *)
Lemma relayed_head {T T'} bld cap (rd : reader T') fuel (resp : response (hbody (bufr T'))) bld2 (rd2 : reader T) fuel2 s2 first lines v st h d :
  good_head first lines v st h -> rs_status resp = st ->
  delivers rd2 s2 (map B (response_wire (passed_on bld cap rd fuel resp h) d)) ->
  length (response_wire (passed_on bld cap rd fuel resp h) d) < fuel2 ->
  exists h' b s', response_deserialize bld2 rd2 fuel2 s2 = (Ok (mkResponse (mkVersion 1 1) st h' b), s')
    /\ forwarded h h' /\ framed h (bufr_new s') b /\ delivers rd2 s' (map B d).
Proof.
  intros (Ht & Hts & Hl & Hb & Hg) Hst D L. set (q := passed_on bld cap rd fuel resp h) in *.
  destruct (status_line_received _ _ _ Hl) as (_ & n & Hn & Hst'). apply (accepted_received _ _ Hts) in Hb.
  destruct (forward_headers _ Hb) as (h' & Hacc & Hfw & Hr' & Hfb & Hget).
  assert (Hgl : good_length h').
  { intros w Hw. apply Hg. rewrite <- Hget; auto; try easy. now intros c x [= <- _]. }
  assert (Ew : map B (response_wire q d) = map B (concat (response_pieces q)) ++ map B d).
  { rewrite <- map_app. f_equal. rewrite response_pieces_wire. unfold response_wire. now rewrite <- !app_assoc. }
  assert (L' : length (map B (response_wire q d)) < fuel2) by (now rewrite map_length).
  rewrite Ew in D, L'. rewrite response_pieces_wire, headers_pieces_wire in D, L'.
  assert (Hv : small_version (mkVersion 1 1)) by (split; vm_compute; reflexivity).
  assert (Hsq : rs_status q = st) by (subst q; cbn; auto).
  destruct (status_line_ok (rs_version q) (rs_status q) Hv) as [R1 R2].
  { rewrite Hsq, Hst', C18_from_to. unfold u32_max. lia. }
  rewrite Hsq in R1, R2. assert (R3 : from_code (to_code st) = st) by (rewrite Hst'; now rewrite C18_from_to). rewrite R3 in R2.
  rewrite Hsq in D, L'.
  destruct (C30_response_accepts _ bld2 rd2 fuel2 s2 _ (map header_line (rs_headers q)) (map B d) (rs_version q) st h'
    R1 (received_text _ (proj1 (proj2 Hb))) (status_line_meaning _ _ _ (proj2 (proj2 R1)) R2) Hacc Hgl D L')
    as (b & s' & E' & F' & D'').
  exists h', b, s'. split; auto. split; auto. split; auto. now apply (framed_same _ h').
Qed.

(** ** C72. Passing an answer on *)
(** An answer that is not chunked, passed on with its own headers: the second client gets the status, the headers (but see
    C63) and the bytes that the first one got. A body that is shorter than announced is passed on without anyone noticing. *)
Theorem C72_not_chunked :
  forall S0 S1 H S2 bld cap (rd0 : reader S0) fuel s0 first lines v st h data zs
    (rd : reader S1) (wt : writer S1) etext log (hd : handler H) bufsz hs s resp s0' y cs hs' s1
    bld2 cap2 (rd2 : reader S2) fuel2 s2,
  (* the server that passes on gets an answer *)
  0 < cap -> good_head first lines v st h -> brings h data zs ->
  delivers rd0 s0 (map B (head_bytes first lines ++ data) ++ zs) ->
  length (map B (head_bytes first lines ++ data) ++ zs) + 3 < fuel ->
  response_deserialize bld rd0 fuel s0 = (Ok resp, s0') ->
  (* its handler returns it *)
  honest wt log -> reliable wt -> silent rd log -> 0 < bufsz <= fuel ->
  serve_one_inner bld cap rd etext hd fuel hs s = (Ok y, cs, hs', s1) ->
  y = inl (passed_on bld cap rd0 fuel resp (rs_headers resp)) \/ y = inr (passed_on bld cap rd0 fuel resp (rs_headers resp)) ->
  length (response_wire (passed_on bld cap rd0 fuel resp (rs_headers resp)) []) <= fuel ->
  exists s' wire, serve_stream bld cap rd wt etext hd bufsz fuel hs s = (Ok tt, cs, hs', s')
    /\ log s' = log s ++ wire
    (* the client of that server *)
    /\ (0 < cap2 -> delivers rd2 s2 (map B wire) -> length wire + 3 < fuel2 ->
        exists resp2 s2', response_deserialize bld2 rd2 fuel2 s2 = (Ok resp2, s2')
          /\ rs_status resp2 = st /\ forwarded h (rs_headers resp2)
          /\ (exists b, drains (body_read bld2 (bufr_read bld2 cap2 rd2) fuel2) (rs_body resp2) data None b)
          /\ forall got e b, drains (body_read bld2 (bufr_read bld2 cap2 rd2) fuel2) (rs_body resp2) got e b -> got = data /\ e = None).
Proof.
  intros S0 S1 H S2 bld cap rd0 fuel s0 first lines v st h data zs rd wt etext log hd bufsz hs s resp s0' y cs hs' s1
    bld2 cap2 rd2 fuel2 s2 Hc Hg Hbr Hd Hf E Hh Hr Hs [Hz Hz'] Ei Hy Hw.
  rewrite map_app, <- app_assoc in Hd, Hf. unfold head_bytes in Hd, Hf.
  destruct Hg as (Ht & Hts & Hl & Hb & Hgl).
  destruct (C30_response_accepts _ bld rd0 fuel s0 first lines (map B data ++ zs) v st h Ht Hts Hl Hb Hgl Hd ltac:(lia)) as (b & t' & E' & Fr & Dt).
  rewrite E in E'. injection E' as -> <-. cbn [rs_headers] in *. set (resp := mkResponse v st h b) in *.
  set (q := passed_on bld cap rd0 fuel resp h) in *.
  assert (Dq : delivers (body_read bld (bufr_read bld cap dyn_read) fuel) (rs_body q) (map B data)).
  { apply passed_delivers; auto. eapply brings_delivers; eauto. now apply bufr_delivers. }
  rewrite !app_length, !map_length in Hf.
  destruct (C50_complete _ _ bld cap rd wt etext log hd bufsz fuel hs s y cs hs' s1 q (map B data) data Hh Hr Hs Hz Ei Hy Dq
    (noisy_map_B _ _) Hw Hz' ltac:(rewrite map_length; lia)) as (s' & Es & Ls).
  exists s', (response_wire q data). split; [exact Es|]. split; [exact Ls|]. intros Hc2 D2 L2.
  destruct (relayed_head bld cap rd0 fuel resp bld2 rd2 fuel2 s2 first lines v st h data
    (conj Ht (conj Hts (conj Hl (conj Hb Hgl)))) eq_refl D2 ltac:(unfold q in L2; lia)) as (h' & b2 & s2' & E2 & Fw & Fr2 & Ds2).
  exists (mkResponse (mkVersion 1 1) st h' b2), s2'. split; [exact E2|]. split; [reflexivity|]. split; [exact Fw|].
  assert (K : delivers (body_read bld2 (bufr_read bld2 cap2 rd2) fuel2) b2 (map B data)).
  { apply (brings_delivers bld2 (bufr_read bld2 cap2 rd2) fuel2 (bufr_new s2') h data []); auto.
    - destruct Hbr as [B1 B2]. split; auto. destruct B2 as [[B2 _]|(w & n & B2 & B3 & B4)]; auto.
      right. exists w, n. split; auto. split; auto. destruct B4 as [B4|[B4 _]]; auto.
    - rewrite app_nil_r. now apply bufr_delivers. }
  cbn [rs_body]. split.
  - destruct (delivers_can_drain _ _ _ K) as [b1 Hb1]. rewrite lead_map, fault_map in Hb1. eauto.
  - intros got e b1 Hdr. destruct (delivers_drains _ _ _ _ _ _ K Hdr) as (-> & ->). now rewrite lead_map, fault_map.
Qed.
Print Assumptions C72_not_chunked.

Lemma loose_shorter p w : loose_wire p w -> length p < length w.
Proof. induction 1; rewrite !app_length; cbn [length CRLF]; lia. Qed.
Lemma partial_shorter p w : partial_wire p w -> w = [] \/ length p < length w.
Proof.
  induction 1 as [l Hl|h n data Hs Hn|h data sep Hd Hs Hl|h data a b p w Hd Hs Hw IH].
  - destruct l as [|c l]; [now left|right; cbn; lia].
  - right. rewrite !app_length. cbn [length CRLF]. lia.
  - right. rewrite !app_length. cbn [length CRLF]. lia.
  - right. rewrite !app_length. cbn [length CRLF]. destruct IH as [->|IH]; [|lia]. cbn [length].
    assert (length p = 0); [|lia]. clear - Hw. remember [] as w eqn:Ew. destruct Hw; try (destruct h; discriminate Ew); auto.
Qed.
Lemma bad_shorter p w : bad_wire p w -> length p < length w.
Proof. induction 1; rewrite !app_length; cbn [length CRLF]; lia. Qed.

(** The answer of a server reached through [serve_one]. *)
Lemma relayed_wire {S0 S1 H} bld cap (rd0 : reader S0) fuel resp h2 data
    (rd : reader S1) (wt : writer S1) etext log (hd : handler H) bufsz hs s y cs hs' s1 :
  0 < cap -> delivers (body_read bld (bufr_read bld cap rd0) fuel) (rs_body resp) (map B data) ->
  honest wt log -> reliable wt -> silent rd log -> 0 < bufsz <= fuel ->
  serve_one_inner bld cap rd etext hd fuel hs s = (Ok y, cs, hs', s1) ->
  y = inl (passed_on bld cap rd0 fuel resp h2) \/ y = inr (passed_on bld cap rd0 fuel resp h2) ->
  length (response_wire (passed_on bld cap rd0 fuel resp h2) []) <= fuel -> length data < fuel ->
  exists s', serve_stream bld cap rd wt etext hd bufsz fuel hs s = (Ok tt, cs, hs', s')
    /\ log s' = log s ++ response_wire (passed_on bld cap rd0 fuel resp h2) data.
Proof.
  intros Hc Hd Hh Hr Hs [Hz Hz'] Ei Hy Hw Hl. apply (passed_delivers _ _ _ _ _ h2) in Hd; auto.
  apply (C50_complete _ _ bld cap rd wt etext log hd bufsz fuel hs s y cs hs' s1 _ (map B data) data); auto using noisy_map_B.
  now rewrite map_length.
Qed.

(** A chunked answer that is passed on with its own headers is sent without its chunks, under headers that promise
    them. So the second client decodes the data itself: it never gets what the first one got, and whether it gets an
    error or some other data as a complete body is decided by whoever chose the data. *)
Theorem chunk_ofed :
  forall S0 S1 H S2 bld cap (rd0 : reader S0) fuel s0 first lines v st h data chunks zs
    (rd : reader S1) (wt : writer S1) etext log (hd : handler H) bufsz hs s resp s0' y cs hs' s1
    bld2 cap2 (rd2 : reader S2) fuel2 s2,
  (* the server that passes on gets an answer *)
  0 < cap -> good_head first lines v st h ->
  hm_get (bs "transfer-encoding") h = Some (bs "chunked") -> chunked_wire data chunks ->
  delivers rd0 s0 (map B (head_bytes first lines ++ chunks) ++ zs) ->
  length (map B (head_bytes first lines ++ chunks) ++ zs) + 3 < fuel ->
  response_deserialize bld rd0 fuel s0 = (Ok resp, s0') ->
  (* its handler returns it *)
  honest wt log -> reliable wt -> silent rd log -> 0 < bufsz <= fuel ->
  serve_one_inner bld cap rd etext hd fuel hs s = (Ok y, cs, hs', s1) ->
  y = inl (passed_on bld cap rd0 fuel resp (rs_headers resp)) \/ y = inr (passed_on bld cap rd0 fuel resp (rs_headers resp)) ->
  length (response_wire (passed_on bld cap rd0 fuel resp (rs_headers resp)) []) <= fuel ->
  exists s' wire, serve_stream bld cap rd wt etext hd bufsz fuel hs s = (Ok tt, cs, hs', s')
    /\ log s' = log s ++ wire
    (* the client of that server *)
    /\ (0 < cap2 -> delivers rd2 s2 (map B wire) -> length wire + 3 < fuel2 ->
        exists resp2 s2', response_deserialize bld2 rd2 fuel2 s2 = (Ok resp2, s2')
          /\ rs_status resp2 = st /\ forwarded h (rs_headers resp2)
          /\ (forall got, (exists b, drains (body_read bld2 (bufr_read bld2 cap2 rd2) fuel2) (rs_body resp2) got None b)
                <-> exists w rest, data = w ++ rest /\ loose_wire got w)
          /\ (forall got e b, drains (body_read bld2 (bufr_read bld2 cap2 rd2) fuel2) (rs_body resp2) got e b ->
                length got < length data \/ (data = [] /\ got = [] /\ e <> None))).
Proof.
  intros S0 S1 H S2 bld cap rd0 fuel s0 first lines v st h data chunks zs rd wt etext log hd bufsz hs s resp s0' y cs hs' s1
    bld2 cap2 rd2 fuel2 s2 Hc Hg Hte Hck Hd Hf E Hh Hr Hs Hz Ei Hy Hw.
  rewrite map_app, <- app_assoc in Hd, Hf. unfold head_bytes in Hd, Hf. pose proof Hg as Hg0.
  destruct Hg as (Ht & Hts & Hl & Hb & Hgl).
  destruct (C30_response_accepts _ bld rd0 fuel s0 first lines (map B chunks ++ zs) v st h Ht Hts Hl Hb Hgl Hd ltac:(lia)) as (b & t' & E' & Fr & Dt).
  rewrite E in E'. injection E' as -> <-. cbn [rs_headers] in *. set (resp := mkResponse v st h b) in *.
  rewrite !app_length, !map_length in Hf. pose proof (payload_shorter _ _ Hck) as Hsh.
  assert (Db : delivers (body_read bld (bufr_read bld cap rd0) fuel) (rs_body resp) (map B data)).
  { destruct Fr as (len & _ & Hb'). destruct Hb' as [[_ Hb']|[Hb' _]]; [|congruence]. cbn [resp rs_body]. rewrite Hb'.
    apply (bufr_delivers bld cap) in Dt; auto.
    eapply delivers_end_delivers, (C04_chunked_decode _ bld _ _ data chunks zs len fuel Hck Dt). rewrite app_length, !map_length. lia. }
  destruct (relayed_wire bld cap rd0 fuel resp h data rd wt etext log hd bufsz hs s y cs hs' s1 Hc Db Hh Hr Hs Hz Ei Hy Hw ltac:(lia))
    as (s' & Es & Ls).
  eexists s', _. split; [exact Es|]. split; [exact Ls|]. intros Hc2 D2 L2.
  destruct (relayed_head bld cap rd0 fuel resp bld2 rd2 fuel2 s2 first lines v st h data Hg0 eq_refl D2 ltac:(lia)) as (h' & b2 & s2' & E2 & Fw & Fr2 & Ds2).
  exists (mkResponse (mkVersion 1 1) st h' b2), s2'. split; [exact E2|]. split; [reflexivity|]. split; [exact Fw|]. cbn [rs_body].
  destruct Fr2 as (len & _ & Hb2). destruct Hb2 as [[_ ->]|[Hb2 _]]; [|congruence].
  apply (bufr_delivers bld2 cap2) in Ds2; auto.
  assert (Ll : length data + 3 < fuel2) by (unfold response_wire in L2; rewrite !app_length in L2; lia).
  split; [intros got; now apply C07_accepts_iff|].
  intros got e b1 Hdr. destruct (C07_exact_language _ bld2 _ _ data len fuel2 Ds2 Ll) as [(p & w & rest & -> & Hp & K)|(p & e' & Hp & K)].
  - apply delivers_end_delivers in K. destruct (delivers_drains _ _ _ _ _ _ K Hdr) as (-> & ->). rewrite lead_map.
    left. rewrite app_length. apply loose_shorter in Hp. lia.
  - destruct (delivers_drains _ _ _ _ _ _ K Hdr) as (-> & ->). rewrite lead_app, fault_app. cbn [lead fault]. rewrite app_nil_r.
    destruct Hp as [Hp|Hp].
    + destruct (partial_shorter _ _ Hp) as [->|Hlt]; [|now left]. right. split; auto. split; [|easy].
      remember [] as w eqn:Ew. destruct Hp; try (destruct h0; discriminate Ew); auto.
    + apply bad_shorter in Hp. now left.
Qed.
Print Assumptions chunk_ofed.

(** With other headers, that promise neither chunks nor a length, the second client gets the data. But when the answer
    is cut off, which the first client is told (C06), the second one gets the part before the cut as if it were all;
    only the result of [serve_one] says so. *)
Theorem C72_own_headers :
  forall S0 S1 H S2 bld cap (rd0 : reader S0) fuel s0 first lines v st h h2 data chunks missing zs
    (rd : reader S1) (wt : writer S1) etext log (hd : handler H) bufsz hs s resp s0' y cs hs' s1
    bld2 cap2 (rd2 : reader S2) fuel2 s2,
  0 < cap -> good_head first lines v st h ->
  hm_get (bs "transfer-encoding") h = Some (bs "chunked") -> chunked_wire data (chunks ++ missing) -> (missing <> [] -> zs = []) ->
  delivers rd0 s0 (map B (head_bytes first lines ++ chunks) ++ zs) ->
  length (map B (head_bytes first lines ++ chunks) ++ zs) + 3 < fuel ->
  response_deserialize bld rd0 fuel s0 = (Ok resp, s0') ->
  honest wt log -> reliable wt -> silent rd log -> 0 < bufsz <= fuel ->
  serve_one_inner bld cap rd etext hd fuel hs s = (Ok y, cs, hs', s1) ->
  y = inl (passed_on bld cap rd0 fuel resp h2) \/ y = inr (passed_on bld cap rd0 fuel resp h2) ->
  length (response_wire (passed_on bld cap rd0 fuel resp h2) []) <= fuel ->
  sendable h2 -> hm_get (bs "transfer-encoding") h2 <> Some (bs "chunked") -> hm_get (bs "content-length") h2 = None ->
  exists x s' wire part, serve_stream bld cap rd wt etext hd bufsz fuel hs s = (x, cs, hs', s')
    /\ log s' = log s ++ wire /\ prefix part data
    /\ (missing = [] -> x = Ok tt /\ part = data) /\ (missing <> [] -> exists e, x = Err e)
    /\ (forall got o b, drains (body_read bld (bufr_read bld cap rd0) fuel) (rs_body resp) got o b ->
          got = part /\ (o = None <-> missing = []))
    /\ (0 < cap2 -> delivers rd2 s2 (map B wire) -> length wire + 3 < fuel2 ->
        exists resp2 s2', response_deserialize bld2 rd2 fuel2 s2 = (Ok resp2, s2')
          /\ rs_status resp2 = st /\ rs_headers resp2 = h2
          /\ (exists b, drains (body_read bld2 (bufr_read bld2 cap2 rd2) fuel2) (rs_body resp2) part None b)
          /\ forall got e b, drains (body_read bld2 (bufr_read bld2 cap2 rd2) fuel2) (rs_body resp2) got e b -> got = part /\ e = None).
Proof.
  intros S0 S1 H S2 bld cap rd0 fuel s0 first lines v st h h2 data chunks missing zs rd wt etext log hd bufsz hs s resp s0' y cs hs' s1
    bld2 cap2 rd2 fuel2 s2 Hc Hg Hte Hck Hmz Hd Hf E Hh Hr Hs Hz Ei Hy Hw Hsd H2 H3.
  rewrite map_app, <- app_assoc in Hd, Hf. unfold head_bytes in Hd, Hf.
  destruct Hg as (Ht & Hts & Hl & Hb & Hgl).
  destruct (C30_response_accepts _ bld rd0 fuel s0 first lines (map B chunks ++ zs) v st h Ht Hts Hl Hb Hgl Hd ltac:(lia)) as (b & t' & E' & Fr & Dt).
  rewrite E in E'. injection E' as -> <-. set (resp := mkResponse v st h b) in *.
  rewrite !app_length, !map_length in Hf.
  destruct Fr as (len & _ & Hb'). destruct Hb' as [[_ Hb']|[Hb' _]]; [|congruence].
  destruct (status_line_received _ _ _ Hl) as (_ & n & Hn & Hst).
  (* the second client, for any part *)
  assert (C2 : forall part, 0 < cap2 -> delivers rd2 s2 (map B (response_wire (passed_on bld cap rd0 fuel resp h2) part)) ->
    length (response_wire (passed_on bld cap rd0 fuel resp h2) part) + 3 < fuel2 ->
    exists resp2 s2', response_deserialize bld2 rd2 fuel2 s2 = (Ok resp2, s2')
      /\ rs_status resp2 = st /\ rs_headers resp2 = h2
      /\ (exists b, drains (body_read bld2 (bufr_read bld2 cap2 rd2) fuel2) (rs_body resp2) part None b)
      /\ forall got e b, drains (body_read bld2 (bufr_read bld2 cap2 rd2) fuel2) (rs_body resp2) got e b -> got = part /\ e = None).
  { intros part Hc2 D2 L2.
    destruct (C52_download _ bld2 cap2 rd2 fuel2 s2 _ (passed_on bld cap rd0 fuel resp h2) part Hc2) as (r2 & s2' & E2 & _ & F1 & F2 & _ & F4 & F5); auto.
    - split; vm_compute; reflexivity.
    - cbn [passed_on response_new rs_status resp]. rewrite Hst, C18_from_to. exact Hn.
    - split; auto.
    - exists r2, s2'. split; [exact E2|]. split; [|auto].
      assert (L2' : length (map B (response_wire (passed_on bld cap rd0 fuel resp h2) part)) < fuel2) by (rewrite map_length; lia).
      destruct (C30_response _ _ _ _ _ _ _ _ D2 L2' E2) as (f2 & l2 & cx & ys & _ & _ & _ & _ & Hl2 & _).
      destruct (status_line_received _ _ _ Hl2) as (_ & n2 & _ & Hst2). change (to_code (rs_status r2) = to_code st) in F2.
      rewrite Hst, Hst2, !C18_from_to in F2. congruence. }
  apply (bufr_delivers bld cap) in Dt; auto.
  destruct missing as [|c missing].
  - rewrite app_nil_r in Hck. pose proof (payload_shorter _ _ Hck) as Hsh.
    assert (Db : delivers (body_read bld (bufr_read bld cap rd0) fuel) (rs_body resp) (map B data)).
    { cbn [resp rs_body]. rewrite Hb'.
      eapply delivers_end_delivers, (C04_chunked_decode _ bld _ _ data chunks zs len fuel Hck Dt). rewrite app_length, !map_length. lia. }
    destruct (relayed_wire bld cap rd0 fuel resp h2 data rd wt etext log hd bufsz hs s y cs hs' s1 Hc Db Hh Hr Hs Hz Ei Hy Hw ltac:(lia))
      as (s' & Es & Ls).
    eexists (Ok tt), s', _, data. split; [exact Es|]. split; [exact Ls|]. split; [exists []; now rewrite app_nil_r|].
    split; [auto|]. split; [easy|]. split; [|apply C2].
    intros got o b1 Hdr. destruct (delivers_drains _ _ _ _ _ _ Db Hdr) as (-> & ->). rewrite lead_map, fault_map. easy.
  - rewrite (Hmz ltac:(easy)), app_nil_r in Dt.
    destruct (loose_prefix _ _ (chunked_loose _ _ Hck) chunks (c :: missing) eq_refl ltac:(easy)) as (p & q & -> & Hpw).
    destruct (partial_eof bld p chunks Hpw) as (e & He & Hde).
    assert (Db : delivers (body_read bld (bufr_read bld cap rd0) fuel) (BChunked len (CStream (bufr_new s0'))) (map B p ++ [Transport.E e])).
    { eapply delivers_end_delivers, chunked_body_delivers; eauto. rewrite map_length. lia. }
    assert (Hre : is_retry bld e = false) by (destruct He as [-> | ->]; now destruct bld).
    rewrite <- Hb' in Db. change b with (rs_body resp) in Db.
    pose proof (passed_delivers bld cap rd0 fuel resp h2 _ Hc Db) as Dq. destruct Hz as [Hz Hz'].
    assert (Hp : length p < fuel).
    { destruct (partial_shorter _ _ Hpw) as [->|Hlt]; [|lia]. remember [] as w eqn:Ew.
      destruct Hpw; try (destruct h0; discriminate Ew); cbn [length]; lia. }
    destruct (C70_failing_body _ _ bld cap rd wt etext log hd bufsz fuel hs s y cs hs' s1 _ (map B p) e [] p Hh Hr Hs Hz Ei Hy Dq
      (noisy_map_B _ _) Hre Hw Hz' ltac:(now rewrite map_length)) as (s' & Es & Ls).
    eexists (Err e), s', _, p. split; [exact Es|]. split; [exact Ls|]. split; [now exists q|].
    split; [easy|]. split; [eauto|]. split; [|apply C2].
    intros got o b1 Hdr. destruct (delivers_drains _ _ _ _ _ _ Db Hdr) as (-> & ->). rewrite lead_app, fault_app. cbn [lead fault].
    now rewrite app_nil_r.
Qed.
Print Assumptions C72_own_headers.

(** A handler that answers each GET with what it reads from a connection to another server, with the headers it came
    with or with none. *)
Definition relay (keep : bool) : handler (list event) :=
  let plain (u : bytes) (up : list event) :=
    match response_deserialize Std seg_read 300 up with
    | (Ok resp, up') => (Ok (inl (passed_on Std 8 seg_read 300 resp (if keep then rs_headers resp else []))), up')
    | (_, up') => (Ok (inr (from_string BadGateway (bs "?"))), up')
    end in
  let d := @default_handler (list event) in
  mkHandler (h_delete d) plain (h_head d) (h_options d) (h_trace d) (h_put d) (h_post d).
(** The result of [serve_one], what it sent, and what the client at the other end reads: data, and whether that was all. *)
Fixpoint read_out {T} (rd : reader T) (fuel : nat) (t : T) : option (bytes * bool) :=
  match fuel with
  | O => None
  | S f => match rd 4 t with
           | (Ok [], _) => Some ([], true)
           | (Ok got, t') => match read_out rd f t' with Some (r, x) => Some (got ++ r, x) | None => None end
           | (Err _, _) => Some ([], false)
           | _ => None
           end
  end.
Definition C72_run (keep : bool) (up : bytes) :=
  match serve_stream Std 8 wire3_read wire3_writer no_text (relay keep) 4 300 (text up) ([], segs [C51_get (bs "/")]) with
  | (x, _, _, s) =>
      (x, fst s, match response_deserialize Std seg_read 300 (text (fst s)) with
                 | (Ok r, _) => read_out (body_read Std (bufr_read Std 16 seg_read) 300) 300 (rs_body r)
                 | _ => None
                 end)
  end.
Definition C72_head (lines : list bytes) : bytes := head_bytes (bs "HTTP/1.1 200 OK") lines.
Example C72_case :
  let len := bs "content-length: 5" in
  let chunked := bs "transfer-encoding: chunked" in
  let ends := bs "0" ++ CRLF in
  (* by length, and shorter than announced *)
  C72_run true (C72_head [bs "Content-Length: 5"] ++ bs "hello, there") = (Ok tt, C72_head [len] ++ bs "hello", Some (bs "hello", true))
  /\ C72_run true (C72_head [bs "Content-Length: 5"] ++ bs "hel") = (Ok tt, C72_head [len] ++ bs "hel", Some (bs "hel", true))
  (* chunked *)
  /\ C72_run true (C72_head [bs "Transfer-Encoding: chunked"] ++ chunk_of (bs "hello") ++ ends ++ CRLF)
     = (Ok tt, C72_head [chunked] ++ bs "hello", Some ([], false))
  /\ C72_run true (C72_head [bs "Transfer-Encoding: chunked"] ++ chunk_of (chunk_of (bs "evil") ++ ends ++ bs "good") ++ ends ++ CRLF)
     = (Ok tt, C72_head [chunked] ++ chunk_of (bs "evil") ++ ends ++ bs "good", Some (bs "evil", true))
  (* without the headers, complete and cut off *)
  /\ C72_run false (C72_head [bs "Transfer-Encoding: chunked"] ++ chunk_of (bs "hello") ++ ends ++ CRLF)
     = (Ok tt, C72_head [] ++ bs "hello", Some (bs "hello", true))
  /\ C72_run false (C72_head [bs "Transfer-Encoding: chunked"] ++ chunk_of (bs "hello") ++ chunk_of (bs "more"))
     = (Err (IoError (KOther 0)), C72_head [] ++ bs "hellomore", Some (bs "hellomore", true))
  (* the hypotheses *)
  /\ good_head (bs "HTTP/1.1 200 OK") [bs "Content-Length: 5"] (mkVersion 1 1) OK [(bs "content-length", bs "5")]
  /\ brings [(bs "content-length", bs "5")] (bs "hello") (map B (bs ", there")) /\ brings [(bs "content-length", bs "5")] (bs "hel") []
  /\ chunked_wire (bs "hello") (chunk_of (bs "hello") ++ ends) /\ loose_wire (bs "evil") (chunk_of (bs "evil") ++ ends).
Proof.
  cbv zeta.
  assert (H5 : u64_text (bs "5") 5).
  { split; [reflexivity|]. left. split; [easy|]. exists [5%N]. split; [|reflexivity]. repeat constructor; vm_compute; congruence. }
  assert (N0 : numeral 16 (bs "0") 0).
  { split; [easy|]. exists [0%N]. split; [|reflexivity]. repeat constructor; vm_compute; congruence. }
  assert (Hc : forall d, d <> [] -> (N.of_nat (length d) <= u64_max)%N -> chunked_wire d (chunk_of d ++ bs "0" ++ CRLF)).
  { intros d Hd Hl. pose proof (proj2 (C17_print_is_numeral (N.of_nat (length d)))) as Hn. destruct d as [|c d]; [easy|].
    rewrite <- (app_nil_r (c :: d)) at 1. unfold chunk_of. rewrite <- !app_assoc. constructor; auto. constructor. exact N0. }
  do 6 (split; [vm_compute; reflexivity|]).
  split.
  { assert (TL : forall l, l <> [] -> forallb (fun b => bval b <? 128)%N l = true -> ~ In CR l -> text_line l).
    { intros l A1 A2 A3. split; auto. split; [now apply no_cr_no_crlf|]. now apply utf8_bs_ascii. }
    assert (T1 : text_line (bs "HTTP/1.1 200 OK")) by (apply TL; try reflexivity; cbn; intuition easy).
    assert (T2 : text_line (bs "Content-Length: 5")) by (apply TL; try reflexivity; cbn; intuition easy).
    split; auto. split; auto. split; [apply status_line_meaning; [apply T1|reflexivity]|]. split.
    + exists [bs "Content-Length: 5"], [(bs "content-length", bs "5")]. repeat split.
      * change (folded (bs "Content-Length: 5" :: [] ++ []) [bs "Content-Length: 5" ++ concat []]). constructor; try easy. constructor.
      * constructor; auto. exists (bs "Content-Length"), (bs "5"). repeat split; auto. intros H. vm_compute in H.
        repeat (destruct H as [H|H]; [discriminate|]). destruct H.
    + intros w Hw. vm_compute in Hw. injection Hw as <-. exists 5%N. exact H5. }
  split; [|split; [|split]].
  - split; [easy|]. right. exists (bs "5"), 5%N. repeat split; try apply H5. now left.
  - split; [easy|]. right. exists (bs "5"), 5%N. repeat split; try apply H5. now right.
  - now apply Hc.
  - apply chunked_loose. now apply Hc.
Qed.

(** So an answer that one client reads in full is not always read in full by a client it is passed on to. *)
Definition C72_direct (up : bytes) :=
  match response_deserialize Std seg_read 300 (text up) with
  | (Ok r, _) => read_out (body_read Std (bufr_read Std 16 seg_read) 300) 300 (rs_body r)
  | _ => None
  end.
Theorem C72_same_for_both_refuted :
  ~ (forall up data, C72_direct up = Some (data, true) -> snd (C72_run true up) = Some (data, true)).
Proof.
  intros H. specialize (H (C72_head [bs "Transfer-Encoding: chunked"] ++ chunk_of (bs "hello") ++ bs "0" ++ CRLF ++ CRLF) (bs "hello") eq_refl).
  vm_compute in H. discriminate H.
Qed.
Print Assumptions C72_same_for_both_refuted.
