(** Answers that are cut short, by a server that fails or a connection that breaks: C75. *)
From Verif Require Import Base Utf8 Case Num Io Parser Types Message Outgoing Client Server Transport Lemmas ReadLemmas
  NumLemmas ChunkSpec ChunkLemmas BodyLemmas WriteLemmas ParserLemmas CaseLemmas TypesLemmas HeadLemmas BlockLemmas MsgLemmas OutLemmas
  KeepLemmas PBody PIo PHead POut PReuse PServer PEnd ErrText PText PTell.

(** What stops a stream: its end, or an error of the transport that is not retried. [e] is what a reader of a head is told. *)
Inductive stopped (bld : build) : list item -> error -> Prop :=
| stopped_end : stopped bld [] UnexpectedEof
| stopped_error e zs : is_retry bld e = false -> stopped bld (Transport.E e :: zs) e.

Lemma cut_stream bld rest e : stopped bld rest e -> forall lines p missing, Forall text_line lines ->
  wire_lines lines ++ CRLF = p ++ missing -> missing <> [] ->
  exists k en m, head_stream bld (firstn k lines) en (map B p ++ rest) /\ end_complaint en m /\ kind_of m = e.
Proof.
  intros Hs.
  assert (Hcut : forall l p v, no_crlf l -> l ++ CRLF = p ++ v -> v <> [] ->
    exists en m, head_stream bld [] en (map B p ++ rest) /\ end_complaint en m /\ kind_of m = e).
  { intros l p v Hl E Hv. pose proof (no_crlf_short l p v Hl E Hv) as Hp.
    destruct Hs as [|e0 zs He].
    - exists CutOff, (MsgEof (bs "Expected \r\n")). rewrite app_nil_r. split; [|split; [constructor|reflexivity]].
      apply (hs_cut bld p); auto using noisy_map_B.
    - exists (PText.Failed e0), (MsgOther e0). split; [|split; [constructor|reflexivity]]. apply (hs_fail bld p); auto using noisy_map_B. }
  induction lines as [|l lines IH]; intros p missing Ht E Hm.
  - exists 0. apply (Hcut [] p missing); auto. intros (a & b & H). now destruct a.
  - inversion Ht as [|l0 ls0 Hl Hls]; subst. rewrite wire_lines_cons, <- !app_assoc in E.
    rewrite app_assoc in E. apply app_eq_app in E as [v [[E1 E2]|[-> E]]].
    + destruct v as [|x v].
      * rewrite app_nil_r in E1. subst p. cbn [app] in E2. subst missing.
        destruct (IH [] (wire_lines lines ++ CRLF) Hls eq_refl) as (k & en & m & H1 & H2 & H3); [now destruct (wire_lines lines)|].
        exists (S k), en, m. split; auto. cbn [firstn]. cbn [map app] in H1.
        replace (map B (l ++ CRLF) ++ rest) with (map B (l ++ [CR]) ++ B LF :: rest)
          by (rewrite !map_app; cbn [map CRLF]; rewrite <- !app_assoc; reflexivity).
        constructor; auto using noisy_map_B.
      * exists 0. cbn [firstn]. apply (Hcut l p (x :: v)); auto; [apply Hl|easy].
    + destruct (IH v missing Hls E Hm) as (k & en & m & H1 & H2 & H3). exists (S k), en, m. split; auto. cbn [firstn].
      replace (map B ((l ++ CRLF) ++ v) ++ rest) with (map B (l ++ [CR]) ++ B LF :: (map B v ++ rest))
        by (rewrite !map_app; cbn [map CRLF]; rewrite <- !app_assoc; reflexivity).
      constructor; auto using noisy_map_B.
Qed.

Lemma response_wire_pieces {Q} (q : response Q) out : response_wire q out = concat (response_pieces q) ++ out.
Proof. rewrite response_pieces_wire. unfold response_wire. now rewrite <- !app_assoc. Qed.

(** An answer that breaks off in its head is an error, namely what broke it. *)
Theorem C75_head : forall S bld (rd : reader S) fuel s Q (q : response Q) p missing rest e,
  small_version (rs_version q) -> (to_code (rs_status q) < 2 ^ 32)%N -> sendable (rs_headers q) ->
  response_wire q [] = p ++ missing -> missing <> [] -> stopped bld rest e ->
  delivers rd s (map B p ++ rest) -> length (map B p ++ rest) < fuel ->
  exists s', response_deserialize bld rd fuel s = (Err e, s').
Proof.
  intros S bld rd fuel s Q q p missing rest e Hv Hc [Hso Hs] Ew Hm Hst D Hf.
  assert (Hl : text_line (status_line_of (rs_version q) (rs_status q)) /\ exists v st, status_line_says (status_line_of (rs_version q) (rs_status q)) v st).
  { destruct (status_line_ok (rs_version q) (rs_status q) Hv ltac:(unfold u32_max; lia)) as [H1 H2]. split; auto.
    eexists _, _. apply status_line_meaning; [apply H1|exact H2]. }
  destruct Hl as [Hl (v & st & Hsay)].
  destruct (sendable_parses _ Hs) as (P1 & P2 & P3).
  rewrite response_wire_pieces, app_nil_r, response_pieces_wire, headers_pieces_wire in Ew.
  destruct (cut_stream bld rest e Hst (status_line_of (rs_version q) (rs_status q) :: map header_line (rs_headers q)) p missing) as (k & en & m & H1 & H2 & H3); auto.
  { rewrite wire_lines_cons. rewrite <- Ew. now rewrite <- !app_assoc. }
  assert (Hcp : response_complaint (firstn k (status_line_of (rs_version q) (rs_status q) :: map header_line (rs_headers q))) en m).
  { destruct k as [|k]; cbn [firstn]; [now constructor|]. rewrite firstn_map.
    assert (Hs' : Forall (fun kv => sendable_key (fst kv) /\ sendable_value (snd kv)) (firstn k (rs_headers q))).
    { apply (Forall_app _ _ (skipn k (rs_headers q))). now rewrite firstn_skipn. }
    destruct (sendable_parses _ Hs') as (_ & F2 & _). eapply cp_end; eauto.
    apply Forall_map. eapply Forall_impl; [|exact Hs']. intros [key val] [Hk _]. unfold names_header, header_line. cbn [fst snd] in *.
    eexists _, key, val. repeat split; auto. apply Hk. }
  pose proof (proj2 (C74_response S bld rd s _ fuel _ en m D Hf H1) Hcp) as Hr.
  destruct (C74_same S bld rd fuel s) as [_ Hsame]. unfold response_deserialize. rewrite Hsame.
  destruct (response_head_m (crlf_next_m bld rd fuel) fuel s) as [r t']. cbn [fst] in Hr. rewrite Hr. cbn [forget sbind]. rewrite H3. eauto.
Qed.
Print Assumptions C75_head.

(** ** An answer that breaks off in its body *)
Lemma drains_reads {T} (rd : reader T) s got o s' : drains rd s got o s' -> reads rd s got s'.
Proof.
  induction 1; try (eapply reads_step; eauto).
  - rewrite <- (app_nil_r []). eapply reads_step; eauto using reads_nil.
  - eapply reads_fail; eauto using reads_nil.
Qed.

(** The body that the handler returned is [got ++ missing]; [got] arrives, then something stops the stream. The client
    gets the head as it was sent and [got]. The error that stopped the stream is passed on, but its end is not told
    apart from the end of the body: only [content_length], if the length was announced, says how much is missing. *)
Theorem C75_body : forall S bld cap (rd : reader S) fuel s Q (q : response Q) got missing rest e0,
  0 < cap -> small_version (rs_version q) -> (to_code (rs_status q) < 2 ^ 32)%N -> sendable (rs_headers q) ->
  honest_framing (rs_headers q) (got ++ missing) -> stopped bld rest e0 ->
  delivers rd s (map B (response_wire q got) ++ rest) -> length (map B (response_wire q got) ++ rest) + 3 < fuel ->
  exists resp s2, response_deserialize bld rd fuel s = (Ok resp, s2)
    /\ rs_version resp = rs_version q /\ rs_headers resp = rs_headers q
    /\ to_code (rs_status resp) = to_code (rs_status q)
    /\ ((forall c, rs_status q <> StUnknown c) -> rs_status resp = rs_status q)
    /\ (exists o b, drains (body_read bld (bufr_read bld cap rd) fuel) (rs_body resp) got o b)
    /\ forall got' o b, drains (body_read bld (bufr_read bld cap rd) fuel) (rs_body resp) got' o b ->
         got' = got
         /\ match hm_get (bs "content-length") (rs_headers q) with
            | None => o = fault rest /\ body_content_length b = None
            | Some _ => o = (match missing with [] => None | _ => fault rest end)
                        /\ body_content_length b = Some (N.of_nat (length missing))
            end.
Proof.
  intros S bld cap rd fuel s Q q got missing rest e0 Hcap Hv Hc Hs [Hte Hcl] Hst D Hf.
  assert (Hg : good_length (rs_headers q)).
  { intros w Hw. destruct Hcl as [Hcl|(w' & Hcl & Hn)]; [congruence|]. rewrite Hw in Hcl. injection Hcl as <-. eauto. }
  rewrite response_wire_pieces, map_app, <- app_assoc in D, Hf.
  destruct (C29_response_round_trip S bld rd fuel s Q q (map B got ++ rest) Hv Hc Hs Hg D ltac:(lia)) as (st & b & s2 & E & H1 & H2 & Hfr & Ds2).
  exists (mkResponse (rs_version q) st (rs_headers q) b), s2. cbn [rs_version rs_headers rs_status rs_body].
  repeat (split; [assumption || reflexivity|]).
  pose proof (bufr_delivers bld cap rd s2 _ Hcap Ds2) as Db.
  assert (K : exists zs, delivers (body_read bld (bufr_read bld cap rd) fuel) b zs /\ lead zs = got
    /\ forall b', reads (body_read bld (bufr_read bld cap rd) fuel) b got b' ->
         match hm_get (bs "content-length") (rs_headers q) with
         | None => fault zs = fault rest /\ body_content_length b' = None
         | Some _ => fault zs = (match missing with [] => None | _ => fault rest end)
                     /\ body_content_length b' = Some (N.of_nat (length missing))
         end).
  { destruct (C12_content_length _ bld (bufr_read bld cap rd) fuel) as (L1 & _ & L3).
    assert (Hlr : lead rest = []) by (destruct Hst; reflexivity).
    destruct Hfr as (len & Hlen & [[Hb _]|[_ ->]]); [congruence|]. destruct Hlen as [[E1 ->]|(w & n & E1 & Hn & ->)].
    - exists (map B got ++ rest). split; [now apply tilclose_delivers|]. split; [now rewrite lead_app, Hlr, app_nil_r|].
      intros b' Hr. rewrite E1, fault_app. split; auto. eapply L3; eauto.
    - destruct Hcl as [Hcl|(w' & Hcl & Hn')]; [congruence|]. pose proof (content_length_good _ _ _ E1 Hn) as E2.
      pose proof (content_length_good _ _ _ Hcl Hn') as E3. rewrite E2 in E3. injection E3 as ->. rewrite E1.
      exists (take_items (N.of_nat (length (got ++ missing))) (map B got ++ rest)). split; [now apply limited_delivers|].
      rewrite take_items_app by (rewrite app_length; lia).
      replace (N.of_nat (length (got ++ missing)) - N.of_nat (length got))%N with (N.of_nat (length missing)) by (rewrite app_length; lia).
      assert (Hr : lead (take_items (N.of_nat (length missing)) rest) = [] /\ fault (take_items (N.of_nat (length missing)) rest) =
        match missing with [] => None | _ => fault rest end).
      { destruct missing as [|x missing]; [rewrite take_items_0; auto|]. destruct Hst; [auto|]. cbn [take_items].
        destruct (N.eqb_spec (N.of_nat (length (x :: missing))) 0) as [H0|H0]; [cbn [length] in H0; lia|]. auto. }
      destruct Hr as [Hr1 Hr2]. split; [now rewrite lead_app, Hr1, app_nil_r|]. intros b' Hr. rewrite fault_app. split; auto.
      destruct (L1 _ _ _ _ Hr) as [_ L]. rewrite L. f_equal. rewrite app_length. lia. }
  destruct K as (zs & K1 & K2 & K3). split.
  - destruct (delivers_can_drain _ _ _ K1) as [b1 Hb1]. rewrite K2 in Hb1. eauto.
  - intros got' o b' Hdr. destruct (delivers_drains _ _ _ _ _ _ K1 Hdr) as (-> & ->). rewrite K2 in *. split; auto. apply K3. eapply drains_reads; eauto.
Qed.
Print Assumptions C75_body.

(** ** A server that fails while it answers *)
(** The bytes of a stream, whatever errors are in between. *)
Definition item_bytes (xs : list item) : bytes := flat_map (fun i => match i with B b => [b] | Transport.E _ => [] end) xs.
Lemma item_bytes_noisy bld d xs : noisy bld d xs -> item_bytes xs = d.
Proof. induction 1; auto. cbn. now rewrite <- IHnoisy. Qed.
Lemma item_bytes_app a b : item_bytes (a ++ b) = item_bytes a ++ item_bytes b.
Proof. apply flat_map_app. Qed.

(** Whatever goes wrong at the server once the handler has returned [r] (a write fails, the body cannot be read to its
    end), and however the connection then ends: the client has an error, if the head did not get through, or the head
    and a beginning of the body. *)
Theorem C75_server : forall S2 H bld2 cap2 (rd2 : reader S2) (wt2 : writer S2) etext log2 (hd : handler H) bufsz fuel2 hs t x cs hs' t1 t2 y r ys wire
    S1 bld1 cap1 (rd1 : reader S1) fuel1 s1 rest e0,
  honest wt2 log2 -> silent rd2 log2 -> 0 < bufsz ->
  serve_stream bld2 cap2 rd2 wt2 etext hd bufsz fuel2 hs t = (x, cs, hs', t2) ->
  serve_one_inner bld2 cap2 rd2 etext hd fuel2 hs t = (Ok y, cs, hs', t1) -> y = inl r \/ y = inr r ->
  delivers (body_read bld2 (bufr_read bld2 cap2 dyn_read) fuel2) (rs_body r) ys ->
  small_version (rs_version r) -> (to_code (rs_status r) < 2 ^ 32)%N -> sendable (rs_headers r) -> honest_framing (rs_headers r) (item_bytes ys) ->
  log2 t2 = log2 t ++ wire ->
  0 < cap1 -> stopped bld1 rest e0 -> delivers rd1 s1 (map B wire ++ rest) -> length (map B wire ++ rest) + 3 < fuel1 ->
  (x <> Ok tt /\ length wire < length (response_wire r []) /\ exists s2, response_deserialize bld1 rd1 fuel1 s1 = (Err e0, s2))
  \/ exists got missing resp s2, item_bytes ys = got ++ missing /\ (x = Ok tt -> missing = [])
       /\ response_deserialize bld1 rd1 fuel1 s1 = (Ok resp, s2)
       /\ rs_version resp = rs_version r /\ rs_headers resp = rs_headers r /\ to_code (rs_status resp) = to_code (rs_status r)
       /\ (exists o b, drains (body_read bld1 (bufr_read bld1 cap1 rd1) fuel1) (rs_body resp) got o b)
       /\ forall got' o b, drains (body_read bld1 (bufr_read bld1 cap1 rd1) fuel1) (rs_body resp) got' o b ->
            got' = got
            /\ match hm_get (bs "content-length") (rs_headers r) with
               | None => o = fault rest /\ body_content_length b = None
               | Some _ => o = (match missing with [] => None | _ => fault rest end)
                           /\ body_content_length b = Some (N.of_nat (length missing))
               end.
Proof.
  intros S2 H bld2 cap2 rd2 wt2 etext log2 hd bufsz fuel2 hs t x cs hs' t1 t2 y r ys wire S1 bld1 cap1 rd1 fuel1 s1 rest e0
    Hh Hsi Hz E E1 Hy Hd Hv Hc Hs Hfr Hw Hcap Hst D Hf.
  destruct (C50_wire S2 H bld2 cap2 rd2 wt2 etext log2 hd bufsz fuel2 hs t x cs hs' t2 Hh Hsi Hz E) as (y' & s' & E' & _ & HW).
  rewrite E1 in E'. injection E' as <- <-.
  assert (K : exists data xs1 xs2 p, ys = xs1 ++ xs2 /\ noisy bld2 data xs1
             /\ prefix p (response_wire r data) /\ log2 t2 = log2 t ++ p
             /\ (x = Ok tt -> xs2 = [] /\ p = response_wire r data)) by (destruct Hy as [-> | ->]; apply HW; auto).
  destruct K as (data & xs1 & xs2 & p & -> & Hn & [tail Hp] & Hl & Hok). rewrite Hw in Hl. apply app_inv_head in Hl. subst p.
  assert (Ed : item_bytes (xs1 ++ xs2) = data ++ item_bytes xs2) by (rewrite item_bytes_app; f_equal; eapply item_bytes_noisy; eauto).
  rewrite response_wire_pieces in Hp. rewrite <- (app_nil_r (concat (response_pieces r))) in Hp. rewrite <- response_wire_pieces in Hp.
  apply app_eq_app in Hp as [v [[Hp1 Hp2]|[Hp1 Hp2]]].
  - destruct v as [|b v].
    + (* all of the head, nothing of the body *)
      rewrite app_nil_r in Hp1. right. cbn [app] in Hp2. subst tail wire. rewrite Ed in *.
      destruct (C75_body S1 bld1 cap1 rd1 fuel1 s1 _ r [] (data ++ item_bytes xs2) rest e0 Hcap Hv Hc Hs Hfr Hst D Hf) as (resp & s2 & A1 & A2 & A3 & A4 & _ & A6 & A7).
      exists [], (data ++ item_bytes xs2), resp, s2. split; [reflexivity|]. split; [|auto 10].
      intros Hx. destruct (Hok Hx) as [-> Hwire]. rewrite !response_wire_pieces, app_nil_r in Hwire. rewrite <- (app_nil_r (concat _)) in Hwire at 1.
      apply app_inv_head in Hwire. subst data. reflexivity.
    + left. split; [|split].
      * intros Hx. destruct (Hok Hx) as [-> Hwire]. apply (f_equal (@length _)) in Hp1. rewrite Hwire, !response_wire_pieces, !app_length in Hp1.
        cbn [length] in Hp1. lia.
      * rewrite Hp1, app_length. cbn [length]. lia.
      * apply (C75_head S1 bld1 rd1 fuel1 s1 _ r wire (b :: v) rest e0); auto; [easy|lia].
  - right. assert (Ew : wire = response_wire r v) by (rewrite Hp1, !response_wire_pieces, app_nil_r; reflexivity).
    clear Hp1. rewrite Ed, Hp2, <- app_assoc in *. subst wire.
    destruct (C75_body S1 bld1 cap1 rd1 fuel1 s1 _ r v (tail ++ item_bytes xs2) rest e0 Hcap Hv Hc Hs Hfr Hst D Hf) as (resp & s2 & A1 & A2 & A3 & A4 & _ & A6 & A7).
    exists v, (tail ++ item_bytes xs2), resp, s2. split; [reflexivity|]. split; [|auto 10].
    intros Hx. destruct (Hok Hx) as [-> Hwire]. rewrite !response_wire_pieces in Hwire. apply app_inv_head in Hwire.
    rewrite <- (app_nil_r v) in Hwire at 1. apply app_inv_head in Hwire. subst tail. reflexivity.
Qed.
Print Assumptions C75_server.

(** ** Example *)
(** An upload that is echoed; the server's third-last byte cannot be written, and the connection closes. The client sees
    a shorter answer and no error; only a reset would tell. *)
Definition C75_run (script : list wstep) : res unit * bytes :=
  match serve_stream Std 8 duplex_read duplex_writer (fun _ _ => []) echo 4 300 [] ((script, []), segs [C46_wire]) with
  | (x, _, _, s) => (x, snd (fst s))
  end.
Fixpoint C75_all (fuel : nat) (acc : bytes) (b : hbody (bufr (list event))) : bytes * option error * option N :=
  match fuel with
  | O => (acc, Some ParseError, None)
  | S f =>
      match body_read Std (bufr_read Std 8 seg_read) 300 4 b with
      | (Ok [], b') => (acc, None, body_content_length b')
      | (Ok d, b') => C75_all f (acc ++ d) b'
      | (Err e, b') => (acc, Some e, body_content_length b')
      | (_, b') => (acc, Some ParseError, None)
      end
  end.
Definition C75_seen (evs : list event) : option (N * (bytes * option error * option N)) :=
  match response_deserialize Std seg_read 300 evs with
  | (Ok resp, _) => Some (to_code (rs_status resp), C75_all 50 [] (rs_body resp))
  | _ => None
  end.
Definition C75_script : list wstep := repeat (Accept 1) 21 ++ [Refuse (IoError (KOther 1))].
Definition C75_sized (n : bytes) : list event := segs [bs "HTTP/1.1 200 OK" ++ CRLF ++ bs "Content-Length: " ++ n ++ CRLF ++ CRLF ++ bs "he"].
Example C75_case :
  C75_run [] = (Ok tt, response_wire (from_string OK (bs "hello")) (bs "hello"))
  /\ C75_run C75_script = (Err (IoError (KOther 1)), response_wire (from_string OK (bs "hello")) (bs "he"))
  (* closed, then reset, after these bytes *)
  /\ C75_seen (segs [snd (C75_run C75_script)]) = Some (200%N, (bs "he", None, None))
  /\ C75_seen (segs [snd (C75_run C75_script)] ++ [Fail (IoError (KOther 7))]) = Some (200%N, (bs "he", Some (IoError (KOther 7)), None))
  (* the same with an announced length, and one that is complete *)
  /\ C75_seen (C75_sized (bs "5")) = Some (200%N, (bs "he", None, Some 3%N))
  /\ C75_seen (C75_sized (bs "2") ++ [Fail (IoError (KOther 7))]) = Some (200%N, (bs "he", None, Some 0%N))
  (* in the head *)
  /\ fst (response_deserialize Std seg_read 300 (segs [firstn 17 (snd (C75_run C75_script))])) = Err UnexpectedEof
  /\ fst (response_deserialize Std seg_read 300 (segs [firstn 17 (snd (C75_run C75_script))] ++ [Fail (IoError (KOther 7))])) = Err (IoError (KOther 7)).
Proof. repeat split; vm_compute; reflexivity. Qed.

Example C75_case_hypotheses :
  let q := from_string OK (bs "hello") in
  small_version (rs_version q) /\ (to_code (rs_status q) < 2 ^ 32)%N /\ sendable (rs_headers q) /\ honest_framing (rs_headers q) (bs "he" ++ bs "llo")
  /\ stopped Std [Transport.E (IoError (KOther 7))] (IoError (KOther 7))
  /\ (exists t1, serve_one_inner Std 8 duplex_read (fun _ _ => []) echo 300 [] ((C75_script, []), segs [C46_wire])
        = (Ok (inl q), [Called Put (bs "/x")], [bs "hello"], t1))
  /\ delivers (body_read Std (bufr_read Std 8 dyn_read) 300) (rs_body q) (map B (bs "hello"))
  /\ item_bytes (map B (bs "hello")) = bs "he" ++ bs "llo".
Proof.
  cbv zeta. split; [vm_compute; auto|]. split; [reflexivity|]. split; [repeat constructor|].
  split; [split; [discriminate|now left]|]. split; [now constructor|]. split; [eexists; vm_compute; reflexivity|]. split; [apply from_string_delivers; lia|reflexivity].
Qed.

(** So a client does not always learn that its server failed. *)
Theorem C75_told_refuted :
  ~ (forall script x wire, C75_run script = (x, wire) -> x <> Ok tt ->
       C75_seen (segs [wire]) = None \/ exists st got e len, C75_seen (segs [wire]) = Some (st, (got, Some e, len))).
Proof.
  intros H. destruct (H C75_script _ _ (proj1 (proj2 C75_case)) ltac:(discriminate)) as [K|(st & got & e & len & K)]; vm_compute in K; discriminate.
Qed.
Print Assumptions C75_told_refuted.
