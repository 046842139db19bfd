(** Properties of whole message heads. *)
From Verif Require Import Base Utf8 Case Num Io Parser Types Message Transport Lemmas ReadLemmas NumLemmas
  Utf8Lemmas BodyLemmas ParserLemmas CaseLemmas TypesLemmas HeadLemmas BlockLemmas MsgLemmas PParse.

(** ** C03. Segmentation does not matter *)
(** What a request or response says apart from its reader; the reader is replaced by [u]. *)
Definition with_reader {T U} (u : U) (b : hbody T) : hbody U :=
  match b with
  | BChunked len (CStream _) => BChunked len (CStream u)
  | BChunked len (CChunk n _) => BChunked len (CChunk n u)
  | BChunked len (CDone _) => BChunked len (CDone u)
  | BLimited n _ => BLimited n u
  | BTilClose _ => BTilClose u
  end.
Definition req_with_reader {T U} (u : U) (q : request (hbody T)) : request (hbody U) :=
  mkRequest (rq_method q) (rq_uri q) (rq_version q) (rq_headers q) (with_reader u (rq_body q)).
Definition resp_with_reader {T U} (u : U) (q : response (hbody T)) : response (hbody U) :=
  mkResponse (rs_version q) (rs_status q) (rs_headers q) (with_reader u (rs_body q)).

Lemma with_reader_new {T U} enc len (t : T) (u : U) : with_reader u (body_new enc len t) = body_new enc len u.
Proof. unfold body_new. destruct (match enc with Some e => _ | None => false end); auto. now destruct len. Qed.

(** Two transports that deliver the same items: the same outcome, and the same items left; what is left is
    what the body reads from. *)
Theorem C03_request :
  forall T1 T2 bld (rd1 : reader T1) (rd2 : reader T2) t1 t2 xs f1 f2,
  delivers rd1 t1 xs -> delivers rd2 t2 xs -> length xs < f1 -> length xs < f2 ->
  exists r1 r2 u1 u2 ys,
    request_deserialize bld rd1 f1 t1 = (r1, u1) /\ request_deserialize bld rd2 f2 t2 = (r2, u2)
    /\ delivers rd1 u1 ys /\ delivers rd2 u2 ys
    /\ r2 = (do q <- r1; Ok (req_with_reader u2 q))
    /\ (forall q, r1 = Ok q -> body_reader (rq_body q) = u1)
    /\ (forall q, r2 = Ok q -> body_reader (rq_body q) = u2).
Proof.
  intros T1 T2 bld rd1 rd2 t1 t2 xs f1 f2 D1 D2 H1 H2.
  destruct (request_delivers bld rd1 t1 xs f1 D1 H1) as (u1 & E1 & ->).
  destruct (request_delivers bld rd2 t2 xs f2 D2 H2) as (u2 & E2 & ->).
  eexists _, _, u1, u2, _. split; [reflexivity|]. split; [reflexivity|]. split; [exact E1|]. split; [exact E2|].
  assert (Hb : forall T enc len (t : T), body_reader (body_new enc len t) = t).
  { intros. unfold body_new. destruct (match enc with Some e => _ | None => false end); auto. now destruct len. }
  destruct (fst (req_of bld xs)) as [h| | |]; cbn [rbind]; repeat split; try easy.
  - unfold req_with_reader, req_with. cbn. now rewrite with_reader_new.
  - intros q [= <-]. apply Hb.
  - intros q [= <-]. apply Hb.
Qed.
Print Assumptions C03_request.

Theorem C03_response :
  forall T1 T2 bld (rd1 : reader T1) (rd2 : reader T2) t1 t2 xs f1 f2,
  delivers rd1 t1 xs -> delivers rd2 t2 xs -> length xs < f1 -> length xs < f2 ->
  exists r1 r2 u1 u2 ys,
    response_deserialize bld rd1 f1 t1 = (r1, u1) /\ response_deserialize bld rd2 f2 t2 = (r2, u2)
    /\ delivers rd1 u1 ys /\ delivers rd2 u2 ys
    /\ r2 = (do q <- r1; Ok (resp_with_reader (bufr_new u2) q))
    /\ (forall q, r1 = Ok q -> body_reader (rs_body q) = bufr_new u1)
    /\ (forall q, r2 = Ok q -> body_reader (rs_body q) = bufr_new u2).
Proof.
  intros T1 T2 bld rd1 rd2 t1 t2 xs f1 f2 D1 D2 H1 H2.
  destruct (response_delivers bld rd1 t1 xs f1 D1 H1) as (u1 & E1 & ->).
  destruct (response_delivers bld rd2 t2 xs f2 D2 H2) as (u2 & E2 & ->).
  eexists _, _, u1, u2, _. split; [reflexivity|]. split; [reflexivity|]. split; [exact E1|]. split; [exact E2|].
  assert (Hb : forall T enc len (t : T), body_reader (body_new enc len t) = t).
  { intros. unfold body_new. destruct (match enc with Some e => _ | None => false end); auto. now destruct len. }
  destruct (fst (resp_of bld xs)) as [h| | |]; cbn [rbind]; repeat split; try easy.
  - unfold resp_with_reader, resp_with. cbn. now rewrite with_reader_new.
  - intros q [= <-]. apply Hb.
  - intros q [= <-]. apply Hb.
Qed.
Print Assumptions C03_response.

(** Interrupted reads (std build) in between make no difference either: [x1] and [x2] carry the same bytes
    and other failures, with different interruptions. *)
Theorem C03_interruptions :
  forall T1 T2 bld (rd1 : reader T1) (rd2 : reader T2) t1 t2 x1 x2 f1 f2,
  delivers rd1 t1 x1 -> delivers rd2 t2 x2 -> strip bld x1 = strip bld x2 ->
  length x1 < f1 -> length x2 < f2 ->
  (exists r1 r2 u1 u2 y1 y2,
    request_deserialize bld rd1 f1 t1 = (r1, u1) /\ request_deserialize bld rd2 f2 t2 = (r2, u2)
    /\ delivers rd1 u1 y1 /\ delivers rd2 u2 y2 /\ strip bld y1 = strip bld y2
    /\ r2 = (do q <- r1; Ok (req_with_reader u2 q)))
  /\ (exists r1 r2 u1 u2 y1 y2,
    response_deserialize bld rd1 f1 t1 = (r1, u1) /\ response_deserialize bld rd2 f2 t2 = (r2, u2)
    /\ delivers rd1 u1 y1 /\ delivers rd2 u2 y2 /\ strip bld y1 = strip bld y2
    /\ r2 = (do q <- r1; Ok (resp_with_reader (bufr_new u2) q))).
Proof.
  intros T1 T2 bld rd1 rd2 t1 t2 x1 x2 f1 f2 D1 D2 Hs H1 H2. split.
  - destruct (request_delivers bld rd1 t1 x1 f1 D1 H1) as (u1 & E1 & ->).
    destruct (request_delivers bld rd2 t2 x2 f2 D2 H2) as (u2 & E2 & ->).
    pose proof (req_of_strip bld x1) as S1. pose proof (req_of_strip bld x2) as S2. rewrite Hs, S2 in S1.
    injection S1 as Hr Hy.
    eexists _, _, u1, u2, _, _. split; [reflexivity|]. split; [reflexivity|]. split; [exact E1|]. split; [exact E2|].
    split; [now symmetry|]. rewrite Hr. destruct (fst (req_of bld x1)) as [h| | |]; cbn [rbind]; auto.
    unfold req_with_reader, req_with. cbn. now rewrite with_reader_new.
  - destruct (response_delivers bld rd1 t1 x1 f1 D1 H1) as (u1 & E1 & ->).
    destruct (response_delivers bld rd2 t2 x2 f2 D2 H2) as (u2 & E2 & ->).
    pose proof (resp_of_strip bld x1) as S1. pose proof (resp_of_strip bld x2) as S2. rewrite Hs, S2 in S1.
    injection S1 as Hr Hy.
    eexists _, _, u1, u2, _, _. split; [reflexivity|]. split; [reflexivity|]. split; [exact E1|]. split; [exact E2|].
    split; [now symmetry|]. rewrite Hr. destruct (fst (resp_of bld x1)) as [h| | |]; cbn [rbind]; auto.
    unfold resp_with_reader, resp_with. cbn. now rewrite with_reader_new.
Qed.
Print Assumptions C03_interruptions.

Definition text (s : bytes) : list event := match s with [] => [] | b :: t => [Seg b t] end.
Definition split_at (n : nat) (s : bytes) : list event := text (firstn n s) ++ text (skipn n s).
Example C03_case :
  let m := bs "GET /x HTTP/1.1" ++ CRLF ++ bs "A: b" ++ CRLF ++ CRLF ++ bs "body" in
  items_of (split_at 17 m) = items_of (split_at 16 m)
  /\ strip Std (items_of (text (firstn 9 m) ++ Fail (IoError Interrupted) :: text (skipn 9 m))) = items_of (text m)
  /\ request_deserialize Std seg_read 100 (split_at 16 m) =
      (Ok (mkRequest Get (bs "/x") (mkVersion 1 1) [(bs "a", bs "b")] (BTilClose (text (bs "body")))), text (bs "body"))
  /\ request_deserialize Std seg_read 100 (split_at 17 m) = request_deserialize Std seg_read 100 (split_at 16 m)
  /\ request_deserialize Std seg_read 100 (text (firstn 9 m) ++ Fail (IoError Interrupted) :: text (skipn 9 m))
     = request_deserialize Std seg_read 100 (text m).
Proof. repeat split. Qed.

(** ** C13. Framing selection *)
(** A decimal number below 2^64, optionally with a plus sign. *)
Definition u64_text (v : bytes) (n : N) : Prop :=
  (n < 2 ^ 64)%N /\ (numeral 10 v n \/ exists t, v = x2b :: t /\ numeral 10 t n).

Definition framed {T} (h : headers) (t : T) (b : hbody T) : Prop :=
  exists len,
    ((hm_get (bs "content-length") h = None /\ len = None)
     \/ exists v n, hm_get (bs "content-length") h = Some v /\ u64_text v n /\ len = Some n)
    /\ ((hm_get (bs "transfer-encoding") h = Some (bs "chunked") /\ b = BChunked len (CStream t))
        \/ (hm_get (bs "transfer-encoding") h <> Some (bs "chunked")
            /\ b = match len with Some n => BLimited n t | None => BTilClose t end)).

Lemma content_length_ok h n : content_length_of h = Ok n ->
  (hm_get (bs "content-length") h = None /\ n = None)
  \/ exists v k, hm_get (bs "content-length") h = Some v /\ u64_text v k /\ n = Some k.
Proof.
  unfold content_length_of, headers_get. change (to_lowercase (bs "Content-Length")) with (bs "content-length").
  destruct (hm_get _ h) as [v|]; [|intros [= <-]; auto]. destruct (parse_u64 v) as [k| | |] eqn:E; cbn; try easy.
  intros [= <-]. right. exists v, k. repeat split; auto.
  - apply from_str_radix_spec in E; try easy. destruct E as [E _]. unfold u64_max in E. lia.
  - apply from_str_radix_spec in E; easy.
Qed.
Lemma content_length_bad h v : hm_get (bs "content-length") h = Some v -> (forall n, ~ u64_text v n) ->
  exists k, content_length_of h = Err (ParseIntError k).
Proof.
  intros E H. destruct (content_length_cases h) as [[n En]|Hk]; auto. exfalso.
  apply content_length_ok in En as [[En _]|(w & k & En & Hw & _)]; [congruence|]. rewrite E in En. injection En as <-.
  eapply H; eauto.
Qed.
Lemma content_length_good h v n : hm_get (bs "content-length") h = Some v -> u64_text v n ->
  content_length_of h = Ok (Some n).
Proof.
  intros E [H1 H2]. unfold content_length_of, headers_get.
  change (to_lowercase (bs "Content-Length")) with (bs "content-length"). rewrite E. unfold parse_u64.
  replace (from_str_radix 10 u64_max v) with (@Ok N n); auto. symmetry. apply from_str_radix_spec; try easy.
  split; auto. unfold u64_max. lia.
Qed.
Lemma content_length_none h : hm_get (bs "content-length") h = None -> content_length_of h = Ok None.
Proof.
  intros E. unfold content_length_of, headers_get.
  change (to_lowercase (bs "Content-Length")) with (bs "content-length"). now rewrite E.
Qed.

Lemma framed_new {T} h n (t : T) : content_length_of h = Ok n ->
  framed h t (body_new (headers_get (bs "Transfer-Encoding") h) n t).
Proof.
  intros H. apply content_length_ok in H. exists n. split; auto. unfold headers_get, body_new.
  change (to_lowercase (bs "Transfer-Encoding")) with (bs "transfer-encoding").
  destruct (hm_get (bs "transfer-encoding") h) as [e|]; cycle 1.
  { right. split; [|now destruct n]. intros Hx. discriminate. }
  destruct (beqb e (bs "chunked")) eqn:E.
  - apply beqb_true in E. subst. auto.
  - right. split; [|now destruct n]. intros [= ->]. now rewrite beqb_refl in E.
Qed.

Theorem C13_request :
  forall T bld (rd : reader T) fuel t q t',
  request_deserialize bld rd fuel t = (Ok q, t') -> framed (rq_headers q) t' (rq_body q).
Proof.
  intros T bld rd fuel t q t' H. unfold request_deserialize in H.
  destruct (request_head _ _ _) as [r u] eqn:E. destruct r as [h| | |]; cbn [sbind] in H; try easy. injection H as <- <-.
  rewrite request_head_eq in E. destruct (expect_next _ _) as [[l| | |] s]; cbn [sbind] in E; try easy.
  destruct (req_line l) as [x| | |]; cbn [sbind] in E; try easy.
  destruct (headers_deserialize _ _ _) as [[hh| | |] s2]; cbn [sbind] in E; try easy.
  destruct (content_length_of hh) as [n| | |] eqn:En; cbn [rbind] in E; try easy. injection E as <- <-. cbn.
  now apply framed_new.
Qed.
Print Assumptions C13_request.

Theorem C13_response :
  forall T bld (rd : reader T) fuel t q t',
  response_deserialize bld rd fuel t = (Ok q, t') -> framed (rs_headers q) (bufr_new t') (rs_body q).
Proof.
  intros T bld rd fuel t q t' H. unfold response_deserialize in H.
  destruct (response_head _ _ _) as [r u] eqn:E. destruct r as [h| | |]; cbn [sbind] in H; try easy. injection H as <- <-.
  rewrite response_head_eq in E. destruct (expect_next _ _) as [[l| | |] s]; cbn [sbind] in E; try easy.
  destruct (resp_line l) as [x| | |]; cbn [sbind] in E; try easy.
  destruct (headers_deserialize _ _ _) as [[hh| | |] s2]; cbn [sbind] in E; try easy.
  destruct (content_length_of hh) as [n| | |] eqn:En; cbn [rbind] in E; try easy. injection E as <- <-. cbn.
  now apply framed_new.
Qed.
Print Assumptions C13_response.

(** A bad Content-Length is an error whatever the Transfer-Encoding says. [lines] are the header lines,
    [logical] the lines after joining continuations, [hs] the name/value pairs in them. *)
Theorem C13_bad_length :
  forall T bld (rd : reader T) fuel t first lines logical hs v zs,
  text_line first -> Forall text_line lines -> folded lines logical -> Forall2 header_of logical hs ->
  last_value (bs "content-length") hs = Some v -> (forall n, ~ u64_text v n) ->
  delivers rd t (map B (first ++ CRLF ++ wire_lines lines ++ CRLF) ++ zs) ->
  length (map B (first ++ CRLF ++ wire_lines lines ++ CRLF) ++ zs) < fuel ->
  (forall x, req_line first = Ok x ->
     exists k t', request_deserialize bld rd fuel t = (Err (ParseIntError k), t') /\ delivers rd t' zs)
  /\ (forall x, resp_line first = Ok x ->
     exists k t', response_deserialize bld rd fuel t = (Err (ParseIntError k), t') /\ delivers rd t' zs).
Proof.
  intros T bld rd fuel t first lines logical hs v zs Hf Hl Hfo Hh Hv Hbad D Hlen.
  assert (Hacc : accepted_block lines (headers_from hs)) by (exists logical, hs; auto).
  destruct (content_length_bad (headers_from hs) v) as [k Hk]; [now rewrite headers_from_get|auto|].
  rewrite (app_assoc first CRLF), (map_app B (first ++ CRLF)), <- app_assoc in D, Hlen. split; intros x Hx.
  - destruct (request_delivers bld rd t _ fuel D Hlen) as (t' & D' & ->).
    rewrite (req_of_line bld first x _ Hf Hx), (hdrs_accept_exact bld lines _ zs Hl Hacc) in *. cbn [sbind] in *.
    rewrite Hk in *. cbn in *. eauto.
  - destruct (response_delivers bld rd t _ fuel D Hlen) as (t' & D' & ->).
    rewrite (resp_of_line bld first x _ Hf Hx), (hdrs_accept_exact bld lines _ zs Hl Hacc) in *. cbn [sbind] in *.
    rewrite Hk in *. cbn in *. eauto.
Qed.
Print Assumptions C13_bad_length.

Example C13_case :
  let m f := text (bs "PUT /x HTTP/1.1" ++ CRLF ++ f ++ CRLF) in
  let hl n v := n ++ bs ": " ++ v ++ CRLF in
  let body f := match fst (request_deserialize Std seg_read 200 (m f)) with Ok q => Some (rq_body q) | _ => None end in
  body (hl (bs "Transfer-Encoding") (bs "chunked") ++ hl (bs "Content-Length") (bs "7")) = Some (BChunked (Some 7%N) (CStream []))
  /\ body (hl (bs "Transfer-Encoding") (bs "gzip, chunked") ++ hl (bs "Content-Length") (bs "7")) = Some (BLimited 7 [])
  /\ body (hl (bs "Transfer-Encoding") (bs "Chunked")) = Some (BTilClose [])
  /\ fst (request_deserialize Std seg_read 200 (m (hl (bs "Transfer-Encoding") (bs "chunked") ++ hl (bs "Content-Length") (bs "-7"))))
     = Err (ParseIntError IInvalidDigit).
Proof. repeat split. Qed.

(** ** C30. A parsed head: exactly the bytes up to and including the first empty line *)
(** Three tokens separated by blanks; anything may follow the third. *)
Definition request_line_says (first : bytes) (m : method) (u : bytes) (v : version) : Prop :=
  exists t1 w1 r1 w2 r2 t3 w3 r3,
    token_split first t1 w1 r1 /\ token_split r1 u w2 r2 /\ token_split r2 t3 w3 r3 /\ r1 <> [] /\ r2 <> []
    /\ to_uppercase t1 = show_method m
    /\ exists d1 d2 rest, dec_digit d1 /\ dec_digit d2 /\ t3 = bs "HTTP/" ++ d1 :: bs "." ++ d2 :: rest
         /\ v = mkVersion (dec_value d1) (dec_value d2).
Definition status_line_says (first : bytes) (v : version) (st : status) : Prop :=
  exists t1 w1 r1 t2 w2 r2 n,
    token_split first t1 w1 r1
    /\ (exists d1 d2 rest, dec_digit d1 /\ dec_digit d2 /\ t1 = bs "HTTP/" ++ d1 :: bs "." ++ d2 :: rest
         /\ v = mkVersion (dec_value d1) (dec_value d2))
    /\ token_split r1 t2 w2 r2 /\ r1 <> []
    /\ (n < 2 ^ 32)%N /\ (numeral 10 t2 n \/ exists t, t2 = x2b :: t /\ numeral 10 t n)
    /\ st = from_code n.

Lemma request_line_meaning l m u v : is_utf8 l -> req_line l = Ok (m, u, v) -> request_line_says l m u v.
Proof.
  intros Hu H. destruct (req_line_spec l Hu) as [(m' & u' & v' & t1 & w1 & r1 & w2 & r2 & t3 & w3 & r3 & N0 & N1 & N2 & S1 & S2 & S3 & M & V & E)|[[e E]|[E _]]];
    rewrite E in H; try easy. injection H as -> -> ->.
  exists t1, w1, r1, w2, r2, t3, w3, r3. repeat (split; [auto; fail|]).
  apply version_text_ok in V; auto. destruct (split_utf8 _ _ _ _ S1 Hu) as [_ U1]. destruct (split_utf8 _ _ _ _ S2 U1) as [_ U2]. now destruct (split_utf8 _ _ _ _ S3 U2).
Qed.
Lemma request_line_accepted l m u v : is_utf8 l -> request_line_says l m u v -> req_line l = Ok (m, u, v).
Proof.
  intros Hu (t1 & w1 & r1 & w2 & r2 & t3 & w3 & r3 & S1 & S2 & S3 & N1 & N2 & M & V).
  apply (req_line_ok l t1 w1 r1 u w2 r2 t3 w3 r3); auto.
  - intros ->. destruct S1 as (E & _). destruct t1; [|easy]. now destruct m.
  - now apply parse_method_ok.
  - apply version_text_ok; auto. destruct (split_utf8 _ _ _ _ S1 Hu) as [_ U1]. destruct (split_utf8 _ _ _ _ S2 U1) as [_ U2]. now destruct (split_utf8 _ _ _ _ S3 U2).
Qed.

Lemma parse_status_meaning s st : is_utf8 s -> (parse_status s = Ok st <->
  exists t2 w2 r2 n, token_split s t2 w2 r2 /\ s <> []
    /\ (n < 2 ^ 32)%N /\ (numeral 10 t2 n \/ exists t, t2 = x2b :: t /\ numeral 10 t n) /\ st = from_code n).
Proof.
  intros Hu. unfold parse_status, parse_number.
  destruct (parse_token_cases _ _ _ (reading_new _ Hu)) as [(t1 & w1 & r1 & p1 & pre1 & S1 & N1 & E1 & R1 & U1)|[N1 E1]];
    rewrite E1; cbn [sbind fst]; unfold parse_u32.
  - split.
    + destruct (from_str_radix 10 u32_max t1) as [n| | |] eqn:E; try easy. cbn. intros [= <-].
      apply from_str_radix_spec in E; try easy. destruct E as [E1' E2]. exists t1, w1, r1, n. repeat (split; auto).
      unfold u32_max in E1'. lia.
    + intros (t2 & w2 & r2 & n & S2 & _ & Hn & Hnum & ->).
      destruct (token_split_unique _ _ _ _ _ _ _ S1 S2) as (-> & _ & _).
      replace (from_str_radix 10 u32_max t2) with (@Ok N n); auto. symmetry. apply from_str_radix_spec; try easy.
      split; auto. unfold u32_max. lia.
  - split; [easy|]. now intros (_ & _ & _ & _ & _ & H & _).
Qed.

Lemma status_line_meaning l v st : is_utf8 l -> resp_line l = Ok (v, st) -> status_line_says l v st.
Proof.
  intros Hu H. destruct (resp_line_spec l Hu) as [(v' & st' & t1 & w1 & r1 & N0 & S1 & V & P & E)|[[e E]|[E _]]];
    rewrite E in H; try easy. injection H as -> ->. destruct (split_utf8 _ _ _ _ S1 Hu) as [U1 U2].
  apply parse_status_meaning in P as (t2 & w2 & r2 & n & P1 & P2 & P3 & P4 & P5); auto.
  exists t1, w1, r1, t2, w2, r2, n. split; auto. split; [now apply version_text_ok in V|]. auto 10.
Qed.
Lemma status_line_accepted l v st : is_utf8 l -> status_line_says l v st -> resp_line l = Ok (v, st).
Proof.
  intros Hu (t1 & w1 & r1 & t2 & w2 & r2 & n & S1 & V & P). destruct (split_utf8 _ _ _ _ S1 Hu) as [U1 U2].
  apply (resp_line_ok l t1 w1 r1); auto.
  - intros ->. destruct S1 as (E & _). destruct V as (d1 & d2 & rest & _ & _ & -> & _). now destruct rest.
  - now apply version_text_ok.
  - apply parse_status_meaning; auto. exists t2, w2, r2, n. tauto.
Qed.

Lemma body_reader_new {T} enc len (t : T) : body_reader (body_new enc len t) = t.
Proof. unfold body_new. destruct (match enc with Some e => _ | None => false end); auto. now destruct len. Qed.

Lemma req_inv bld xs h ys : req_of bld xs = (Ok h, ys) ->
  exists first lines cx,
    xs = cx ++ B LF :: ys
    /\ noisy bld (first ++ CRLF ++ wire_lines lines ++ CRLF) (cx ++ [B LF])
    /\ text_line first /\ Forall text_line lines
    /\ request_line_says first (qh_method h) (qh_uri h) (qh_version h) /\ accepted_block lines (qh_headers h).
Proof.
  intros Er. unfold req_of in Er.
  destruct (expect_next (il bld) xs) as [[l| | |] xs1] eqn:E1; cbn [sbind] in Er; try easy.
  destruct (req_line l) as [[[m ur] v]| | |] eqn:El; cbn [sbind] in Er; try easy.
  destruct (hdrs_of bld xs1) as [[hh| | |] xs2] eqn:E2; cbn [sbind] in Er; try easy.
  destruct (content_length_of hh) as [n| | |]; cbn [rbind] in Er; try easy. injection Er as <- ->.
  apply first_consumed in E1 as (cx & -> & Hn & Ht). apply hdrs_inv in E2 as (lines & cx2 & -> & Hl & Hn2 & Ha).
  exists l, lines, (cx ++ cx2). rewrite <- !app_assoc. split; auto. split.
  { rewrite (app_assoc l CRLF). now apply noisy_app. }
  split; auto. split; auto. split; [apply request_line_meaning; auto; apply Ht|]. auto.
Qed.
Lemma resp_inv bld xs h ys : resp_of bld xs = (Ok h, ys) ->
  exists first lines cx,
    xs = cx ++ B LF :: ys
    /\ noisy bld (first ++ CRLF ++ wire_lines lines ++ CRLF) (cx ++ [B LF])
    /\ text_line first /\ Forall text_line lines
    /\ status_line_says first (sh_version h) (sh_status h) /\ accepted_block lines (sh_headers h).
Proof.
  intros Er. unfold resp_of in Er.
  destruct (expect_next (il bld) xs) as [[l| | |] xs1] eqn:E1; cbn [sbind] in Er; try easy.
  destruct (resp_line l) as [[v st]| | |] eqn:El; cbn [sbind] in Er; try easy.
  destruct (hdrs_of bld xs1) as [[hh| | |] xs2] eqn:E2; cbn [sbind] in Er; try easy.
  destruct (content_length_of hh) as [n| | |]; cbn [rbind] in Er; try easy. injection Er as <- ->.
  apply first_consumed in E1 as (cx & -> & Hn & Ht). apply hdrs_inv in E2 as (lines & cx2 & -> & Hl & Hn2 & Ha).
  exists l, lines, (cx ++ cx2). rewrite <- !app_assoc. split; auto. split.
  { rewrite (app_assoc l CRLF). now apply noisy_app. }
  split; auto. split; auto. split; [apply status_line_meaning; auto; apply Ht|]. auto.
Qed.

(** The grammar, both ways. The consumed items are the bytes of the first line, of the header lines and of
    an empty line (with retried interruptions in between, and the LF last); none of the lines contains CR LF and
    none is empty, so it is the first empty line; [accepted_block] (C24) gives the headers. *)
Theorem C30_request :
  forall T bld (rd : reader T) fuel t xs q t',
  delivers rd t xs -> length xs < fuel -> request_deserialize bld rd fuel t = (Ok q, t') ->
  exists first lines cx ys,
    xs = cx ++ B LF :: ys
    /\ noisy bld (first ++ CRLF ++ wire_lines lines ++ CRLF) (cx ++ [B LF])
    /\ text_line first /\ Forall text_line lines
    /\ request_line_says first (rq_method q) (rq_uri q) (rq_version q) /\ accepted_block lines (rq_headers q)
    /\ body_reader (rq_body q) = t' /\ delivers rd t' ys.
Proof.
  intros T bld rd fuel t xs q t' D Hf H. destruct (request_delivers bld rd t xs fuel D Hf) as (u & Du & E).
  rewrite E in H. injection H as H ->. destruct (req_of bld xs) as [r ys] eqn:Er. cbn [fst snd] in *.
  destruct r as [h| | |]; try easy. injection H as <-.
  destruct (req_inv _ _ _ _ Er) as (first & lines & cx & H1 & H2 & H3 & H4 & H5 & H6).
  exists first, lines, cx, ys. repeat (split; [auto; fail|]). split; auto. apply body_reader_new.
Qed.
Print Assumptions C30_request.

Theorem C30_response :
  forall T bld (rd : reader T) fuel t xs q t',
  delivers rd t xs -> length xs < fuel -> response_deserialize bld rd fuel t = (Ok q, t') ->
  exists first lines cx ys,
    xs = cx ++ B LF :: ys
    /\ noisy bld (first ++ CRLF ++ wire_lines lines ++ CRLF) (cx ++ [B LF])
    /\ text_line first /\ Forall text_line lines
    /\ status_line_says first (rs_version q) (rs_status q) /\ accepted_block lines (rs_headers q)
    /\ body_reader (rs_body q) = bufr_new t' /\ delivers rd t' ys.
Proof.
  intros T bld rd fuel t xs q t' D Hf H. destruct (response_delivers bld rd t xs fuel D Hf) as (u & Du & E).
  rewrite E in H. injection H as H ->. destruct (resp_of bld xs) as [r ys] eqn:Er. cbn [fst snd] in *.
  destruct r as [h| | |]; try easy. injection H as <-.
  destruct (resp_inv _ _ _ _ Er) as (first & lines & cx & H1 & H2 & H3 & H4 & H5 & H6).
  exists first, lines, cx, ys. repeat (split; [auto; fail|]). split; auto. apply body_reader_new.
Qed.
Print Assumptions C30_response.

(** Conversely, every head of that form whose Content-Length, if any, is a number is accepted, and exactly what
    follows the empty line is left for the body. *)
Definition good_length (h : headers) : Prop :=
  forall w, hm_get (bs "content-length") h = Some w -> exists n, u64_text w n.

Lemma good_length_of h : good_length h -> exists n, content_length_of h = Ok n.
Proof.
  intros Hc. destruct (hm_get (bs "content-length") h) as [w|] eqn:E.
  - destruct (Hc w E) as [n Hw]. exists (Some n). now apply (content_length_good h w).
  - exists None. now apply content_length_none.
Qed.

Theorem C30_request_accepts :
  forall T bld (rd : reader T) fuel t first lines zs m u v h,
  text_line first -> Forall text_line lines ->
  request_line_says first m u v -> accepted_block lines h -> good_length h ->
  delivers rd t (map B (first ++ CRLF ++ wire_lines lines ++ CRLF) ++ zs) ->
  length (map B (first ++ CRLF ++ wire_lines lines ++ CRLF) ++ zs) < fuel ->
  exists b t', request_deserialize bld rd fuel t = (Ok (mkRequest m u v h b), t')
    /\ framed h t' b /\ delivers rd t' zs.
Proof.
  intros T bld rd fuel t first lines zs m u v h Hf Hl Hr Ha Hc D Hlen. destruct (good_length_of h Hc) as [n Hcl].
  rewrite (app_assoc first CRLF), (map_app B (first ++ CRLF)), <- app_assoc in D, Hlen.
  destruct (request_delivers bld rd t _ fuel D Hlen) as (t' & D' & ->).
  rewrite (req_of_line bld first (m, u, v)), (hdrs_accept_exact bld lines h) in *; auto;
    try (apply request_line_accepted; auto; apply Hf).
  cbn [sbind] in *. rewrite Hcl in *. cbn in *. eexists _, t'. split; [reflexivity|]. split; auto. now apply framed_new.
Qed.
Print Assumptions C30_request_accepts.

Theorem C30_response_accepts :
  forall T bld (rd : reader T) fuel t first lines zs v st h,
  text_line first -> Forall text_line lines ->
  status_line_says first v st -> accepted_block lines h -> good_length h ->
  delivers rd t (map B (first ++ CRLF ++ wire_lines lines ++ CRLF) ++ zs) ->
  length (map B (first ++ CRLF ++ wire_lines lines ++ CRLF) ++ zs) < fuel ->
  exists b t', response_deserialize bld rd fuel t = (Ok (mkResponse v st h b), t')
    /\ framed h (bufr_new t') b /\ delivers rd t' zs.
Proof.
  intros T bld rd fuel t first lines zs v st h Hf Hl Hr Ha Hc D Hlen. destruct (good_length_of h Hc) as [n Hcl].
  rewrite (app_assoc first CRLF), (map_app B (first ++ CRLF)), <- app_assoc in D, Hlen.
  destruct (response_delivers bld rd t _ fuel D Hlen) as (t' & D' & ->).
  rewrite (resp_of_line bld first (v, st)), (hdrs_accept_exact bld lines h) in *; auto;
    try (apply status_line_accepted; auto; apply Hf).
  cbn [sbind] in *. rewrite Hcl in *. cbn in *. eexists _, t'. split; [reflexivity|]. split; auto. now apply framed_new.
Qed.
Print Assumptions C30_response_accepts.

(** The converse also holds with retried interruptions between the bytes of the head, so the grammar is exact. *)
Lemma noisy_last bld b hx pre : noisy bld [] hx -> suffix hx (pre ++ [B b]) -> hx = [].
Proof.
  intros Hn [p Hp]. destruct hx as [|i hx' _] using rev_ind; auto. exfalso.
  rewrite app_assoc in Hp. apply app_inj_tail in Hp as [_ <-].
  remember [] as d eqn:Ed. remember (hx' ++ [B b]) as xs eqn:Ex. revert hx' Ex Ed. induction Hn; intros hx' Ex Ed; try easy.
  - now destruct hx'.
  - destruct hx' as [|i hx']; [now injection Ex|]. injection Ex as _ ->. eauto.
Qed.

Lemma hdrs_accept_noisy bld lines h cx zs : Forall text_line lines -> accepted_block lines h ->
  noisy bld (wire_lines lines ++ CRLF) (cx ++ [B LF]) -> hdrs_of bld (cx ++ B LF :: zs) = (Ok h, zs).
Proof.
  intros Hf (logical & hs & Hl & Hh & ->) Hn. pose proof (folded_utf8 _ _ Hl (text_utf8 _ Hf)) as Hu.
  apply parses_headers in Hh; auto.
  destruct (hdrs_block bld lines logical hs (Ok tt) (cx ++ [B LF]) zs [] Hl Hf Hh) as (ys & E & Hs & H); [now rewrite app_nil_r|].
  destruct (H eq_refl) as (hx' & -> & Hn'). rewrite <- app_assoc in E. cbn [app] in E. rewrite E.
  apply suffix_app_inv in Hs. now rewrite (noisy_last _ _ _ _ Hn' Hs).
Qed.

Lemma head_noisy bld first lines cx zs : text_line first -> noisy bld (first ++ CRLF ++ wire_lines lines ++ CRLF) (cx ++ [B LF]) ->
  exists cx', expect_next (il bld) (cx ++ B LF :: zs) = (Ok first, cx' ++ B LF :: zs)
    /\ noisy bld (wire_lines lines ++ CRLF) (cx' ++ [B LF]).
Proof.
  intros Hf Hn. destruct (il_found bld first (wire_lines lines ++ CRLF) (cx ++ [B LF]) zs) as (hx & E & Hx & p & Hp); [apply Hf|exact Hn|].
  destruct hx as [|i hx' _] using rev_ind.
  - inversion Hx as [Hb| |]. now destruct (wire_lines lines).
  - rewrite app_assoc in Hp. apply app_inj_tail in Hp as [_ <-]. exists hx'. split; auto.
    rewrite <- !app_assoc in E. cbn [app] in E. unfold expect_next. rewrite E. now rewrite line_result_text.
Qed.

Theorem C30_request_accepts_retries :
  forall T bld (rd : reader T) fuel t first lines cx zs m u v h,
  text_line first -> Forall text_line lines ->
  request_line_says first m u v -> accepted_block lines h -> good_length h ->
  noisy bld (first ++ CRLF ++ wire_lines lines ++ CRLF) (cx ++ [B LF]) ->
  delivers rd t (cx ++ B LF :: zs) -> length (cx ++ B LF :: zs) < fuel ->
  exists b t', request_deserialize bld rd fuel t = (Ok (mkRequest m u v h b), t')
    /\ framed h t' b /\ delivers rd t' zs.
Proof.
  intros T bld rd fuel t first lines cx zs m u v h Hf Hl Hr Ha Hc Hn D Hlen. destruct (good_length_of h Hc) as [n Hcl].
  destruct (request_delivers bld rd t _ fuel D Hlen) as (t' & D' & ->).
  destruct (head_noisy bld first lines cx zs Hf Hn) as (cx' & E1 & Hn').
  assert (E : req_line first = Ok (m, u, v)) by (apply request_line_accepted; auto; apply Hf).
  unfold req_of in *. rewrite E1 in *. cbn [sbind] in *. rewrite E in *. cbn [sbind] in *.
  rewrite (hdrs_accept_noisy bld lines h) in * by auto. cbn [sbind] in *. rewrite Hcl in *. cbn in *.
  eexists _, t'. split; [reflexivity|]. split; auto. now apply framed_new.
Qed.
Print Assumptions C30_request_accepts_retries.

Theorem C30_response_accepts_retries :
  forall T bld (rd : reader T) fuel t first lines cx zs v st h,
  text_line first -> Forall text_line lines ->
  status_line_says first v st -> accepted_block lines h -> good_length h ->
  noisy bld (first ++ CRLF ++ wire_lines lines ++ CRLF) (cx ++ [B LF]) ->
  delivers rd t (cx ++ B LF :: zs) -> length (cx ++ B LF :: zs) < fuel ->
  exists b t', response_deserialize bld rd fuel t = (Ok (mkResponse v st h b), t')
    /\ framed h (bufr_new t') b /\ delivers rd t' zs.
Proof.
  intros T bld rd fuel t first lines cx zs v st h Hf Hl Hr Ha Hc Hn D Hlen. destruct (good_length_of h Hc) as [n Hcl].
  destruct (response_delivers bld rd t _ fuel D Hlen) as (t' & D' & ->).
  destruct (head_noisy bld first lines cx zs Hf Hn) as (cx' & E1 & Hn').
  assert (E : resp_line first = Ok (v, st)) by (apply status_line_accepted; auto; apply Hf).
  unfold resp_of in *. rewrite E1 in *. cbn [sbind] in *. rewrite E in *. cbn [sbind] in *.
  rewrite (hdrs_accept_noisy bld lines h) in * by auto. cbn [sbind] in *. rewrite Hcl in *. cbn in *.
  eexists _, t'. split; [reflexivity|]. split; auto. now apply framed_new.
Qed.
Print Assumptions C30_response_accepts_retries.

Example C30_case :
  let m := bs "get  /a  HTTP/1.0abc tail" ++ CRLF ++ bs "K: 1" ++ CRLF ++ bs " 2" ++ CRLF ++ CRLF in
  request_line_says (bs "get  /a  HTTP/1.0abc tail") Get (bs "/a") (mkVersion 1 0)
  /\ accepted_block [bs "K: 1"; bs " 2"] [(bs "k", bs "1 2")]
  /\ request_deserialize Std seg_read 100 (text (m ++ CRLF ++ bs "xy")) =
     (Ok (mkRequest Get (bs "/a") (mkVersion 1 0) [(bs "k", bs "1 2")] (BTilClose (text (CRLF ++ bs "xy")))),
      text (CRLF ++ bs "xy")).
Proof.
  assert (B : forall b, b = SP -> blank b) by (intros; now left).
  assert (NB : forall s, forallb (fun b => negb (is_blank b)) s = true -> Forall (fun b => ~ blank b) s).
  { intros s H. apply Forall_forall. intros b Hb. rewrite forallb_forall in H. apply H, negb_true_iff in Hb.
    now apply is_blank_false. }
  split; [|split; [|reflexivity]].
  - exists (bs "get"), [SP; SP], (bs "/a  HTTP/1.0abc tail"), [SP; SP], (bs "HTTP/1.0abc tail"), (bs "HTTP/1.0abc"), [SP], (bs "tail").
    assert (TS : forall t w r, forallb (fun b => negb (is_blank b)) t = true -> forallb is_blank w = true -> w <> [] ->
      match r with b :: _ => is_blank b | [] => false end = false -> token_split (t ++ w ++ r) t w r).
    { intros t w r H1 H2 H3 H4. split; [reflexivity|]. split; [now apply NB|]. split; [|split].
      - apply Forall_forall. intros b Hb. rewrite forallb_forall in H2. apply is_blank_true. auto.
      - intros b s ->. now apply is_blank_false.
      - easy. }
    split; [now apply (TS (bs "get") [SP; SP] (bs "/a  HTTP/1.0abc tail"))|].
    split; [now apply (TS (bs "/a") [SP; SP] (bs "HTTP/1.0abc tail"))|].
    split; [now apply (TS (bs "HTTP/1.0abc") [SP] (bs "tail"))|]. split; [easy|]. split; [easy|]. split; [reflexivity|].
    exists x31, x30, (bs "abc"). unfold dec_digit. vm_compute. repeat split; congruence.
  - exists [bs "K: 1 2"], [(bs "k", bs "1 2")]. repeat split.
    + change (folded (bs "K: 1" :: [bs " 2"] ++ []) [bs "K: 1" ++ concat [bs " 2"]]). constructor.
      * constructor; auto. exists SP, (bs "2"). auto.
      * easy.
      * constructor.
    + constructor; auto. exists (bs "K"), (bs "1 2"). repeat split. intros [H|[]]. easy.
Qed.

(** ** C14. Bodies that last until the connection closes *)
(** If the parsed headers do not frame the body, the body delivers exactly the items after the first empty line;
    for a response through the BufReader put around the socket. *)
Theorem C14_request :
  forall T bld (rd : reader T) fuel fuel' t xs q t',
  delivers0 rd t xs -> length xs < fuel -> request_deserialize bld rd fuel t = (Ok q, t') ->
  hm_get (bs "transfer-encoding") (rq_headers q) <> Some (bs "chunked") ->
  hm_get (bs "content-length") (rq_headers q) = None ->
  exists first lines cx ys,
    xs = cx ++ B LF :: ys /\ noisy bld (first ++ CRLF ++ wire_lines lines ++ CRLF) (cx ++ [B LF])
    /\ text_line first /\ Forall text_line lines
    /\ delivers0 (body_read bld rd fuel') (rq_body q) ys.
Proof.
  intros T bld rd fuel fuel' t xs q t' D Hf H Hte Hcl. pose proof (C13_request T bld rd fuel t q t' H) as Hfr.
  destruct (request_delivers0 bld rd t xs fuel D Hf) as (u & Du & E). rewrite E in H. injection H as H ->.
  destruct (req_of bld xs) as [r ys] eqn:Er. cbn [fst snd] in *. destruct r as [h| | |]; try easy.
  destruct (req_inv _ _ _ _ Er) as (first & lines & cx & H1 & H2 & H3 & H4 & _).
  exists first, lines, cx, ys. repeat (split; [auto; fail|]).
  destruct Hfr as (len & [[_ ->]|(v & n & Hv & _)] & Hb); [|congruence].
  destruct Hb as [[Hb _]|[_ ->]]; [congruence|]. now apply tilclose_delivers0.
Qed.
Print Assumptions C14_request.

Theorem C14_response :
  forall T bld (rd : reader T) fuel fuel' cap s xs q s',
  delivers0 rd s xs -> length xs < fuel -> 0 < cap -> response_deserialize bld rd fuel s = (Ok q, s') ->
  hm_get (bs "transfer-encoding") (rs_headers q) <> Some (bs "chunked") ->
  hm_get (bs "content-length") (rs_headers q) = None ->
  exists first lines cx ys,
    xs = cx ++ B LF :: ys /\ noisy bld (first ++ CRLF ++ wire_lines lines ++ CRLF) (cx ++ [B LF])
    /\ text_line first /\ Forall text_line lines
    /\ delivers0 (body_read bld (bufr_read bld cap rd) fuel') (rs_body q) ys.
Proof.
  intros T bld rd fuel fuel' cap t xs q t' D Hf Hcap H Hte Hcl. pose proof (C13_response T bld rd fuel t q t' H) as Hfr.
  destruct (response_delivers0 bld rd t xs fuel D Hf) as (u & Du & E). rewrite E in H. injection H as H ->.
  destruct (resp_of bld xs) as [r ys] eqn:Er. cbn [fst snd] in *. destruct r as [h| | |]; try easy.
  destruct (resp_inv _ _ _ _ Er) as (first & lines & cx & H1 & H2 & H3 & H4 & _).
  exists first, lines, cx, ys. repeat (split; [auto; fail|]).
  destruct Hfr as (len & [[_ ->]|(v & n & Hv & _)] & Hb); [|congruence].
  destruct Hb as [[Hb _]|[_ ->]]; [congruence|]. apply tilclose_delivers0. now apply bufr_delivers0.
Qed.
Print Assumptions C14_response.
Example C14_case :
  let m := bs "HTTP/1.1 200 OK" ++ CRLF ++ bs "K: 1" ++ CRLF ++ CRLF ++ bs "bo" in
  let s0 := text m ++ [Fail (IoError Interrupted)] ++ text (bs "dy") in
  let read := body_read Std (bufr_read Std 8 seg_read) 100 in
  match response_deserialize Std seg_read 100 s0 with
  | (Ok q, _) =>
      let (r1, b1) := read 1 (rs_body q) in let (r2, b2) := read 9 b1 in
      let (r3, b3) := read 9 b2 in let (r4, b4) := read 9 b3 in let (r5, b5) := read 9 b4 in
      [r1; r2; r3; r4; r5] = [Ok (bs "b"); Ok (bs "o"); Err (IoError Interrupted); Ok (bs "dy"); Ok []]
  | _ => False
  end.
Proof. vm_compute. reflexivity. Qed.

(** ** C16. Panics, for whole messages *)
Definition ascii_items (xs : list item) : Prop :=
  Forall (fun x => match x with B b => (bval b < 128)%N | E _ => True end) xs.

Lemma noisy_in bld d xs b : noisy bld d xs -> In b d -> In (B b) xs.
Proof. induction 1; intros Hin; [easy| |right; auto]. destruct Hin as [->|Hin]; [now left|right; auto]. Qed.

Definition plain (l : bytes) : Prop := is_utf8 l /\ Forall (fun b => (bval b < 128)%N) l.

Lemma ch_not_plain n c a b : ch n c -> Forall (fun b => (bval b < 128)%N) (a ++ c ++ b) -> False.
Proof.
  intros Hc H. apply ch_shape in Hc as ((y & r & -> & Hy) & _). apply Forall_app in H as [_ H].
  inversion H; subst. lia.
Qed.

Lemma plain_version s : plain s -> parse_version s <> Panic.
Proof.
  intros [Hu Hp] H. apply parse_version_panics in H; auto. destruct H as (a & n & c & b & -> & Hc & _).
  eapply ch_not_plain; eauto.
Qed.
Lemma plain_header s : plain s -> header_deserialize s <> Panic.
Proof.
  intros [Hu Hp] H. apply header_deserialize_panics in H; auto. destruct H as (k & n & c & r & _ & Hc & ->).
  apply (ch_not_plain n c (k ++ [COLON]) r Hc). rewrite <- app_assoc. exact Hp.
Qed.
Lemma plain_split s t w r : plain s -> token_split s t w r -> plain t /\ plain r.
Proof.
  intros [Hu Hp] H. destruct (split_utf8 _ _ _ _ H Hu) as [H1 H2]. destruct H as (-> & _).
  apply Forall_app in Hp as [P1 P2]. apply Forall_app in P2 as [_ P2]. now split.
Qed.
Lemma plain_req s : plain s -> req_line s <> Panic.
Proof.
  intros Hp H. destruct (req_line_spec s (proj1 Hp)) as [(m' & u' & v' & t1 & w1 & r1 & w2 & r2 & t3 & w3 & r3 & N0 & N1 & N2 & S1 & S2 & S3 & M & V & E)|[[e E]|[E H']]];
    rewrite E in H; try easy. destruct H' as (t1 & w1 & r1 & u & w2 & r2 & t3 & w3 & r3 & S1 & S2 & S3 & U & V).
  destruct (plain_split _ _ _ _ Hp S1) as [_ P1]. destruct (plain_split _ _ _ _ P1 S2) as [_ P2].
  destruct (plain_split _ _ _ _ P2 S3) as [P3 _]. now apply plain_version in P3.
Qed.
Lemma plain_resp s : plain s -> resp_line s <> Panic.
Proof.
  intros Hp H. destruct (resp_line_spec s (proj1 Hp)) as [(v' & st' & t1 & w1 & r1 & N0 & S1 & V & P & E)|[[e E]|[E H']]];
    rewrite E in H; try easy. destruct H' as (t1 & w1 & r1 & S1 & U & V).
  destruct (plain_split _ _ _ _ Hp S1) as [P1 _]. now apply plain_version in P1.
Qed.

Lemma il_plain bld xs : ascii_items xs -> match il bld xs with
    | (Ok (Some l), a') => ascii_items a' /\ plain l
    | (Ok None, a') => ascii_items a'
    | (Panic, _) => False
    | (_, a') => True
    end.
Proof.
  intros H. pose proof (il_not_fuel bld xs) as [H1 H2]. destruct (il bld xs) as [[[l|]| | |] ys] eqn:E; auto.
  - apply il_consumed in E as (line0 & cx & -> & Hn & Hc & Hr & _). apply Forall_app in H as [Hx Hy]. split; auto.
    apply line_result_some in Hr as (-> & Hne & Hu). split; auto. apply Forall_forall. intros b Hb.
    assert (Hin : In (B b) cx) by (eapply noisy_in; eauto; apply in_or_app; now left).
    unfold ascii_items in Hx. rewrite Forall_forall in Hx. now apply (Hx (B b)).
  - apply il_consumed in E as (line0 & cx & -> & Hn & Hc & Hr & _). now apply Forall_app in H as [Hx Hy].
Qed.

Lemma plain_app a b : plain a -> plain b -> plain (a ++ b).
Proof.
  intros [H1 H2] [H3 H4]. split; [|now apply Forall_app]. rewrite is_utf8_valid in *. now apply valid_app.
Qed.

(** All-ASCII input never panics: any transport, any segmentation, any failures. *)
Theorem C16_ascii_never_panics :
  forall T bld (rd : reader T) fuel t xs,
  delivers rd t xs -> length xs < fuel -> ascii_items xs ->
  fst (request_deserialize bld rd fuel t) <> Panic /\ fst (response_deserialize bld rd fuel t) <> Panic.
Proof.
  intros T bld rd fuel t xs D Hf Ha. split.
  - destruct (request_delivers bld rd t xs fuel D Hf) as (u & _ & ->). rewrite <- (req_fuel bld (S (length xs))) by lia.
    destruct (request_head (il bld) (S (length xs)) xs) as [r ys] eqn:E.
    destruct (request_head_inv (il bld) ascii_items (fun _ => True) plain (il_plain bld)) with (fuel := S (length xs)) (a := xs) (r := r) (a' := ys)
      as [_ H]; auto using plain_app.
    cbn [fst]. destruct r; try easy. intros _. destruct (H eq_refl) as (l & Hl & [Hp|Hp]); [exact (plain_header l Hl Hp)|exact (plain_req l Hl Hp)].
  - destruct (response_delivers bld rd t xs fuel D Hf) as (u & _ & ->). rewrite <- (resp_fuel bld (S (length xs))) by lia.
    destruct (response_head (il bld) (S (length xs)) xs) as [r ys] eqn:E.
    destruct (response_head_inv (il bld) ascii_items (fun _ => True) plain (il_plain bld)) with (fuel := S (length xs)) (a := xs) (r := r) (a' := ys)
      as [_ H]; auto using plain_app.
    cbn [fst]. destruct r; try easy. intros _. destruct (H eq_refl) as (l & Hl & [Hp|Hp]); [exact (plain_header l Hl Hp)|exact (plain_resp l Hl Hp)].
Qed.
Print Assumptions C16_ascii_never_panics.

(** A header line (after joining continuations) whose first colon is followed by a non-ASCII character makes
    parsing panic, whatever correct lines precede it: a peer can crash the program. *)
Definition bad_colon (line : bytes) : Prop :=
  exists key n rest, ~ In COLON key /\ scalar n = true /\ (128 <= n)%N /\ line = key ++ COLON :: encode_char n ++ rest.

Lemma parses_app oks hs ls hs' o : Forall is_utf8 oks -> Forall2 header_of oks hs -> parses ls hs' o -> parses (oks ++ ls) (hs ++ hs') o.
Proof.
  intros Hu H Hp. induction H as [|l h oks hs (k & v & H1 & -> & ->) H IH]; cbn [app]; auto. inversion Hu; subst.
  constructor; auto. now apply header_deserialize_ok.
Qed.

Theorem C16_peer_can_panic :
  forall T bld (rd : reader T) fuel t first lines oks hs bad rest zs,
  text_line first -> Forall text_line lines -> folded lines (oks ++ bad :: rest) ->
  Forall2 header_of oks hs -> bad_colon bad ->
  delivers rd t (map B (first ++ CRLF ++ wire_lines lines ++ CRLF) ++ zs) ->
  length (map B (first ++ CRLF ++ wire_lines lines ++ CRLF) ++ zs) < fuel ->
  (forall m u v, request_line_says first m u v -> fst (request_deserialize bld rd fuel t) = Panic)
  /\ (forall v st, status_line_says first v st -> fst (response_deserialize bld rd fuel t) = Panic).
Proof.
  intros T bld rd fuel t first lines oks hs bad rest zs Hf Hl Hfo Hh (key & n & r & B1 & B2 & B3 & B4) D Hlen.
  pose proof (folded_utf8 _ _ Hfo (text_utf8 _ Hl)) as Hu. apply Forall_app in Hu as [Hu1 Hu2]. inversion Hu2 as [|? ? Hub Hur]; subst.
  assert (Hp : header_deserialize (key ++ COLON :: encode_char n ++ r) = Panic).
  { apply header_deserialize_panics; auto. exists key, n, (encode_char n), r. repeat split; auto. }
  destruct (hdrs_block bld lines _ _ Panic (map B (wire_lines lines ++ CRLF)) zs [] Hfo Hl
    (parses_app _ _ _ _ _ Hu1 Hh (parses_panic _ rest Hp))) as (ys & E & _ & _); [rewrite app_nil_r; apply noisy_map|].
  rewrite (app_assoc first CRLF), (map_app B (first ++ CRLF)), <- app_assoc in D, Hlen. split.
  - intros m u v Hs. apply request_line_accepted in Hs; [|apply Hf].
    destruct (request_delivers bld rd t _ fuel D Hlen) as (u' & _ & ->).
    rewrite (req_of_line bld first (m, u, v)), E by auto. reflexivity.
  - intros v st Hs. apply status_line_accepted in Hs; [|apply Hf].
    destruct (response_delivers bld rd t _ fuel D Hlen) as (u' & _ & ->).
    rewrite (resp_of_line bld first (v, st)), E by auto. reflexivity.
Qed.
Print Assumptions C16_peer_can_panic.

(** The unconditional claim is false. *)
Theorem C16_no_input_panics_refuted :
  ~ (forall evs fuel, length (items_of evs) < fuel -> fst (request_deserialize Std seg_read fuel evs) <> Panic).
Proof.
  intros H. apply (H (text (bs "GET / HTTP/1.1" ++ CRLF ++ bs "a:" ++ [xc3; xa9] ++ CRLF ++ CRLF)) 100).
  - vm_compute. lia.
  - reflexivity.
Qed.
Print Assumptions C16_no_input_panics_refuted.
Example C16_message_case : bad_colon (bs "a:" ++ [xc3; xa9])
  /\ fst (request_deserialize NoStd seg_read 100 (text (bs "GET / HTTP/1.1" ++ CRLF ++ bs "k: v" ++ CRLF ++ bs "a:" ++ [xc3; xa9] ++ CRLF ++ CRLF))) = Panic
  /\ fst (response_deserialize Std seg_read 100 (text (bs "HTTP/1.1 200 OK" ++ CRLF ++ bs "a:" ++ [xc3; xa9] ++ CRLF ++ CRLF))) = Panic
  /\ fst (request_deserialize Std seg_read 100 (text (bs "GET / HTTP" ++ [xc3; xa9] ++ CRLF ++ CRLF))) = Panic.
Proof.
  split; [|repeat split]. exists (bs "a"), 233%N, []. repeat split; try easy. intros [H|[]]; easy.
Qed.

(** ** C24. Header blocks *)
(** [lines] are the lines on the wire, [logical] the lines after joining each line that starts with a blank to the
    one before, [hs] the pairs of lower-cased name and value in them. *)
Theorem C24_block :
  forall T bld (rd : reader T) fuel s lines logical hs zs,
  Forall text_line lines -> folded lines logical -> Forall2 header_of logical hs ->
  delivers rd s (map B (wire_lines lines ++ CRLF) ++ zs) -> length (map B (wire_lines lines ++ CRLF) ++ zs) < fuel ->
  exists h s', headers_deserialize (crlf_next bld rd fuel) fuel s = (Ok h, s') /\ delivers rd s' zs
    /\ sorted h /\ forall k, hm_get k h = last_value k hs.
Proof.
  intros T bld rd fuel s lines logical hs zs Hl Hfo Hh (R & HR & D) Hlen.
  destruct (headers_items bld rd R fuel s _ HR D Hlen) as (s' & E & D').
  assert (Ha : accepted_block lines (headers_from hs)) by (exists logical, hs; auto).
  rewrite (hdrs_accept_exact bld lines (headers_from hs) zs Hl Ha) in *.
  exists (headers_from hs), s'. split; auto. split; [now exists R|]. split; [apply headers_from_sorted|]. apply headers_from_get.
Qed.
Print Assumptions C24_block.

(** Every list of lines has a [logical] form; and the first logical line that is not a header line decides
    the outcome: an error, or a panic if its first colon is followed by a non-ASCII character. *)
Theorem C24_bad_line :
  (forall lines, exists logical, folded lines logical)
  /\ forall T bld (rd : reader T) fuel s lines oks hs bad rest zs,
  Forall text_line lines -> folded lines (oks ++ bad :: rest) -> Forall2 header_of oks hs ->
  (forall h, ~ header_of bad h) ->
  delivers rd s (map B (wire_lines lines ++ CRLF) ++ zs) -> length (map B (wire_lines lines ++ CRLF) ++ zs) < fuel ->
  (~ bad_colon bad /\ exists e, fst (headers_deserialize (crlf_next bld rd fuel) fuel s) = Err e)
  \/ (bad_colon bad /\ fst (headers_deserialize (crlf_next bld rd fuel) fuel s) = Panic).
Proof.
  split; [apply folded_exists|].
  intros T bld rd fuel s lines oks hs bad rest zs Hl Hfo Hh Hbad (R & HR & D) Hlen.
  destruct (headers_items bld rd R fuel s _ HR D Hlen) as (s' & -> & _). cbn [fst].
  pose proof (folded_utf8 _ _ Hfo (text_utf8 _ Hl)) as Hu. apply Forall_app in Hu as [Hu1 Hu2]. inversion Hu2 as [|? ? Hub Hur]; subst.
  assert (Hpan : header_deserialize bad = Panic <-> bad_colon bad).
  { rewrite header_deserialize_panics by auto. split.
    - intros (k & n & c & r & H1 & (H2 & H3 & ->) & H4). exists k, n, r. auto.
    - intros (k & n & r & H1 & H2 & H3 & H4). exists k, n, (encode_char n), r. repeat split; auto. }
  assert (Hb : forall o, parses (bad :: rest) [] o -> hdrs_of bld (map B (wire_lines lines ++ CRLF) ++ zs) =
    (do _ <- o; Ok (headers_from (hs ++ [])), snd (hdrs_of bld (map B (wire_lines lines ++ CRLF) ++ zs)))).
  { intros o Ho. destruct (hdrs_block bld lines _ _ o (map B (wire_lines lines ++ CRLF)) zs [] Hfo Hl
      (parses_app _ _ _ _ _ Hu1 Hh Ho)) as (ys & E & _ & _); [rewrite app_nil_r; apply noisy_map|]. rewrite E. reflexivity. }
  destruct (header_deserialize_cases bad Hub) as [(k & v & H1 & H2 & H3)|[(k & n & c & r & _ & _ & _ & H3)|(e & H3 & _)]].
  - exfalso. apply (Hbad (to_lowercase k, v)). exists k, v. auto.
  - right. split; [now apply Hpan|]. rewrite (Hb Panic) by now apply parses_panic. reflexivity.
  - left. split; [intros H; apply Hpan in H; congruence|]. exists e. rewrite (Hb (Err e)) by now apply parses_err. reflexivity.
Qed.
Print Assumptions C24_bad_line.
Example C24_case :
  let blk l := text (wire_lines l ++ CRLF ++ bs "rest") in
  let parse l := headers_deserialize (crlf_next Std seg_read 100) 100 (blk l) in
  parse [bs "Host: a: b"; bs "X: 1"; TAB :: bs "2"; bs "x: 3"; bs "Y: "] =
    (Ok [(bs "host", bs "a: b"); (bs "x", bs "3"); (bs "y", [])], text (bs "rest"))
  /\ fst (parse [bs "X: 1"; TAB :: bs "2"]) = Ok [(bs "x", bs "1" ++ TAB :: bs "2")]
  /\ fst (parse [bs "X: 1"; bs "Y:2"]) = Err ParseError
  /\ fst (parse [bs "X: 1"; bs "Y"]) = Err ParseError.
Proof. repeat split. Qed.

(** ** C25. Serialized header sets are read back *)
(** [sendable]: keys strictly increasing (as in the map), lower-case, without colon, CR LF or leading blank; values
    without CR LF. *)
Theorem C25_round_trip :
  forall T bld (rd : reader T) fuel s h zs,
  sendable h -> delivers rd s (map B (concat (headers_pieces h) ++ CRLF) ++ zs) ->
  length (map B (concat (headers_pieces h) ++ CRLF) ++ zs) < fuel ->
  exists s', headers_deserialize (crlf_next bld rd fuel) fuel s = (Ok h, s') /\ delivers rd s' zs.
Proof.
  intros T bld rd fuel s h zs Hs (R & HR & D) Hlen.
  destruct (headers_items bld rd R fuel s _ HR D Hlen) as (s' & E & D').
  rewrite hdrs_round_trip in * by auto. exists s'. split; auto. now exists R.
Qed.
Print Assumptions C25_round_trip.

Lemma sendable_check h : forallb (fun kv =>
    ascii (fst kv) && ascii (snd kv) && beqb (to_lowercase (fst kv)) (fst kv)
    && forallb (fun b => negb (Byte.eqb b COLON) && negb (Byte.eqb b CR)) (fst kv)
    && negb (starts_blank (fst kv)) && forallb (fun b => negb (Byte.eqb b CR)) (snd kv)) h = true ->
  sorted h -> sendable h.
Proof.
  intros H Hs. split; auto. apply Forall_forall. intros [k v] Hin. rewrite forallb_forall in H. apply H in Hin. cbn [fst snd] in *.
  apply andb_true_iff in Hin as [Hin H6]. apply andb_true_iff in Hin as [Hin H5]. apply andb_true_iff in Hin as [Hin H4].
  apply andb_true_iff in Hin as [Hin H3]. apply andb_true_iff in Hin as [H1 H2]. rewrite forallb_forall in H4, H6.
  repeat split.
  - now apply utf8_bs_ascii.
  - intros Hc. now apply H4 in Hc.
  - apply no_cr_no_crlf. intros Hc. apply H4 in Hc. now rewrite byte_eqb_refl, andb_false_r in Hc.
  - apply negb_true_iff in H5. now apply starts_blank_false.
  - now apply beqb_true.
  - now apply utf8_bs_ascii.
  - apply no_cr_no_crlf. intros Hc. apply H6 in Hc. now rewrite byte_eqb_refl in Hc.
Qed.
Example C25_case : sendable (headers_from [(bs "user-agent", bs "x: y"); (bs "", bs " z ")])
  /\ concat (headers_pieces (headers_from [(bs "user-agent", bs "x: y"); (bs "", bs " z ")]))
     = bs ":  z " ++ CRLF ++ bs "user-agent: x: y" ++ CRLF.
Proof. split; [|reflexivity]. apply sendable_check; [reflexivity|apply headers_from_sorted]. Qed.

(** ** C27. Header injection *)
Lemma hm_insert_in k v m kv : In kv (hm_insert k v m) -> kv = (k, v) \/ In kv m.
Proof.
  induction m as [|[k' v'] m IH]; cbn [hm_insert].
  - intros [<-|[]]. auto.
  - destruct (bcompare k k') eqn:Ec; cbn [In]; intros H; repeat destruct H as [H|H]; auto.
    + apply bcompare_eq in Ec. subst. auto.
    + destruct (IH H); auto.
Qed.

(** What [add_header] may safely be given: *)
Definition safe_key (k : bytes) : Prop := is_utf8 k /\ ~ In COLON k /\ no_crlf k /\ ~ blank_first k.

Lemma safe_key_sendable k : safe_key k -> sendable_key (to_lowercase k).
Proof.
  intros (H1 & H2 & H3 & H4). repeat split.
  - now apply to_lowercase_utf8.
  - intros H. apply H2. apply to_lowercase_special; auto. easy.
  - now apply to_lowercase_crlf.
  - intros (b & t & E & Hb). apply H4. assert (Hsp : (bval b < 128)%N /\ special (bval b) = true) by (destruct Hb as [->| ->]; easy).
    destruct (to_lowercase_head b t k H1 (proj1 Hsp) (proj2 Hsp) E) as [t' ->]. exists b, t'. auto.
  - apply to_lowercase_idem.
Qed.

Lemma headers_insert_sendable k v h : safe_key k -> sendable_value v -> sendable h -> sendable (headers_insert k v h).
Proof.
  intros Hk Hv [Hs Hf]. split; [now apply hm_insert_sorted|]. apply Forall_forall. intros kv Hin.
  apply hm_insert_in in Hin as [->|Hin]; [split; [now apply safe_key_sendable|auto]|]. rewrite Forall_forall in Hf. now apply Hf.
Qed.

(** A safe header arrives as added, and only it. *)
Theorem C27_safe :
  forall T bld (rd : reader T) fuel t m u ver h k v zs,
  let wire := map B (concat (request_pieces (mkRequest m u ver (headers_insert k v h) tt))) ++ zs in
  sendable_uri u -> small_version ver -> sendable h -> safe_key k -> sendable_value v ->
  good_length (headers_insert k v h) ->
  delivers rd t wire -> length wire < fuel ->
  exists q t', request_deserialize bld rd fuel t = (Ok q, t') /\ delivers rd t' zs
    /\ hm_get (to_lowercase k) (rq_headers q) = Some v
    /\ forall k', k' <> to_lowercase k -> hm_get k' (rq_headers q) = hm_get k' h.
Proof.
  intros T bld rd fuel t m u ver h k v zs wire Hu Hv Hh Hk Hval Hg D Hlen. subst wire.
  rewrite request_pieces_wire in D, Hlen. cbn [rq_method rq_uri rq_version rq_headers] in D, Hlen.
  destruct (good_length_of _ Hg) as [n Hn]. pose proof (headers_insert_sendable k v h Hk Hval Hh) as Hs.
  destruct (request_delivers bld rd t _ fuel D Hlen) as (t' & D' & E).
  rewrite (req_round_trip bld m u ver _ n zs Hu Hv Hs Hn) in *. cbn in *.
  eexists _, t'. split; [exact E|]. split; auto. cbn. split.
  - unfold headers_insert. rewrite hm_get_insert by apply Hh. now rewrite beqb_refl.
  - intros k' Hk'. unfold headers_insert. rewrite hm_get_insert by apply Hh.
    now replace (beqb k' (to_lowercase k)) with false by (symmetry; now apply beqb_false).
Qed.
Print Assumptions C27_safe.

(** The header block when a value contains CR LF and a well-formed header line, or an empty line. *)
Lemma inject_header_block h1 h2 k v1 name v2 :
  let seen := h1 ++ (k, v1) :: (to_lowercase name, v2) :: h2 in
  Forall (fun kv => sendable_key (fst kv) /\ sendable_value (snd kv)) (h1 ++ (k, v1) :: h2) ->
  safe_key name -> sendable_value v2 ->
  exists lines, concat (headers_pieces (h1 ++ (k, v1 ++ CRLF ++ name ++ bs ": " ++ v2) :: h2)) = wire_lines lines
    /\ Forall text_line lines /\ accepted_block lines (headers_from seen).
Proof.
  intros seen Hh (N1 & N2 & N3 & N4) Hv2.
  exists (map header_line (h1 ++ [(k, v1)]) ++ header_line (name, v2) :: map header_line h2).
  split.
  { rewrite headers_pieces_wire, !map_app, !wire_lines_app. cbn [map]. rewrite !wire_lines_cons. unfold wire_lines at 4. cbn [flat_map].
    unfold header_line. cbn [fst snd]. rewrite !app_nil_r, <- !app_assoc. reflexivity. }
  apply Forall_app in Hh as [Hh1 Hh2]. inversion Hh2 as [|? ? Hkv Hh3]; subst.
  assert (Hh1' : Forall (fun kv => sendable_key (fst kv) /\ sendable_value (snd kv)) (h1 ++ [(k, v1)])) by (apply Forall_app; auto).
  destruct (sendable_parses _ Hh1') as (A1 & A2 & A3). destruct (sendable_parses _ Hh3) as (B1 & B2 & B3).
  set (lines := map header_line (h1 ++ [(k, v1)]) ++ header_line (name, v2) :: map header_line h2) in *.
  assert (Hl : Forall text_line lines).
  { apply Forall_app. split; auto. constructor; auto. now apply header_line_text. }
  split; auto. exists lines, seen. split; [|split; auto].
  - apply folded_plain. apply Forall_forall. intros l Hin. apply in_app_iff in Hin as [Hin|[<-|Hin]].
    + apply in_map_iff in Hin as ([k' v'] & <- & Hin). rewrite Forall_forall in Hh1'. apply Hh1' in Hin as [(_ & _ & _ & Hb & _) _].
      now apply header_line_not_blank.
    + now apply header_line_not_blank.
    + apply in_map_iff in Hin as ([k' v'] & <- & Hin). rewrite Forall_forall in Hh3. apply Hh3 in Hin as [(_ & _ & _ & Hb & _) _].
      now apply header_line_not_blank.
  - unfold seen, lines. change (h1 ++ (k, v1) :: (to_lowercase name, v2) :: h2) with (h1 ++ [(k, v1)] ++ (to_lowercase name, v2) :: h2).
    rewrite app_assoc. apply Forall2_app.
    + apply parses_headers; auto. apply text_utf8; auto.
    + constructor; [exists name, v2; auto|]. apply parses_headers; auto. apply text_utf8; auto.
Qed.

Lemma inject_body_block h1 h2 k v1 rest :
  let seen := h1 ++ [(k, v1)] in
  Forall (fun kv => sendable_key (fst kv) /\ sendable_value (snd kv)) seen ->
  exists lines, concat (headers_pieces (h1 ++ (k, v1 ++ CRLF ++ CRLF ++ rest) :: h2)) ++ CRLF =
      (wire_lines lines ++ CRLF) ++ (rest ++ CRLF ++ concat (headers_pieces h2) ++ CRLF)
    /\ Forall text_line lines /\ accepted_block lines (headers_from seen).
Proof.
  intros seen Hh. exists (map header_line seen). split.
  { unfold seen. rewrite !headers_pieces_wire, !map_app, !wire_lines_app. cbn [map]. rewrite !wire_lines_cons.
    change (wire_lines []) with (@nil byte). unfold header_line. cbn [fst snd]. rewrite <- !app_assoc. reflexivity. }
  destruct (sendable_parses _ Hh) as (A1 & A2 & A3). split; auto.
  exists (map header_line seen), seen. split; auto. split; auto. apply parses_headers; auto. now apply text_utf8.
Qed.

(** A value that contains CR LF and a well-formed header line: the receiver sees the value cut off there and the
    second header besides. The same text can come from a key ([k] = "name: value CR LF name2"). *)
Theorem C27_injected_header :
  forall T bld (rd : reader T) fuel t m u ver h1 h2 k v1 name v2 zs,
  let entry := (k, v1 ++ CRLF ++ name ++ bs ": " ++ v2) in
  let wire := map B (concat (request_pieces (mkRequest m u ver (h1 ++ entry :: h2) tt))) ++ zs in
  let seen := h1 ++ (k, v1) :: (to_lowercase name, v2) :: h2 in
  sendable_uri u -> small_version ver ->
  Forall (fun kv => sendable_key (fst kv) /\ sendable_value (snd kv)) (h1 ++ (k, v1) :: h2) ->
  safe_key name -> sendable_value v2 -> good_length (headers_from seen) ->
  delivers rd t wire -> length wire < fuel ->
  exists q t', request_deserialize bld rd fuel t = (Ok q, t') /\ delivers rd t' zs
    /\ forall k', hm_get k' (rq_headers q) = last_value k' seen.
Proof.
  intros T bld rd fuel t m u ver h1 h2 k v1 name v2 zs entry wire seen Hu Hv Hh Hname Hv2 Hg D Hlen.
  destruct (inject_header_block h1 h2 k v1 name v2 Hh Hname Hv2) as (lines & Hw & Hl & Hacc). fold seen in Hacc.
  subst wire entry. rewrite request_pieces_wire in D, Hlen. cbn [rq_method rq_uri rq_version rq_headers] in D, Hlen. rewrite Hw in D, Hlen.
  destruct (request_line_ok m u ver Hu Hv) as [L1 L2].
  destruct (good_length_of _ Hg) as [n Hn].
  rewrite (app_assoc _ CRLF), (map_app B (_ ++ CRLF)), <- app_assoc in D, Hlen.
  destruct (request_delivers bld rd t _ fuel D Hlen) as (t' & D' & E).
  rewrite (req_of_line bld _ _ _ L1 L2), (hdrs_accept_exact bld lines _ zs Hl Hacc) in *. cbn [sbind] in *. rewrite Hn in *.
  cbn in *. eexists _, t'. split; [exact E|]. split; auto. cbn. intros k'. apply headers_from_get.
Qed.
Print Assumptions C27_injected_header.

(** With an empty line in the value the head ends there, and the rest of the value, the remaining headers and
    everything after them are read as the body (or the next message). *)
Theorem C27_injected_body :
  forall T bld (rd : reader T) fuel t m u ver h1 h2 k v1 rest zs,
  let entry := (k, v1 ++ CRLF ++ CRLF ++ rest) in
  let wire := map B (concat (request_pieces (mkRequest m u ver (h1 ++ entry :: h2) tt))) ++ zs in
  let seen := h1 ++ [(k, v1)] in
  sendable_uri u -> small_version ver ->
  Forall (fun kv => sendable_key (fst kv) /\ sendable_value (snd kv)) seen -> good_length (headers_from seen) ->
  delivers rd t wire -> length wire < fuel ->
  exists q t', request_deserialize bld rd fuel t = (Ok q, t')
    /\ (forall k', hm_get k' (rq_headers q) = last_value k' seen)
    /\ delivers rd t' (map B (rest ++ CRLF ++ concat (headers_pieces h2) ++ CRLF) ++ zs).
Proof.
  intros T bld rd fuel t m u ver h1 h2 k v1 rest zs entry wire seen Hu Hv Hh Hg D Hlen.
  destruct (inject_body_block h1 h2 k v1 rest Hh) as (lines & Hw & A1 & Hacc). fold seen in Hacc.
  subst wire entry. rewrite request_pieces_wire in D, Hlen. cbn [rq_method rq_uri rq_version rq_headers] in D, Hlen. rewrite Hw in D, Hlen.
  destruct (request_line_ok m u ver Hu Hv) as [L1 L2].
  destruct (good_length_of _ Hg) as [n Hn].
  rewrite (app_assoc _ CRLF), (map_app B (_ ++ CRLF)), <- app_assoc in D, Hlen.
  rewrite (map_app B (wire_lines _ ++ CRLF)), <- (app_assoc (map B (wire_lines _ ++ CRLF))) in D, Hlen.
  destruct (request_delivers bld rd t _ fuel D Hlen) as (t' & D' & E).
  rewrite (req_of_line bld _ _ _ L1 L2), (hdrs_accept_exact bld _ _ _ A1 Hacc) in *. cbn [sbind] in *. rewrite Hn in *.
  cbn in *. eexists _, t'. split; [exact E|]. split; auto. cbn. intros k'. apply headers_from_get.
Qed.
Print Assumptions C27_injected_body.

(** The same for responses: a server whose handler puts such a value into a header lets the client see another header,
    or (response splitting) a body of the value's choosing. *)
Theorem C27_response_splitting :
  forall T bld (rd : reader T) fuel t ver st h1 h2 k v1,
  small_version ver -> (to_code st < 2 ^ 32)%N ->
  (forall name v2 zs,
     let wire := map B (concat (response_pieces (mkResponse ver st (h1 ++ (k, v1 ++ CRLF ++ name ++ bs ": " ++ v2) :: h2) tt))) ++ zs in
     let seen := h1 ++ (k, v1) :: (to_lowercase name, v2) :: h2 in
     Forall (fun kv => sendable_key (fst kv) /\ sendable_value (snd kv)) (h1 ++ (k, v1) :: h2) ->
     safe_key name -> sendable_value v2 -> good_length (headers_from seen) ->
     delivers rd t wire -> length wire < fuel ->
     exists q t', response_deserialize bld rd fuel t = (Ok q, t') /\ delivers rd t' zs
       /\ forall k', hm_get k' (rs_headers q) = last_value k' seen)
  /\ (forall rest zs,
     let wire := map B (concat (response_pieces (mkResponse ver st (h1 ++ (k, v1 ++ CRLF ++ CRLF ++ rest) :: h2) tt))) ++ zs in
     let seen := h1 ++ [(k, v1)] in
     Forall (fun kv => sendable_key (fst kv) /\ sendable_value (snd kv)) seen -> good_length (headers_from seen) ->
     delivers rd t wire -> length wire < fuel ->
     exists q t', response_deserialize bld rd fuel t = (Ok q, t')
       /\ (forall k', hm_get k' (rs_headers q) = last_value k' seen)
       /\ body_reader (rs_body q) = bufr_new t'
       /\ delivers rd t' (map B (rest ++ CRLF ++ concat (headers_pieces h2) ++ CRLF) ++ zs)).
Proof.
  intros T bld rd fuel t ver st h1 h2 k v1 Hv Hst. assert (Hst' : (to_code st <= u32_max)%N) by (unfold u32_max; lia).
  destruct (status_line_ok ver st Hv Hst') as [L1 L2]. split.
  - intros name v2 zs wire seen Hh Hname Hv2 Hg D Hlen.
    destruct (inject_header_block h1 h2 k v1 name v2 Hh Hname Hv2) as (lines & Hw & Hl & Hacc). fold seen in Hacc.
    subst wire. rewrite response_pieces_wire in D, Hlen. cbn [rs_version rs_status rs_headers] in D, Hlen. rewrite Hw in D, Hlen.
    destruct (good_length_of _ Hg) as [n Hn].
    rewrite (app_assoc _ CRLF), (map_app B (_ ++ CRLF)), <- app_assoc in D, Hlen.
    destruct (response_delivers bld rd t _ fuel D Hlen) as (t' & D' & E).
    rewrite (resp_of_line bld _ _ _ L1 L2), (hdrs_accept_exact bld lines _ zs Hl Hacc) in *. cbn [sbind] in *. rewrite Hn in *.
    cbn in *. eexists _, t'. split; [exact E|]. split; auto. cbn. intros k'. apply headers_from_get.
  - intros rest zs wire seen Hh Hg D Hlen.
    destruct (inject_body_block h1 h2 k v1 rest Hh) as (lines & Hw & A1 & Hacc). fold seen in Hacc.
    subst wire. rewrite response_pieces_wire in D, Hlen. cbn [rs_version rs_status rs_headers] in D, Hlen. rewrite Hw in D, Hlen.
    destruct (good_length_of _ Hg) as [n Hn].
    rewrite (app_assoc _ CRLF), (map_app B (_ ++ CRLF)), <- app_assoc in D, Hlen.
    rewrite (map_app B (wire_lines _ ++ CRLF)), <- (app_assoc (map B (wire_lines _ ++ CRLF))) in D, Hlen.
    destruct (response_delivers bld rd t _ fuel D Hlen) as (t' & D' & E).
    rewrite (resp_of_line bld _ _ _ L1 L2), (hdrs_accept_exact bld _ _ _ A1 Hacc) in *. cbn [sbind] in *. rewrite Hn in *.
    cbn in *. eexists _, t'. split; [exact E|]. split; [cbn; intros k'; apply headers_from_get|]. split; auto. cbn. apply body_reader_new.
Qed.
Print Assumptions C27_response_splitting.

Lemma accepted_block_clean lines h : Forall text_line lines -> accepted_block lines h ->
  forall k v, hm_get k h = Some v -> no_crlf v /\ no_crlf k /\ ~ In COLON k.
Proof.
  intros Hl (logical & hs & Hfo & Hh & Hhq) k v Hg. rewrite Hhq, headers_from_get in Hg. apply last_value_in in Hg.
  assert (Hlog : Forall (fun l => no_crlf l /\ is_utf8 l) logical).
  { pose proof (folded_utf8 _ _ Hfo (text_utf8 _ Hl)) as Hu. clear -Hl Hfo Hu.
    induction Hfo as [|l conts rest logical H1 H2 H3 IH]; [constructor|]. inversion Hl as [|? ? Hl0 Hl']; subst.
    apply Forall_app in Hl' as [Hc Hr]. inversion Hu; subst. constructor; auto. split; auto. clear -Hl0 Hc H1.
    destruct Hl0 as (_ & Hn & _). revert l Hn. induction Hc as [|c conts (_ & Hnc & _) Hc IH]; intros l Hn; cbn [concat].
    - now rewrite app_nil_r.
    - inversion H1 as [|? ? (b & t & -> & Hb) H1']; subst. rewrite app_assoc. apply IH; auto.
      apply no_crlf_app; auto. destruct Hb as [->| ->]; easy. }
  clear -Hh Hg Hlog. induction Hh as [|l h ls hs (key & value & H1 & -> & ->) Hh IH]; [easy|]. inversion Hlog as [|? ? [Hn Hu] Hlog']; subst.
  destruct Hg as [[= <- <-]|Hg]; [|auto].
  assert (Huk : is_utf8 key /\ is_utf8 value).
  { apply is_utf8_valid in Hu. change (bs ": " ++ value) with (COLON :: SP :: value) in Hu. apply valid_split_ascii in Hu as [U1 U2]; [|easy].
    rewrite valid_ascii_cons in U2 by easy. now rewrite !is_utf8_valid. }
  assert (Hnv : no_crlf value /\ no_crlf key).
  { split; intros (a & b & ->); apply Hn.
    - exists (key ++ bs ": " ++ a), b. now rewrite <- !app_assoc.
    - exists a, (b ++ bs ": " ++ value). now rewrite <- !app_assoc. }
  split; [tauto|]. split; [now apply to_lowercase_crlf|]. intros Hc. apply H1. apply to_lowercase_special; auto; tauto || easy.
Qed.

(** No receiver ever sees a key or value containing CR LF, or a key containing a colon: a header added with one
    is never received as it was added. *)
Theorem C27_never_received :
  forall T bld (rd : reader T) fuel t xs t', delivers rd t xs -> length xs < fuel ->
  (forall q, request_deserialize bld rd fuel t = (Ok q, t') ->
   forall k v, hm_get k (rq_headers q) = Some v -> no_crlf v /\ no_crlf k /\ ~ In COLON k)
  /\ (forall q, response_deserialize bld rd fuel t = (Ok q, t') ->
   forall k v, hm_get k (rs_headers q) = Some v -> no_crlf v /\ no_crlf k /\ ~ In COLON k).
Proof.
  intros T bld rd fuel t xs t' D Hf. split; intros q H.
  - destruct (C30_request T bld rd fuel t xs q t' D Hf H) as (first & lines & cx & ys & _ & _ & _ & Hl & _ & Ha & _).
    eapply accepted_block_clean; eauto.
  - destruct (C30_response T bld rd fuel t xs q t' D Hf H) as (first & lines & cx & ys & _ & _ & _ & Hl & _ & Ha & _).
    eapply accepted_block_clean; eauto.
Qed.
Print Assumptions C27_never_received.

Example C27_case :
  let req h := mkRequest Get (bs "/") (mkVersion 1 1) h tt in
  let got h := match fst (request_deserialize Std seg_read 200 (text (concat (request_pieces (req h))))) with
               | Ok q => Some (rq_headers q, rq_body q) | _ => None end in
  got (headers_insert (bs "X-A") (bs "1" ++ CRLF ++ bs "Host: evil") []) =
    Some ([(bs "host", bs "evil"); (bs "x-a", bs "1")], BTilClose [])
  /\ got (headers_insert (bs "X-A") (bs "1" ++ CRLF ++ CRLF ++ bs "<b>") []) =
    Some ([(bs "x-a", bs "1")], BTilClose (text (bs "<b>" ++ CRLF ++ CRLF)))
  /\ got (headers_insert (bs "X-A") (bs "1") []) = Some ([(bs "x-a", bs "1")], BTilClose [])
  /\ (let r := mkResponse (mkVersion 1 1) OK (headers_insert (bs "X-A") (bs "1" ++ CRLF ++ CRLF ++ bs "<b>") []) tt in
      match fst (response_deserialize Std seg_read 200 (text (concat (response_pieces r)))) with
      | Ok q => Some (rs_headers q, rs_body q) | _ => None end)
     = Some ([(bs "x-a", bs "1")], BTilClose (bufr_new (text (bs "<b>" ++ CRLF ++ CRLF)))).
Proof. repeat split. Qed.

(** ** C28, C29. Heads are read back *)
Theorem C28_request_round_trip :
  forall T bld (rd : reader T) fuel t B0 (r : request B0) zs,
  let wire := map B (concat (request_pieces r)) ++ zs in
  sendable_uri (rq_uri r) -> small_version (rq_version r) -> sendable (rq_headers r) -> good_length (rq_headers r) ->
  delivers rd t wire -> length wire < fuel ->
  exists b t',
    request_deserialize bld rd fuel t = (Ok (mkRequest (rq_method r) (rq_uri r) (rq_version r) (rq_headers r) b), t')
    /\ framed (rq_headers r) t' b /\ delivers rd t' zs.
Proof.
  intros T bld rd fuel t B0 r zs wire Hu Hv Hs Hg D Hlen. subst wire. rewrite request_pieces_wire in D, Hlen.
  destruct (good_length_of _ Hg) as [n Hn].
  destruct (request_delivers bld rd t _ fuel D Hlen) as (t' & D' & E).
  rewrite (req_round_trip bld _ _ _ _ n zs Hu Hv Hs Hn) in *. cbn in *.
  eexists _, t'. split; [exact E|]. split; auto. now apply framed_new.
Qed.
Print Assumptions C28_request_round_trip.
Example C28_case :
  let r := mkRequest Put (bs "/a?b=1") (mkVersion 1 1) (headers_from [(bs "transfer-encoding", bs "chunked"); (bs "host", bs "h")]) tt in
  sendable_uri (rq_uri r) /\ small_version (rq_version r) /\ sendable (rq_headers r) /\ good_length (rq_headers r)
  /\ request_deserialize NoStd seg_read 200 (text (concat (request_pieces r)) ++ text (bs "0")) =
     (Ok (mkRequest Put (bs "/a?b=1") (mkVersion 1 1) (rq_headers r) (BChunked None (CStream (text (bs "0"))))), text (bs "0")).
Proof.
  cbv zeta. split; [|split; [|split; [|split]]].
  - repeat split; try easy.
    + now apply utf8_bs_ascii.
    + assert (H : forallb (fun b => negb (is_blank b)) (bs "/a?b=1") = true) by reflexivity. rewrite forallb_forall in H.
      apply Forall_forall. intros b Hb. apply H, negb_true_iff in Hb. now apply is_blank_false.
    + apply no_cr_no_crlf. cbn. intuition easy.
  - split; reflexivity.
  - apply sendable_check; [reflexivity|apply headers_from_sorted].
  - intros w H. vm_compute in H. discriminate.
  - reflexivity.
Qed.

Theorem C29_response_round_trip :
  forall T bld (rd : reader T) fuel t B0 (r : response B0) zs,
  let wire := map B (concat (response_pieces r)) ++ zs in
  small_version (rs_version r) -> (to_code (rs_status r) < 2 ^ 32)%N -> sendable (rs_headers r) -> good_length (rs_headers r) ->
  delivers rd t wire -> length wire < fuel ->
  exists st b t',
    response_deserialize bld rd fuel t = (Ok (mkResponse (rs_version r) st (rs_headers r) b), t')
    /\ to_code st = to_code (rs_status r)
    /\ ((forall c, rs_status r <> StUnknown c) -> st = rs_status r)
    /\ framed (rs_headers r) (bufr_new t') b /\ delivers rd t' zs.
Proof.
  intros T bld rd fuel t B0 r zs wire Hv Hc Hs Hg D Hlen. subst wire. rewrite response_pieces_wire in D, Hlen.
  destruct (good_length_of _ Hg) as [n Hn].
  destruct (response_delivers bld rd t _ fuel D Hlen) as (t' & D' & E).
  rewrite (resp_round_trip bld _ _ _ n zs Hv) in *; auto; try (unfold u32_max; lia). cbn in *.
  eexists _, _, t'. split; [exact E|]. split; [apply C18_from_to|]. split; [|split; auto; now apply framed_new].
  intros H. destruct (rs_status r); try reflexivity. now specialize (H c).
Qed.
Print Assumptions C29_response_round_trip.
Example C29_case :
  let r := mkResponse (mkVersion 1 0) (StUnknown 299) (headers_from [(bs "content-length", bs "3")]) tt in
  sendable (rs_headers r) /\ good_length (rs_headers r)
  /\ response_deserialize Std seg_read 200 (text (concat (response_pieces r)) ++ text (bs "abc")) =
     (Ok (mkResponse (mkVersion 1 0) (StUnknown 299) (rs_headers r) (BLimited 3 (bufr_new (text (bs "abc"))))), text (bs "abc")).
Proof.
  cbv zeta. split; [|split].
  - apply sendable_check; [reflexivity|apply headers_from_sorted].
  - intros w H. vm_compute in H. injection H as <-. exists 3%N. split; [reflexivity|]. left. split; [easy|].
    exists [3%N]. split; [|reflexivity]. repeat constructor; vm_compute; congruence.
  - reflexivity.
Qed.
