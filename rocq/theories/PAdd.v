(** Property C60: headers added to a request or a response by the caller. *)
From Verif Require Import Base Utf8 Case Num Io Parser Types Message Outgoing Client Transport.
From Verif Require Import Lemmas ReadLemmas NumLemmas ParserLemmas CaseLemmas
  TypesLemmas HeadLemmas BlockLemmas MsgLemmas PParse PHead PUrl.

(** The calls [add_header k1 v1], [add_header k2 v2], … in this order. *)
Definition add_all (l : list (bytes * bytes)) (r : request unit) : request unit :=
  fold_left (fun r kv => builder_add_header (fst kv) (snd kv) r) l r.
Definition respond_all {B} (l : list (bytes * bytes)) (r : response B) : response B :=
  fold_left (fun r kv => response_add_header (fst kv) (snd kv) r) l r.

(** What was added last under the name [k], names compared without regard to case. *)
Fixpoint added (k : bytes) (l : list (bytes * bytes)) : option bytes :=
  match l with
  | [] => None
  | (k', v) :: t =>
      match added k t with
      | Some w => Some w
      | None => if beqb (to_lowercase k) (to_lowercase k') then Some v else None
      end
  end.

(** Names and values that cannot break the header block (see C27 for those that can). *)
Definition safe_headers (l : list (bytes * bytes)) : Prop := Forall (fun kv => safe_key (fst kv) /\ sendable_value (snd kv)) l.

(** A Content-Length among them, if any, is a number. *)
Definition good_added_length (l : list (bytes * bytes)) : Prop :=
  forall w, added (bs "Content-Length") l = Some w -> exists n, u64_text w n.

Lemma inserts_sendable l : forall m, safe_headers l -> sendable m -> sendable (inserts l m).
Proof.
  induction l as [|[k v] l IH]; intros m Hl Hm; auto. inversion Hl as [|? ? [Hk Hv] Hl']; subst.
  cbn [inserts fold_left fst snd]. apply IH; auto. now apply headers_insert_sendable.
Qed.
Lemma inserts_get l : forall m k, sorted m ->
  headers_get k (inserts l m) = match added k l with Some v => Some v | None => headers_get k m end.
Proof.
  induction l as [|[k' v] l IH]; intros m k Hm; auto. cbn [inserts fold_left fst snd added]. fold (inserts l (headers_insert k' v m)).
  rewrite IH by now apply hm_insert_sorted. destruct (added k l); auto.
  unfold headers_get, headers_insert. rewrite hm_get_insert by auto. now destruct (beqb _ _).
Qed.
Lemma add_all_request l : forall r,
  add_all l r = mkRequest (rq_method r) (rq_uri r) (rq_version r) (inserts l (rq_headers r)) (rq_body r).
Proof.
  induction l as [|[k v] l IH]; intros [m u ver h b]; auto. cbn [add_all fold_left fst snd inserts]. fold (add_all l (builder_add_header k v (mkRequest m u ver h b))).
  now rewrite IH.
Qed.
Lemma respond_all_response {B} l : forall r : response B,
  respond_all l r = mkResponse (rs_version r) (rs_status r) (inserts l (rs_headers r)) (rs_body r).
Proof.
  induction l as [|[k v] l IH]; intros [ver st h b]; auto. cbn [respond_all fold_left fst snd inserts].
  fold (respond_all l (response_add_header k v (mkResponse ver st h b))). now rewrite IH.
Qed.

Lemma client_headers_sendable m host : sendable_value host -> sendable (client_headers m host).
Proof.
  intros Hh. split.
  - replace (client_headers m host) with (headers_from (client_headers m host)) by (destruct m; reflexivity).
    apply headers_from_sorted.
  - assert (Hone : sendable_value (bs "*/*") /\ sendable_value (bs "chunked") /\ sendable_value (bs "http_io")).
    { repeat split; try (apply utf8_bs_ascii; reflexivity); apply no_cr_no_crlf; cbn; intuition easy. }
    assert (Hk : forall k, In k [bs "accept"; bs "host"; bs "transfer-encoding"; bs "user-agent"] -> sendable_key k).
    { intros k Hin. cbn [In] in Hin.
      destruct Hin as [<-|[<-|[<-|[<-|[]]]]]; (repeat split;
        [apply utf8_bs_ascii; reflexivity|cbn; intuition easy|apply no_cr_no_crlf; cbn; intuition easy
        |intros (b & s & Eb & Hb); injection Eb as <- _; destruct Hb; easy]). }
    destruct Hone as (O1 & O2 & O3). cbn [In] in Hk.
    destruct m; cbn [client_headers app];
      repeat (apply Forall_cons; [split; cbn [fst snd]; [apply Hk; auto 6|assumption]|]); apply Forall_nil.
Qed.

(** The request a server reads when the caller has added headers: for every name the last value added, else the
    builder's own; nothing else changes. In particular added headers replace the builder's. *)
Theorem C60_request :
  forall T bld (rd : reader T) fuel t u m h r0 l zs,
  http_url_of u = Ok h -> builder_new u m = Ok r0 ->
  (u_path u = [] \/ sendable_uri (u_path u)) -> sendable_value (hu_host h) ->
  safe_headers l -> good_added_length l ->
  let wire := map B (concat (request_pieces (add_all l r0))) ++ zs in
  delivers rd t wire -> length wire < fuel ->
  exists q t', request_deserialize bld rd fuel t = (Ok q, t') /\ delivers rd t' zs
    /\ rq_method q = m /\ rq_uri q = (match u_path u with [] => bs "/" | p => p end) /\ rq_version q = mkVersion 1 1
    /\ (forall k, headers_get k (rq_headers q)
          = match added k l with Some v => Some v | None => headers_get k (client_headers m (hu_host h)) end)
    /\ framed (rq_headers q) t' (rq_body q).
Proof.
  intros T bld rd fuel t u m h r0 l zs Eu Er Hp Hh Hl Hn wire D Hlen. subst wire.
  rewrite (builder_request u m h Eu) in Er. injection Er as <-. rewrite add_all_request in *.
  cbn [rq_method rq_uri rq_version rq_headers rq_body] in *.
  pose proof (client_headers_sendable m (hu_host h) Hh) as Hc.
  assert (Hu : sendable_uri (match u_path u with [] => bs "/" | _ => u_path u end)).
  { destruct Hp as [->|Hp].
    - split; [easy|]. split; [now apply utf8_bs_ascii|]. split.
      + constructor; [|constructor]. intros [H|H]; easy.
      + apply no_cr_no_crlf; cbn; intuition easy.
    - destruct (u_path u) eqn:Epath; [now destruct Hp|]. now rewrite <- Epath in *. }
  set (r := mkRequest m (match u_path u with [] => bs "/" | _ => u_path u end) v11 (inserts l (client_headers m (hu_host h))) tt) in *.
  assert (Hs : sendable (rq_headers r)) by now apply inserts_sendable.
  assert (Hg : good_length (rq_headers r)).
  { intros w Hw. change (hm_get (bs "content-length") (rq_headers r)) with (headers_get (bs "Content-Length") (rq_headers r)) in Hw.
    cbn [r rq_headers] in Hw. rewrite inserts_get in Hw by apply Hc. destruct (added _ l) eqn:Ea; [injection Hw as <-; now apply Hn|].
    now destruct m. }
  destruct (C28_request_round_trip T bld rd fuel t unit r zs Hu ltac:(split; reflexivity) Hs Hg D Hlen) as (b & t' & E & Hf & D').
  eexists _, t'. split; [exact E|]. split; auto. cbn [rq_method rq_uri rq_version rq_headers rq_body r].
  repeat (split; [auto; fail|]). split; [now destruct (u_path u)|]. split; auto. split; [|exact Hf].
  intros k. apply inserts_get, Hc.
Qed.
Print Assumptions C60_request.

(** A response made with [HttpResponse::new] and [add_header] calls is read back with exactly the headers added. *)
Theorem C60_response :
  forall T bld (rd : reader T) fuel t B0 (body : B0) st l zs,
  (to_code st < 2 ^ 32)%N -> safe_headers l -> good_added_length l ->
  let wire := map B (concat (response_pieces (respond_all l (response_new st body)))) ++ zs in
  delivers rd t wire -> length wire < fuel ->
  exists q t', response_deserialize bld rd fuel t = (Ok q, t') /\ delivers rd t' zs
    /\ rs_version q = mkVersion 1 1 /\ to_code (rs_status q) = to_code st
    /\ (forall k, headers_get k (rs_headers q) = added k l)
    /\ framed (rs_headers q) (bufr_new t') (rs_body q).
Proof.
  intros T bld rd fuel t B0 body st l zs Hst Hl Hn wire D Hlen. subst wire.
  rewrite respond_all_response in *. cbn [response_new rs_version rs_status rs_headers rs_body] in *.
  set (r := mkResponse v11 st (inserts l headers_new) (BTilClose (bufr_new body))) in *.
  assert (Hnew : sendable headers_new) by (split; constructor).
  assert (Hs : sendable (rs_headers r)) by now apply inserts_sendable.
  assert (Hget : forall k, headers_get k (inserts l headers_new) = added k l).
  { intros k. rewrite inserts_get by constructor. now destruct (added k l). }
  assert (Hg : good_length (rs_headers r)).
  { intros w Hw. change (hm_get (bs "content-length") (rs_headers r)) with (headers_get (bs "Content-Length") (rs_headers r)) in Hw.
    cbn [r rs_headers] in Hw. rewrite Hget in Hw. now apply Hn. }
  destruct (C29_response_round_trip T bld rd fuel t _ r zs ltac:(split; reflexivity) Hst Hs Hg D Hlen) as (st' & b & t' & E & Hc & _ & Hf & D').
  eexists _, t'. split; [exact E|]. auto 10.
Qed.
Print Assumptions C60_response.

(** Replacing the builder's Transfer-Encoding takes the framing away: the body is still sent in chunks, but the
    server sees a body of unknown length and refuses it (C47), unless a Content-Length was added, in which case it
    takes that many bytes of the chunked text for the body. *)
Theorem C60_framing_lost :
  forall T bld (rd : reader T) fuel t u m h r0 l zs enc,
  http_url_of u = Ok h -> builder_new u m = Ok r0 ->
  (u_path u = [] \/ sendable_uri (u_path u)) -> sendable_value (hu_host h) ->
  safe_headers l -> good_added_length l -> added (bs "Transfer-Encoding") l = Some enc -> enc <> bs "chunked" ->
  let wire := map B (concat (request_pieces (add_all l r0))) ++ zs in
  delivers rd t wire -> length wire < fuel ->
  exists q t', request_deserialize bld rd fuel t = (Ok q, t') /\ delivers rd t' zs
    /\ ((added (bs "Content-Length") l = None /\ rq_body q = BTilClose t' /\ require_length (rq_body q) = Err LengthRequired)
        \/ exists v n, added (bs "Content-Length") l = Some v /\ u64_text v n /\ rq_body q = BLimited n t').
Proof.
  intros T bld rd fuel t u m h r0 l zs enc Eu Er Hp Hh Hl Hn He Hne wire D Hlen. subst wire.
  destruct (C60_request T bld rd fuel t u m h r0 l zs Eu Er Hp Hh Hl Hn D Hlen) as (q & t' & E & D' & _ & _ & _ & Hget & len & Hf1 & Hf2).
  exists q, t'. split; auto. split; auto.
  pose proof (Hget (bs "Transfer-Encoding")) as Ht. rewrite He in Ht.
  pose proof (Hget (bs "Content-Length")) as Hc.
  change (headers_get (bs "Transfer-Encoding") (rq_headers q)) with (hm_get (bs "transfer-encoding") (rq_headers q)) in Ht.
  change (headers_get (bs "Content-Length") (rq_headers q)) with (hm_get (bs "content-length") (rq_headers q)) in Hc.
  destruct Hf2 as [[Hf2 _]|[_ Hb]]; [congruence|].
  assert (Hcl : headers_get (bs "Content-Length") (client_headers m (hu_host h)) = None) by now destruct m.
  rewrite Hcl in Hc.
  destruct Hf1 as [[Hf1 ->]|(v & n & Hf1 & Hu & ->)]; rewrite Hf1 in Hc.
  - left. rewrite Hb. now destruct (added (bs "Content-Length") l).
  - right. exists v, n. destruct (added (bs "Content-Length") l); [|easy]. injection Hc as <-. auto.
Qed.
Print Assumptions C60_framing_lost.

Example C60_case :
  let url := C45_url in
  let l := [(bs "Accept", bs "text/html"); (bs "X-Id", bs "1"); (bs "x-ID", bs "2")] in
  safe_headers l /\ good_added_length l
  /\ (exists r, builder_new url Put = Ok r /\ concat (request_pieces (add_all l r)) =
       bs "PUT /a/b HTTP/1.1" ++ CRLF ++ bs "accept: text/html" ++ CRLF ++ bs "host: example.com" ++ CRLF
       ++ bs "transfer-encoding: chunked" ++ CRLF ++ bs "user-agent: http_io" ++ CRLF ++ bs "x-id: 2" ++ CRLF ++ CRLF)
  /\ concat (response_pieces (respond_all l (response_new NotFound tt))) =
       bs "HTTP/1.1 404 Not Found" ++ CRLF ++ bs "accept: text/html" ++ CRLF ++ bs "x-id: 2" ++ CRLF ++ CRLF
  /\ (exists r q t, builder_new url Put = Ok r
        /\ request_deserialize Std seg_read 300 (text (concat (request_pieces (add_all [(bs "TRANSFER-encoding", bs "gzip")] r)))) = (Ok q, t)
        /\ rq_body q = BTilClose t).
Proof.
  cbv zeta. split; [|split; [|split; [|split; [reflexivity|]]]].
  - repeat constructor; cbn [fst snd]; try (apply utf8_bs_ascii; reflexivity); try (apply no_cr_no_crlf; cbn; intuition easy);
      try (intros (b & s & Eb & Hb); injection Eb as <- _; destruct Hb; easy); cbn; intuition easy.
  - intros w H. now vm_compute in H.
  - eexists. split; reflexivity.
  - eexists _, _, _. split; [reflexivity|]. split; [vm_compute; reflexivity|]. reflexivity.
Qed.
