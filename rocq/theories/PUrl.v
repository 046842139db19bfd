(** Properties C37 and C45: URLs, and the head the client builds from one. *)
From Verif Require Import Base Utf8 Case Num Io Parser Types Message Outgoing Client Transport.
From Verif Require Import Lemmas ReadLemmas NumLemmas Utf8Lemmas ParserLemmas CaseLemmas TypesLemmas HeadLemmas
  BlockLemmas MsgLemmas PHead.

(** ** C45. URLs *)
(** What the url crate guarantees of a parsed URL (trusted): the scheme is in lower case, and http
    and https URLs have a host. *)
Definition crate_url (u : url) : Prop :=
  to_lowercase (u_scheme u) = u_scheme u
  /\ (In (u_scheme u) [bs "http"; bs "https"] -> u_host u <> None).

Lemma parse_scheme_cases s :
  (to_lowercase s = bs "http" /\ parse_scheme s = Http) \/ (to_lowercase s = bs "https" /\ parse_scheme s = Https)
  \/ (~ In (to_lowercase s) [bs "http"; bs "https"] /\ parse_scheme s <> Http /\ parse_scheme s <> Https).
Proof.
  unfold parse_scheme. destruct (beqb (to_lowercase s) (bs "http")) eqn:E1; [apply beqb_true in E1; auto|].
  destruct (beqb (to_lowercase s) (bs "https")) eqn:E2; [apply beqb_true in E2; auto|].
  right. right. split.
  - cbn [In]. intros [H|[H|[]]]; rewrite <- H in *; rewrite beqb_refl in *; easy.
  - now destruct (beqb (to_lowercase s) (bs "file")).
Qed.

(** Without any assumption on the URL: *)
Theorem C45_conversion : forall u,
  let web := In (to_lowercase (u_scheme u)) [bs "http"; bs "https"] in
  (forall h, http_url_of u = Ok h <->
     web /\ hu_url h = u /\ u_host u = Some (hu_host h) /\ show_scheme (hu_scheme h) = to_lowercase (u_scheme u)
     /\ (hu_scheme h = Http \/ hu_scheme h = Https))
  /\ (http_url_of u = Panic <-> web /\ u_host u = None)
  /\ (http_url_of u = Err UrlError <-> ~ web)
  /\ (forall e, http_url_of u = Err e -> e = UrlError)
  /\ http_url_of u <> Fuel.
Proof.
  intros u web. subst web. unfold http_url_of.
  destruct (parse_scheme_cases (u_scheme u)) as [(-> & ->)|[(-> & ->)|(Hn & N1 & N2)]].
  1, 2: destruct (u_host u) as [x|] eqn:Eh.
  1-4: split; [|split; [|split; [|split]]]; [intros h; split|split|split| |]; cbn [In];
    try (intros H; inversion H; subst; cbn; intuition congruence); try tauto; try easy; try (intros [_ H]; easy).
  - destruct h as [a b c]. cbn. intros (_ & -> & [= ->] & Hs & [-> | ->]); [easy|]. vm_compute in Hs. easy.
  - destruct h as [a b c]. cbn. intros (_ & -> & [= ->] & Hs & [-> | ->]); [|easy]. vm_compute in Hs. easy.
  - destruct (parse_scheme (u_scheme u)); try easy;
      (split; [intros h|]; intuition congruence).
Qed.
Print Assumptions C45_conversion.

(** For the URLs the url crate produces: accepted exactly when http or https, never a panic, and the
    port is the explicit one or the default. *)
Theorem C45_crate_urls : forall u, crate_url u ->
  ((exists h, http_url_of u = Ok h) <-> u_scheme u = bs "http" \/ u_scheme u = bs "https")
  /\ http_url_of u <> Panic
  /\ forall h, http_url_of u = Ok h -> hu_port h = Ok
       match u_port u with Some p => p | None => if beqb (u_scheme u) (bs "http") then 80%N else 443%N end.
Proof.
  intros u [Hl Hh]. destruct (C45_conversion u) as (H1 & H2 & H3 & _). rewrite Hl in *. split; [|split].
  - split.
    + intros [h E]. apply H1 in E as [[E|[E|[]]] _]; auto.
    + intros E. assert (Hin : In (u_scheme u) [bs "http"; bs "https"]) by (cbn; destruct E; auto).
      destruct (u_host u) as [x|] eqn:Ex; [|now apply Hh in Hin].
      exists (mkHttpUrl u (if beqb (u_scheme u) (bs "http") then Http else Https) x). apply H1. repeat split; auto.
      * destruct E as [->| ->]; reflexivity.
      * cbn. destruct (beqb _ _); auto.
  - intros E. apply H2 in E as [Hin E]. now apply Hh in Hin.
  - intros h E. apply H1 in E as (Hin & Hu & _). unfold hu_port, known_port. rewrite Hu. destruct (u_port u); [easy|].
    cbn [In] in Hin. destruct Hin as [E|[E|[]]]; rewrite <- E; reflexivity.
Qed.
Print Assumptions C45_crate_urls.

(** The scheme's printed form parses back to it. *)
Theorem C45_scheme : forall s, parse_scheme (show_scheme (parse_scheme s)) = parse_scheme s.
Proof.
  intros s. unfold parse_scheme at 2 3. destruct (beqb (to_lowercase s) (bs "http")) eqn:E1; [reflexivity|].
  destruct (beqb (to_lowercase s) (bs "https")) eqn:E2; [reflexivity|].
  destruct (beqb (to_lowercase s) (bs "file")) eqn:E3; [reflexivity|].
  cbn [show_scheme]. unfold parse_scheme. rewrite to_lowercase_idem. now rewrite E1, E2, E3.
Qed.
Print Assumptions C45_scheme.

Definition C45_url : url := mkUrl (bs "https") (Some (bs "example.com")) None (bs "/a/b") (Some (bs "q=1")).
Example C45_case :
  crate_url C45_url
  /\ http_url_of C45_url = Ok (mkHttpUrl C45_url Https (bs "example.com"))
  /\ hu_port (mkHttpUrl C45_url Https (bs "example.com")) = Ok 443%N
  /\ crate_url (mkUrl (bs "ftp") (Some (bs "h")) None (bs "/") None)
  /\ http_url_of (mkUrl (bs "ftp") (Some (bs "h")) None (bs "/") None) = Err UrlError
  /\ http_url_of (mkUrl (bs "HTTP") None None (bs "/") None) = Panic.
Proof. repeat split; try reflexivity; cbn; easy. Qed.

(** ** C37. The request head the client sends *)
Definition client_head (m : method) (path host : bytes) : bytes :=
  show_method m ++ bs " " ++ (match path with [] => bs "/" | _ => path end) ++ bs " HTTP/1.1" ++ CRLF
  ++ bs "accept: */*" ++ CRLF
  ++ bs "host: " ++ host ++ CRLF
  ++ (match m with Delete | Post | Put => bs "transfer-encoding: chunked" ++ CRLF | _ => [] end)
  ++ bs "user-agent: http_io" ++ CRLF
  ++ CRLF.

Definition client_headers (m : method) (host : bytes) : list (bytes * bytes) :=
  [(bs "accept", bs "*/*"); (bs "host", host)]
  ++ (match m with Delete | Post | Put => [(bs "transfer-encoding", bs "chunked")] | _ => [] end)
  ++ [(bs "user-agent", bs "http_io")].

Lemma builder_request u m h : http_url_of u = Ok h ->
  builder_new u m = Ok (mkRequest m (match u_path u with [] => bs "/" | _ => u_path u end) v11
                          (client_headers m (hu_host h)) tt).
Proof.
  intros E. destruct (C45_conversion u) as (H1 & _). pose proof (proj1 (H1 h) E) as (_ & Hu & _).
  unfold builder_new. rewrite E, Hu. destruct m; reflexivity.
Qed.

(** The builder succeeds exactly on accepted URLs; the bytes of its request are fixed by method, path
    and host: in particular neither the query nor the port nor the scheme appears. *)
Theorem C37_head : forall u m,
  (forall h, http_url_of u = Ok h ->
     exists r, builder_new u m = Ok r /\ concat (request_pieces r) = client_head m (u_path u) (hu_host h))
  /\ (forall e, http_url_of u = Err e -> builder_new u m = Err ParseError)
  /\ (http_url_of u = Panic -> builder_new u m = Panic).
Proof.
  intros u m. split; [|split].
  - intros h E. rewrite (builder_request u m h E). eexists. split; [reflexivity|].
    rewrite request_pieces_wire, headers_pieces_wire. unfold client_head, request_line_of, client_headers, wire_lines.
    cbn [rq_method rq_uri rq_version rq_headers]. destruct m; cbn [flat_map map app];
      unfold header_line; cbn [fst snd]; rewrite <- !app_assoc; cbn [app bs]; rewrite <- ?app_assoc; reflexivity.
  - intros e E. unfold builder_new. now rewrite E.
  - intros E. unfold builder_new. now rewrite E.
Qed.
Print Assumptions C37_head.

Theorem C37_query_and_port_dropped : forall sch host path m p1 p2 q1 q2,
  builder_new (mkUrl sch host p1 path q1) m = builder_new (mkUrl sch host p2 path q2) m.
Proof.
  intros. unfold builder_new, http_url_of. cbn [u_scheme u_host].
  destruct (parse_scheme sch); auto; destruct host; auto.
Qed.
Print Assumptions C37_query_and_port_dropped.

(** A server reads back method, path and exactly these headers, when path and host hold no blank,
    CRLF or invalid UTF-8 (the url crate percent-encodes those). *)
Theorem C37_parsed : forall T bld (rd : reader T) fuel t u m h r zs,
  http_url_of u = Ok h -> builder_new u m = Ok r ->
  (u_path u = [] \/ sendable_uri (u_path u)) -> sendable_value (hu_host h) ->
  let wire := map B (client_head m (u_path u) (hu_host h)) ++ zs in
  delivers rd t wire -> length wire < fuel ->
  exists q t', request_deserialize bld rd fuel t = (Ok q, t') /\ delivers rd t' zs
    /\ rq_method q = m /\ rq_uri q = (match u_path u with [] => bs "/" | p => p end)
    /\ rq_version q = mkVersion 1 1 /\ rq_headers q = client_headers m (hu_host h)
    /\ match m, rq_body q with
       | (Delete | Post | Put), BChunked _ _ => True
       | (Get | Head | Options | Trace), BTilClose _ => True
       | _, _ => False
       end.
Proof.
  intros T bld rd fuel t u m h r zs Eu Er Hp Hh wire D Hlen. subst wire.
  destruct (C37_head u m) as [C _]. destruct (C h Eu) as (r' & Er' & Ew). rewrite Er in Er'. injection Er' as <-.
  rewrite <- Ew in D, Hlen. rewrite (builder_request u m h Eu) in Er. injection Er as <-.
  rewrite request_pieces_wire in D, Hlen. cbn [rq_method rq_uri rq_version rq_headers] in D, Hlen.
  destruct (request_delivers bld rd t _ fuel D Hlen) as (t' & D' & E).
  assert (Hs : sendable (client_headers m (hu_host h))).
  { split.
    - replace (client_headers m (hu_host h)) with (headers_from (client_headers m (hu_host h))) by (destruct m; reflexivity).
      apply headers_from_sorted.
    - assert (Hone : sendable_value (bs "*/*") /\ sendable_value (bs "chunked") /\ sendable_value (bs "http_io")).
      { repeat split; try (apply utf8_bs_ascii; reflexivity); apply no_cr_no_crlf; cbn; intuition easy. }
      assert (Hk : forall k, In k [bs "accept"; bs "host"; bs "transfer-encoding"; bs "user-agent"] -> sendable_key k).
      { intros k Hin. cbn [In] in Hin.
        destruct Hin as [<-|[<-|[<-|[<-|[]]]]]; (repeat split;
          [apply utf8_bs_ascii; reflexivity|cbn; intuition easy|apply no_cr_no_crlf; cbn; intuition easy
          |intros (b & s & Eb & Hb); injection Eb as <- _; destruct Hb; easy]). }
      destruct Hone as (O1 & O2 & O3). cbn [In] in Hk.
      destruct m; cbn [client_headers app];
        repeat (apply Forall_cons; [split; cbn [fst snd]; [apply Hk; auto 6|assumption]|]); apply Forall_nil. }
  assert (Hu : sendable_uri (match u_path u with [] => bs "/" | _ => u_path u end)).
  { destruct Hp as [->|Hp].
    - split; [easy|]. split; [now apply utf8_bs_ascii|]. split.
      + constructor; [|constructor]. intros [H|H]; easy.
      + apply no_cr_no_crlf; cbn; intuition easy.
    - destruct (u_path u) eqn:Epath; [now destruct Hp|]. now rewrite <- Epath in *. }
  assert (Hn : content_length_of (client_headers m (hu_host h)) = Ok None) by (destruct m; reflexivity).
  rewrite (req_round_trip bld m _ v11 _ None zs Hu ltac:(split; reflexivity) Hs Hn) in *. cbn [fst snd rbind] in E, D'.
  assert (Ht : headers_get (bs "Transfer-Encoding") (client_headers m (hu_host h))
    = match m with Delete | Post | Put => Some (bs "chunked") | _ => None end) by (destruct m; vm_compute; reflexivity).
  rewrite Ht in E. clear Ht Hn Hs Hu. unfold req_with in E. cbn [qh_method qh_uri qh_version qh_headers qh_encoding qh_length] in E.
  eexists _, t'. split; [exact E|]. split; auto. cbn [rq_method rq_uri rq_version rq_headers rq_body].
  repeat split; auto; [now destruct (u_path u)|]. destruct m; exact I.
Qed.
Print Assumptions C37_parsed.

Example C37_case :
  http_url_of C45_url = Ok (mkHttpUrl C45_url Https (bs "example.com"))
  /\ builder_new C45_url Put = Ok (mkRequest Put (bs "/a/b") v11
       [(bs "accept", bs "*/*"); (bs "host", bs "example.com"); (bs "transfer-encoding", bs "chunked");
        (bs "user-agent", bs "http_io")] tt)
  /\ sendable_uri (u_path C45_url) /\ sendable_value (bs "example.com")
  /\ client_head Put (bs "/a/b") (bs "example.com") =
       bs "PUT /a/b HTTP/1.1" ++ CRLF ++ bs "accept: */*" ++ CRLF ++ bs "host: example.com" ++ CRLF
       ++ bs "transfer-encoding: chunked" ++ CRLF ++ bs "user-agent: http_io" ++ CRLF ++ CRLF.
Proof.
  split; [reflexivity|]. split; [reflexivity|]. split; [|split; [|reflexivity]].
  - split; [easy|]. split; [now apply utf8_bs_ascii|]. split.
    + repeat constructor; intros [H|H]; easy.
    + apply no_cr_no_crlf. cbn. intuition easy.
  - split; [now apply utf8_bs_ascii|]. apply no_cr_no_crlf. cbn. intuition easy.
Qed.
