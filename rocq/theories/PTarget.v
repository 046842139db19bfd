(** The URL that the client asks for, and the one its request names (RFC 7230 sections 5.3 to 5.5): C80. *)
From Verif Require Import Base Utf8 Case Num Io Parser Types Message Outgoing Client Transport Lemmas ReadLemmas NumLemmas Utf8Lemmas ParserLemmas
  CaseLemmas TypesLemmas HeadLemmas BlockLemmas MsgLemmas PHead PUrl PCommands.

(** ** What a request names *)
(** RFC 7230 section 5.5: the effective request URI of a request with this target (of the form that starts with a slash) and these
    fields, which arrived over TLS or not: the scheme, the value of the only Host field, and the target. *)
Definition effective (tls : bool) (target : bytes) (fields : list (bytes * bytes)) (w : bytes) : Prop :=
  exists h, (forall v, In (bs "host", v) fields <-> v = h)
    /\ w = (if tls then bs "https" else bs "http") ++ bs "://" ++ h ++ target.

(** RFC 3986 section 3 and RFC 7230 section 2.7: the text of an http or https URL without user information and fragment (which are not sent). The port is
    left out when it is the scheme's own, and an empty path is a slash. *)
Definition own_port (u : url) : N := if beqb (u_scheme u) (bs "http") then 80%N else 443%N.
(** The port as part of the text. *)
Definition port_text (u : url) : bytes :=
  match u_port u with Some p => if (p =? own_port u)%N then [] else bs ":" ++ show_dec p | None => [] end.
(** The query as part of the text. *)
Definition query_text (u : url) : bytes := match u_query u with Some q => bs "?" ++ q | None => [] end.
(** The path as part of the text. *)
Definition path_text (u : url) : bytes := match u_path u with [] => bs "/" | p => p end.
(** The whole. *)
Definition url_text (u : url) (host : bytes) : bytes :=
  u_scheme u ++ bs "://" ++ host ++ port_text u ++ path_text u ++ query_text u.

Lemma effective_only tls target fields w w' : effective tls target fields w -> effective tls target fields w' -> w = w'.
Proof. intros (h & Hh & ->) (h' & Hh' & ->). assert (E : h = h') by (now apply Hh', Hh). now rewrite E. Qed.

Lemma client_host m host v : In (bs "host", v) (client_headers m host) <-> v = host.
Proof.
  unfold client_headers. split.
  - intros H. apply in_app_or in H as [H|H].
    + destruct H as [H|[H|[]]]; [discriminate H|now injection H].
    + apply in_app_or in H as [H|[H|[]]]; [|discriminate H]. destruct m; destruct H as [H|[]] || destruct H; discriminate H.
  - intros ->. apply in_or_app. left. right. now left.
Qed.

Lemma texts_empty u : (port_text u ++ path_text u) ++ query_text u = path_text u <-> port_text u = [] /\ u_query u = None.
Proof.
  split.
  - intros E. apply (f_equal (@length byte)) in E. rewrite !app_length in E.
    assert (K : length (port_text u) = 0 /\ length (query_text u) = 0) by lia. destruct K as [K1 K2].
    split; [now destruct (port_text u)|]. unfold query_text in K2. destruct (u_query u); [cbn in K2; lia|easy].
  - intros [E1 E2]. unfold query_text. rewrite E1, E2. now rewrite app_nil_r.
Qed.

Lemma port_empty u : port_text u = [] <-> u_port u = None \/ u_port u = Some (own_port u).
Proof.
  unfold port_text. destruct (u_port u) as [p|]; [|tauto]. destruct (N.eqb_spec p (own_port u)) as [->|Hn]; [tauto|].
  split; [cbn; easy|intros [H|H]; congruence].
Qed.

(** ** C80 *)
(** For every URL the url crate produces, every method and every way in which the bytes arrive: a server that reads the client's
    request knows the scheme from the connection, and takes the request to be for scheme, host and path, and nothing else. That is
    the URL of the caller if and only if it has no query and its port is the scheme's own. *)
Theorem C80_effective : forall T bld (rd : reader T) fuel t u m h r zs,
  crate_url u -> http_url_of u = Ok h -> builder_new u m = Ok r ->
  (u_path u = [] \/ sendable_uri (u_path u)) -> sendable_value (hu_host h) ->
  let wire := map B (concat (request_pieces r)) ++ zs in
  delivers rd t wire -> length wire < fuel ->
  exists q t', request_deserialize bld rd fuel t = (Ok q, t')
    /\ (forall w, effective (beqb (u_scheme u) (bs "https")) (rq_uri q) (rq_headers q) w <-> w = u_scheme u ++ bs "://" ++ hu_host h ++ path_text u)
    /\ (effective (beqb (u_scheme u) (bs "https")) (rq_uri q) (rq_headers q) (url_text u (hu_host h))
        <-> u_query u = None /\ (u_port u = None \/ u_port u = Some (own_port u))).
Proof.
  intros T bld rd fuel t u m h r zs Hc Eu Er Hp Hh wire D Hlen. subst wire.
  destruct (C37_head u m) as [C _]. destruct (C h Eu) as (r' & Er' & Ew). rewrite Er in Er'. injection Er' as <-. rewrite Ew in D, Hlen.
  destruct (C37_parsed T bld rd fuel t u m h r zs Eu Er Hp Hh D Hlen) as (q & t' & E & _ & _ & Euri & _ & Ehd & _).
  exists q, t'. split; auto.
  assert (Hs : (if beqb (u_scheme u) (bs "https") then bs "https" else bs "http") = u_scheme u).
  { destruct (C45_crate_urls u Hc) as ([H1 _] & _). destruct H1 as [->| ->]; [now exists h| |]; reflexivity. }
  assert (He : forall w, effective (beqb (u_scheme u) (bs "https")) (rq_uri q) (rq_headers q) w
                         <-> w = u_scheme u ++ bs "://" ++ hu_host h ++ path_text u).
  { intros w. assert (Hx : effective (beqb (u_scheme u) (bs "https")) (rq_uri q) (rq_headers q) (u_scheme u ++ bs "://" ++ hu_host h ++ path_text u)).
    { exists (hu_host h). split; [intros v; rewrite Ehd; apply client_host|]. rewrite Hs, Euri. reflexivity. }
    split; [intros K; now apply (effective_only _ _ _ _ _ K)|now intros ->]. }
  split; auto. rewrite He, <- port_empty, (and_comm (u_query u = None)), <- texts_empty. unfold url_text.
  rewrite <- app_assoc. split; [intros K; now apply app_inv_head, app_inv_head, app_inv_head in K|now intros ->].
Qed.
Print Assumptions C80_effective.

(** Two requests are the same bytes exactly if method, path and host agree: no server can tell apart URLs that differ in query,
    port, or scheme. *)
Theorem C80_same : forall u1 u2 m1 m2 h1 h2 r1 r2,
  http_url_of u1 = Ok h1 -> http_url_of u2 = Ok h2 -> builder_new u1 m1 = Ok r1 -> builder_new u2 m2 = Ok r2 ->
  (u_path u1 = [] \/ sendable_uri (u_path u1)) -> sendable_value (hu_host h1) ->
  (u_path u2 = [] \/ sendable_uri (u_path u2)) -> sendable_value (hu_host h2) ->
  (concat (request_pieces r1) = concat (request_pieces r2) <-> m1 = m2 /\ path_text u1 = path_text u2 /\ hu_host h1 = hu_host h2).
Proof.
  intros u1 u2 m1 m2 h1 h2 r1 r2 E1 E2 R1 R2 P1 V1 P2 V2.
  assert (Hw : forall u m h r, http_url_of u = Ok h -> builder_new u m = Ok r -> concat (request_pieces r) = client_head m (u_path u) (hu_host h)).
  { intros u m h r Eu Er. destruct (C37_head u m) as [C _]. destruct (C h Eu) as (r' & Er' & Ew). congruence. }
  rewrite (Hw u1 m1 h1 r1), (Hw u2 m2 h2 r2) by auto. split.
  - intros E. set (s := client_head m1 (u_path u1) (hu_host h1)) in *.
    assert (D : delivers slice_read s (map B s ++ [])) by (rewrite app_nil_r; apply slice_delivers).
    destruct (C37_parsed bytes Std slice_read (S (length (map B s ++ []))) s u1 m1 h1 r1 [] E1 R1 P1 V1 D ltac:(unfold lt; fold s; reflexivity))
      as (q1 & t1 & Q1 & _ & M1 & U1 & _ & H1 & _).
    rewrite E in D.
    destruct (C37_parsed bytes Std slice_read (S (length (map B s ++ []))) s u2 m2 h2 r2 [] E2 R2 P2 V2 ltac:(now rewrite E) ltac:(rewrite E; unfold lt; reflexivity))
      as (q2 & t2 & Q2 & _ & M2 & U2 & _ & H2 & _).
    rewrite Q1 in Q2. injection Q2 as <- _. rewrite M1 in M2. subst m2. split; auto. split.
    + unfold path_text. rewrite U1 in U2. exact U2.
    + rewrite H1 in H2. apply (client_host m1). rewrite <- H2. now apply client_host.
  - intros (-> & E & ->). unfold client_head.
    assert (K : forall u, match u_path u with [] => bs "/" | _ => u_path u end = path_text u) by (intros u; unfold path_text; now destruct (u_path u)).
    now rewrite !K, E.
Qed.
Print Assumptions C80_same.

(** The path of a parsed URL holds no question mark (the url crate writes it as [%3F]). Then the target of the request has none
    either, so no request of this client carries a query. *)
Theorem C80_no_query : forall u m r, builder_new u m = Ok r -> ~ In x3f (u_path u) -> ~ In x3f (rq_uri r).
Proof.
  intros u m r E H. destruct (http_url_of u) as [h| | |] eqn:Eu; try (unfold builder_new in E; rewrite Eu in E; discriminate E).
  rewrite (builder_request u m h Eu) in E. injection E as <-. cbn [rq_uri]. destruct (u_path u); [|exact H].
  intros [K|[]]; discriminate K.
Qed.
Print Assumptions C80_no_query.

(** A caller can repair the port by replacing the Host header; then the request names the URL of the caller if that has no query. *)
Theorem C80_repaired : forall u m h r, crate_url u -> http_url_of u = Ok h -> builder_new u m = Ok r -> u_query u = None ->
  let r' := builder_add_header (bs "Host") (hu_host h ++ port_text u) r in
  effective (beqb (u_scheme u) (bs "https")) (rq_uri r') (rq_headers r') (url_text u (hu_host h)).
Proof.
  intros u m h r Hc Eu Er Hq. cbv zeta. rewrite (builder_request u m h Eu) in Er. injection Er as <-.
  assert (Eh : rq_headers (builder_add_header (bs "Host") (hu_host h ++ port_text u)
                 (mkRequest m (match u_path u with [] => bs "/" | _ => u_path u end) v11 (client_headers m (hu_host h)) tt))
               = client_headers m (hu_host h ++ port_text u)) by (destruct m; reflexivity).
  rewrite Eh. exists (hu_host h ++ port_text u). split; [intros v; apply client_host|].
  cbn [builder_add_header request_add_header rq_uri]. unfold url_text, path_text, query_text. rewrite Hq, app_nil_r.
  destruct (C45_crate_urls u Hc) as ([H1 _] & _). rewrite <- !app_assoc.
  destruct H1 as [->| ->]; [now exists h| |]; destruct (u_path u); reflexivity.
Qed.
Print Assumptions C80_repaired.

(** So it is not so for every URL. *)
Theorem C80_every_url_refuted :
  ~ (forall u m h r, crate_url u -> http_url_of u = Ok h -> builder_new u m = Ok r ->
       effective (beqb (u_scheme u) (bs "https")) (rq_uri r) (rq_headers r) (url_text u (hu_host h))).
Proof.
  intros C. assert (H : exists u h, crate_url u /\ http_url_of u = Ok h /\ hu_host h = bs "example.com" /\ u = C45_url).
  { exists C45_url. eexists. split; [split; [reflexivity|cbn; easy]|]. split; [reflexivity|]. split; reflexivity. }
  destruct H as (u & h & Hc & E1 & E2 & Eu).
  destruct (C u Get h _ Hc E1 (builder_request u Get h E1)) as (x & Hx & E). cbn [rq_headers rq_uri] in Hx, E. rewrite E2 in Hx, E.
  rewrite <- (proj1 (Hx _) (proj2 (client_host Get _ _) eq_refl)) in E. rewrite Eu in E. vm_compute in E. discriminate E.
Qed.
Print Assumptions C80_every_url_refuted.

Definition C80_url : url := mkUrl (bs "http") (Some (bs "a.org")) (Some 8080%N) (bs "/x") (Some (bs "q=1")).
Definition C80_url2 : url := mkUrl (bs "http") (Some (bs "a.org")) None [] None.
Example C80_case :
  crate_url C80_url /\ crate_url C80_url2
  /\ http_url_of C80_url = Ok (mkHttpUrl C80_url Http (bs "a.org")) /\ sendable_uri (u_path C80_url) /\ sendable_value (bs "a.org")
  /\ ~ In x3f (u_path C80_url)
  /\ url_text C80_url (bs "a.org") = bs "http://a.org:8080/x?q=1"
  /\ url_text C80_url2 (bs "a.org") = bs "http://a.org/"
  /\ url_text C45_url (bs "example.com") = bs "https://example.com/a/b?q=1"
  /\ (exists r, builder_new C80_url Get = Ok r /\ effective false (rq_uri r) (rq_headers r) (bs "http://a.org/x"))
  /\ (exists r, builder_new C80_url Get = Ok r
        /\ effective false (rq_uri r) (rq_headers (builder_add_header (bs "Host") (bs "a.org" ++ port_text C80_url) r)) (bs "http://a.org:8080/x"))
  /\ exists r, builder_new C80_url2 Get = Ok r /\ effective false (rq_uri r) (rq_headers r) (url_text C80_url2 (bs "a.org")).
Proof.
  split; [split; [reflexivity|cbn; easy]|]. split; [split; [reflexivity|cbn; easy]|]. split; [reflexivity|].
  split.
  { split; [easy|]. split; [now apply utf8_bs_ascii|]. split; [repeat constructor; intros [H|H]; easy|apply no_cr_no_crlf; cbn; intuition easy]. }
  split; [split; [now apply utf8_bs_ascii|apply no_cr_no_crlf; cbn; intuition easy]|].
  split; [cbn; intuition easy|]. split; [reflexivity|]. split; [reflexivity|]. split; [reflexivity|].
  split; [|split].
  - eexists. split; [reflexivity|]. exists (bs "a.org"). split; [|reflexivity]. intros v. apply (client_host Get).
  - eexists. split; [reflexivity|]. exists (bs "a.org:8080"). split; [|reflexivity]. intros v. apply (client_host Get).
  - eexists. split; [reflexivity|]. exists (bs "a.org"). split; [|reflexivity]. intros v. apply (client_host Get).
Qed.
