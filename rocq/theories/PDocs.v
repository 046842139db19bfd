(** Property C70: the file server in the documentation. *)
From Verif Require Import Base Utf8 Case Num Io Parser Types Message Outgoing Client Server Files Docs Commands Transport.
From Verif Require Import Lemmas ReadLemmas NumLemmas ChunkSpec ChunkLemmas BodyLemmas WriteLemmas ParserLemmas CaseLemmas TypesLemmas HeadLemmas
  BlockLemmas MsgLemmas SimLemmas OutLemmas KeepLemmas PBody PIo PParse PHead POut PReuse PServer PEnd NetLemmas Net NetSock NetStep NetFav NetFacts PNet
  PReset PMany PFile PShare PPut PCommands.

(** ** One connection *)
(** Requests other than GET are answered as by examples/server.rs (C64, C65). *)
Theorem C70_like_example : forall S bld cap (rd : reader S) (wt : writer S) etext root text n0 bufsz fuel t s,
  (forall rq s', request_deserialize bld (bufr_read bld cap rd) fuel (bufr_new s) = (Ok rq, s') -> rq_method rq <> Get) ->
  serve_stream bld cap rd wt etext (doc_handler root text n0) bufsz fuel t s
  = serve_stream bld cap rd wt etext (file_handler root text n0) bufsz fuel t s.
Proof.
  intros S bld cap rd wt etext root text n0 bufsz fuel t s Hm. unfold serve_stream, serve_one_inner.
  destruct (request_deserialize bld (bufr_read bld cap rd) fuel (bufr_new s)) as [[rq|e| |] s']; auto.
  specialize (Hm rq s' eq_refl). destruct (rq_method rq); easy.
Qed.
Print Assumptions C70_like_example.

(** GET of a file: exactly its contents, without a length. *)
Theorem C70_get : forall S bld cap (rd : reader S) (wt : writer S) etext log root text n0 bufsz fuel t s first lines zs v h names data,
  0 < cap -> good_request first lines Get (uri_of names) v h -> names <> [] -> Forall plain_name names ->
  at_path t (root ++ names) = Some (File data) ->
  delivers rd s (map B (head_bytes first lines) ++ zs) -> length (map B (head_bytes first lines) ++ zs) < fuel ->
  honest wt log -> reliable wt -> silent rd log -> 0 < bufsz -> bufsz <= fuel -> length data < fuel -> 20 <= fuel ->
  exists s2, serve_stream bld cap rd wt etext (doc_handler root text n0) bufsz fuel t s = (Ok tt, [Called Get (uri_of names)], t, s2)
    /\ log s2 = log s ++ bs "HTTP/1.1 200 OK" ++ CRLF ++ CRLF ++ data.
Proof.
  intros S bld cap rd wt etext log root text n0 bufsz fuel t s first lines zs v h names data Hc Hg Hne Hp Hx D Hl Hh Hr Hs Hb Hbf Hd Hf.
  destruct (serve_one_inner bld cap rd etext (doc_handler root text n0) fuel t s) as [[[r cs] t'] s1] eqn:E1.
  destruct (C46_dispatch S node bld cap rd etext (doc_handler root text n0) fuel t s first lines zs Get _ v h Hc Hg D Hl _ _ _ _ E1) as [HP _].
  destruct (HP _ eq_refl) as [-> Hr']. cbn [doc_handler h_get] in Hr'. unfold doc_get in Hr'.
  rewrite (find_names root names t (File data) Hp Hne Hx) in Hr'. injection Hr' as -> ->.
  destruct (C50_complete S node bld cap rd wt etext log (doc_handler root text n0) bufsz fuel t s _ _ _ _ (from_string OK data) (map B data) data
    Hh Hr Hs Hb E1 (or_introl eq_refl)) as (s2 & E2 & L2); auto.
  - exact (from_string_delivers bld cap fuel OK data Hc).
  - apply noisy_map.
  - change (length (response_wire (from_string OK data) [])) with 19. lia.
  - now rewrite map_length.
  - exists s2. split; [exact E2|]. rewrite L2. reflexivity.
Qed.
Print Assumptions C70_get.

(** In general: when the body of a handler's answer fails after some bytes, what is on the wire is exactly what it would
    be if the body had ended there; only [serve_one] tells the difference. *)
Theorem C70_failing_body : forall S H bld cap (rd : reader S) (wt : writer S) etext log (hd : handler H) bufsz fuel hs s y cs hs' s1 r xs e ys data,
  honest wt log -> reliable wt -> silent rd log -> 0 < bufsz ->
  serve_one_inner bld cap rd etext hd fuel hs s = (Ok y, cs, hs', s1) -> y = inl r \/ y = inr r ->
  delivers (body_read bld (bufr_read bld cap dyn_read) fuel) (rs_body r) (xs ++ E e :: ys) -> noisy bld data xs -> is_retry bld e = false ->
  length (response_wire r []) <= fuel -> bufsz <= fuel -> length xs < fuel ->
  exists s2, serve_stream bld cap rd wt etext hd bufsz fuel hs s = (Err e, cs, hs', s2) /\ log s2 = log s ++ response_wire r data.
Proof.
  intros S H bld cap rd wt etext log hd bufsz fuel hs s y cs hs' s1 r xs e ys data Hh Hr Hs Hz E Hy Hd Hn He H1 H2 H3.
  pose proof (inner_keep bld cap rd etext hd (fun s' => log s' = log s) (fun n s' Hx => eq_trans (Hs n s') Hx) fuel hs s eq_refl) as L1.
  rewrite E in L1. cbn [snd] in L1.
  assert (Ew : forall d, response_wire r d = concat (response_pieces r) ++ d).
  { intros d. rewrite response_pieces_wire. unfold response_wire. now rewrite <- !app_assoc. }
  rewrite Ew, app_nil_r in H1.
  destruct (write_pieces_reliable wt log Hh bld fuel (response_pieces r) s1 Hr H1) as (s2 & E2 & L2).
  assert (Hw : forall d w, length d <= bufsz -> exists w', write_all bld wt fuel d w = (Ok tt, w') /\ log w' = log w ++ d).
  { intros d w Hw. apply (write_all_reliable wt log Hh); auto. lia. }
  destruct (copy_broken bld _ _ log bufsz Hz Hw fuel 0%N (rs_body r) s2 xs e ys data Hd Hn He H3) as (b' & s3 & E3 & L3).
  exists s3. split; [|rewrite L3, L2, L1, Ew; now rewrite app_assoc].
  unfold serve_stream. rewrite E. unfold respond. unfold copy. destruct Hy as [-> | ->]; rewrite E2, E3; reflexivity.
Qed.
Print Assumptions C70_failing_body.

(** GET of a directory: a 200 without a body has been sent when the server finds that a directory cannot be read. *)
Theorem C70_directory : forall S bld cap (rd : reader S) (wt : writer S) etext log root text n0 bufsz fuel t s first lines zs v h names es,
  0 < cap -> good_request first lines Get (uri_of names) v h -> names <> [] -> Forall plain_name names ->
  at_path t (root ++ names) = Some (Dir es) ->
  delivers rd s (map B (head_bytes first lines) ++ zs) -> length (map B (head_bytes first lines) ++ zs) < fuel ->
  honest wt log -> reliable wt -> silent rd log -> 0 < bufsz -> 20 <= fuel ->
  exists s2, serve_stream bld cap rd wt etext (doc_handler root text n0) bufsz fuel t s = (Err EISDIR, [Called Get (uri_of names)], t, s2)
    /\ log s2 = log s ++ bs "HTTP/1.1 200 OK" ++ CRLF ++ CRLF.
Proof.
  intros S bld cap rd wt etext log root text n0 bufsz fuel t s first lines zs v h names es Hc Hg Hne Hp Hx D Hl Hh Hr Hs Hb Hf.
  destruct (serve_one_inner bld cap rd etext (doc_handler root text n0) fuel t s) as [[[r cs] t'] s1] eqn:E1.
  pose proof (inner_keep bld cap rd etext (doc_handler root text n0) (fun s' => log s' = log s) (fun n s' Hx => eq_trans (Hs n s') Hx) fuel t s eq_refl) as L1.
  rewrite E1 in L1. cbn [snd] in L1.
  destruct (C46_dispatch S node bld cap rd etext (doc_handler root text n0) fuel t s first lines zs Get _ v h Hc Hg D Hl _ _ _ _ E1) as [HP _].
  destruct (HP _ eq_refl) as [-> Hr']. cbn [doc_handler h_get] in Hr'. unfold doc_get in Hr'.
  rewrite (find_names root names t (Dir es) Hp Hne Hx) in Hr'. injection Hr' as -> ->.
  unfold serve_stream. rewrite E1. unfold respond.
  destruct (write_pieces_reliable wt log Hh bld fuel (response_pieces (response_new OK open_dir)) s1 Hr) as (s2 & E2 & L2).
  { change (length (concat (response_pieces (response_new OK open_dir)))) with 19. lia. }
  rewrite E2. unfold copy. destruct fuel as [|f]; [lia|].
  assert (ER : exists b, body_read bld (bufr_read bld cap dyn_read) (Datatypes.S f) bufsz (rs_body (response_new OK open_dir)) = (Err EISDIR, b)).
  { cbn [rs_body response_new body_read]. unfold bufr_read. cbn [bufr_new br_buf br_inner]. destruct bld; [|eexists; reflexivity].
    destruct (cap <=? bufsz)%nat; eexists; reflexivity. }
  destruct ER as (b & ER). cbn [copy_with]. rewrite ER. change (is_retry bld EISDIR) with false || destruct bld; cbn [is_retry].
  all: exists s2; split; [reflexivity|]; rewrite L2, L1; reflexivity.
Qed.
Print Assumptions C70_directory.

(** Nothing there: a 500 with the text of the error. *)
Theorem C70_missing : forall S bld cap (rd : reader S) (wt : writer S) etext log root text n0 bufsz fuel t s first lines zs v h names x,
  0 < cap -> good_request first lines Get (uri_of names) v h -> Forall plain_name names ->
  at_path t root = Some x -> at_path t (root ++ names) = None ->
  delivers rd s (map B (head_bytes first lines) ++ zs) -> length (map B (head_bytes first lines) ++ zs) < fuel ->
  honest wt log -> reliable wt -> silent rd log -> 0 < bufsz -> bufsz <= fuel -> (forall e, length (text e) + 50 <= fuel) ->
  exists e s2, serve_stream bld cap rd wt etext (doc_handler root text n0) bufsz fuel t s = (Ok tt, [Called Get (uri_of names)], t, s2)
    /\ log s2 = log s ++ bs "HTTP/1.1 500 Internal Server Error" ++ CRLF ++ CRLF ++ text e
    /\ ((e = ENOTDIR /\ through_file t root names) \/ (e = ENOENT /\ ~ through_file t root names)).
Proof.
  intros S bld cap rd wt etext log root text n0 bufsz fuel t s first lines zs v h names x Hc Hg Hp Hx Hn D Hl Hh Hr Hs Hb Hbf Hf.
  assert (Hne : names <> []) by (intros ->; rewrite app_nil_r in Hn; congruence).
  destruct (serve_one_inner bld cap rd etext (doc_handler root text n0) fuel t s) as [[[r cs] t'] s1] eqn:E1.
  destruct (C46_dispatch S node bld cap rd etext (doc_handler root text n0) fuel t s first lines zs Get _ v h Hc Hg D Hl _ _ _ _ E1) as [HP _].
  destruct (HP _ eq_refl) as [-> Hr']. cbn [doc_handler h_get] in Hr'. unfold doc_get, find in Hr'.
  rewrite uri_no_nul, uri_components in Hr' by auto.
  assert (EW : exists e, walk t root names = Err e /\ ((e = ENOTDIR /\ through_file t root names) \/ (e = ENOENT /\ ~ through_file t root names)))
    by (destruct (walk_missing t names root x Hp Hx Hn) as [[-> H]|[-> H]]; eauto).
  destruct EW as (e & EW & He). rewrite EW in Hr'. cbn [rbind] in Hr'. injection Hr' as -> ->.
  destruct (answer_500 S bld cap rd wt etext log _ bufsz fuel t s _ _ _ _ Hc E1 Hh Hr Hs Hb Hbf (Hf e)) as (s2 & E2 & L2). eauto.
Qed.
Print Assumptions C70_missing.

(** ** The program in the documentation *)
(** src/server.rs 61-63: [client::get], and all of the body, or [None] if it cannot be read. *)
Definition doc_client (cap1 fuel1 n : nat) (r : request unit) : sock -> res (option bytes) * sock :=
  request_run Std cap1 sock_read sock_writer default_buf_size empty_read fuel1 r tt (slurp n (fun d => Ret (Some d)) (fun _ => Ret None) []).

(** The client and the server of the documentation, running at the same time: whatever the order in which their calls are
    answered, they end, and then the server has had no error and the client has the contents of the file. *)
Theorem C70_program : forall cap1 fuel1 n r cap2 etext root text n0 bufsz fuel2 t room1 room2 names data,
  rq_method r = Get -> rq_uri r = uri_of names -> sendable_uri (uri_of names) -> small_version (rq_version r) ->
  sendable (rq_headers r) -> good_length (rq_headers r) ->
  names <> [] -> Forall plain_name names -> at_path t (root ++ names) = Some (File data) ->
  1 <= room1 -> 1 <= room2 -> 0 < n -> 0 < cap1 <= fuel1 -> 0 < cap2 -> 0 < bufsz <= fuel2 ->
  length (concat (request_pieces r)) + 4 < fuel2 -> length (concat (request_pieces r)) <= fuel1 ->
  length data + 30 < fuel1 -> length data + 20 < fuel2 ->
  let client := doc_client cap1 fuel1 n r in
  let server := server_run Std cap2 sock_read sock_writer etext (doc_handler root text n0) bufsz fuel2 t in
  forall k c, reach client server room1 room2 k c ->
  ((ended (side1 client c) /\ ended (side2 server c)) \/ exists c', step client server room1 room2 c c')
  /\ k <= 2 * length (concat (request_pieces r)) + 2 * length data + 40
  /\ (exists m c', reach client server room1 room2 m c' /\ k <= m /\ ended (side1 client c') /\ ended (side2 server c'))
  /\ (ended (side1 client c) -> ended (side2 server c) ->
      fst (server (fresh (snd c))) = Ok (Ok tt, [Called Get (uri_of names)], t)
      /\ fst (client (fresh (fst c))) = Ok (Some data)).
Proof.
  intros cap1 fuel1 n r cap2 etext root text n0 bufsz fuel2 t room1 room2 names data Hm Hu Hsu Hv Hsh Hgl Hne Hp Hx Hr1 Hr2 Hn Hc1 Hc2 Hb Hf2 Hf1 Hd1 Hd2 client server.
  assert (Hwire : forall ops, has_body (rq_method r) = true \/ ops = [] -> whole_request r ops = concat (request_pieces r)).
  { intros ops _. unfold whole_request. rewrite Hm. cbn [has_body]. now rewrite app_nil_r. }
  assert (G : forall ops, cut_from [] default_buf_size ops ->
    good_exchange cap1 fuel1 r ops (only_ok (slurp n (fun d => Ret (Some d)) (fun _ => Ret None) [])) Std cap2 (doc_handler root text n0) bufsz fuel2 t room1 room2
      (from_string OK data) t (map B data) data).
  { intros ops (pieces & Eo & Ec & Hps). assert (ops = []) as ->.
    { destruct pieces as [|d ps]; [exact Eo|]. apply Forall_inv in Hps as [Hd _]. now destruct d. }
    assert (L1 : length (response_wire (from_string OK data) data) = 19 + length data) by reflexivity.
    split; auto; try lia.
    - now rewrite Hu.
    - constructor.
    - exists (Ok (inl (from_string OK data))). split; [now left|]. left. rewrite Hm. eexists. split; [reflexivity|].
      split; [|unfold body_wire; rewrite Hm; cbn [has_body length]; lia]. cbn [doc_handler h_get]. unfold doc_get. rewrite Hu.
      now rewrite (find_names root names t (File data) Hp Hne Hx).
    - exact (from_string_delivers Std cap2 fuel2 OK data Hc2).
    - apply noisy_map.
    - split; reflexivity.
    - reflexivity.
    - apply sendable_check; [reflexivity|exact (headers_from_sorted [])].
    - split; [discriminate|now left].
    - intros st h. unfold only_ok. destruct st; try (now constructor). apply pmap_reads. apply slurp_reads_some; auto; intros; constructor.
    - intros len st _. unfold only_ok. destruct st; try (destruct fuel1; [lia|now constructor]). apply pmap_stops.
      apply (C52_reading_to_the_end _ n Some (fun _ => Ret None) len fuel1 data); auto; [lia|]. intros. constructor.
    - rewrite L1. repeat split; auto; try lia. constructor.
    - rewrite Hwire by now right. change (length (response_wire (from_string OK data) [])) with 19. rewrite map_length. lia. }
  destruct (C58_put Std cap1 fuel1 default_buf_size empty_read tt r (slurp n (fun d => Ret (Some d)) (fun _ => Ret None) []) Std cap2 etext (doc_handler root text n0)
    bufsz fuel2 t room1 room2 (from_string OK data) t (map B data) data [] []) as (ops & Hcut & K).
  - apply buf_some.
  - apply empty_delivers.
  - constructor.
  - cbn. lia.
  - exact G.
  - intros k c HR. destruct (K k c HR) as (K1 & K2 & K3 & K4). split; [exact K1|].
    assert (ops = []) as ->.
    { destruct Hcut as (pieces & -> & Ec & Hps). destruct pieces as [|d ps]; [auto|]. apply Forall_inv in Hps as [Hd _]. now destruct d. }
    rewrite Hwire in K2 by now right. change (length (response_wire (from_string OK data) data)) with (19 + length data) in K2.
    split; [lia|]. split; [exact K3|]. intros He1 He2. destruct (K4 He1 He2) as (R1 & _ & _ & [(x & len & _ & R2 & _ & R3)|(st & Hst & _)]).
    + rewrite Hm, Hu in R1. split; [exact R1|]. unfold client, doc_client. rewrite R2. f_equal.
      apply slurp_runs in R3. cbn [app] in R3. now inversion R3.
    + now elim Hst.
Qed.
Print Assumptions C70_program.

(** What the client of examples/client.rs makes of the answer for a directory: it prints nothing and succeeds, as for an
    empty file. *)
Theorem C70_directory_looks_empty : forall Addr S Wd Fl O (conn : connector Addr S Wd) cap (rd : reader S) (wt : writer S) (open : bytes -> option Fl)
    (flrd : reader Fl) (out : writer O) olog fuel data u w o s,
  sends conn cap rd wt open flrd fuel Get data u w s -> prints out olog ->
  delivers rd s (map B (bs "HTTP/1.1 200 OK" ++ CRLF ++ CRLF)) ->
  exists w' o', client_main conn cap rd wt open flrd out fuel Get data u w o = (Ok tt, (w', o')) /\ olog o' = olog o.
Proof.
  intros Addr S Wd Fl O conn cap rd wt open flrd out olog fuel data u w o s Hs Hout Hd.
  assert (Hg : good_head (bs "HTTP/1.1 200 OK") [] (mkVersion 1 1) OK []).
  { assert (T1 : text_line (bs "HTTP/1.1 200 OK")).
    { split; [easy|]. split; [apply no_cr_no_crlf; cbn; intuition easy|]. apply utf8_bs_ascii. reflexivity. }
    split; [exact T1|]. split; [apply Forall_nil|]. split; [apply status_line_meaning; [apply T1|reflexivity]|]. split; [|easy].
    exists [], []. repeat split; constructor. }
  assert (Hd' : delivers rd s (map B (head_bytes (bs "HTTP/1.1 200 OK") []) ++ [])) by (rewrite app_nil_r; exact Hd).
  assert (Hf : length (map B (head_bytes (bs "HTTP/1.1 200 OK") []) ++ []) + 3 < fuel).
  { apply Nat.lt_le_trans with (default_buf_size + 70); [apply Nat.ltb_lt; vm_compute; reflexivity|]. apply (sd_fuel _ _ _ _ _ _ _ _ _ _ _ _ Hs). }
  destruct (C69_prints conn cap rd wt open flrd out olog fuel Get data u w o s Hs Hout _ _ _ OK _ _ Hg Hd' Hf eq_refl []) as (x & d & w' & o' & E & Hx & Hl).
  { apply seen_close; [discriminate|reflexivity]. }
  exists w', o'. apply (outcome_bytes Std [] x d) in Hx as [-> ->]. rewrite app_nil_r in Hl. auto.
Qed.
Print Assumptions C70_directory_looks_empty.

(** The disk of C64 served by this handler; the program of the documentation, with small buffers and queues. *)
Definition doc_files (t : node) (parts : list bytes) :=
  match serve_stream Std 8 wire3_read wire3_writer no_text (doc_handler [bs "srv"] say 3) 4 300 t ([], segs parts) with
  | (x, cs, t', s) => (x, cs, t', fst s)
  end.
(** A handler whose answer breaks after two bytes. *)
Definition C70_breaks (evs : list event) : handler unit :=
  mkHandler (h_delete default_handler) (fun _ x => (Ok (inl (response_new OK (dyn_of seg_read evs))), x)) (h_head default_handler) (h_options default_handler)
    (h_trace default_handler) (h_put default_handler) (h_post default_handler).
Definition C70_broken (evs : list event) :=
  match serve_stream Std 8 wire3_read wire3_writer no_text (C70_breaks evs) 4 300 tt ([], segs [bs "GET /a HTTP/1.1" ++ CRLF ++ CRLF]) with
  | (x, cs, _, s) => (x, cs, fst s)
  end.
Definition C70_client := doc_client 16 400 5 (down_req (bs "/a.txt")).
Definition C70_server := server_run Std 8 sock_read sock_writer (fun _ => []) (doc_handler [bs "srv"] say 3) 4 400 disk.
Example C70_case :
  doc_files disk [bs "GET /a.txt HTTP/1.1" ++ CRLF ++ CRLF]
    = (Ok tt, [Called Get (bs "/a.txt")], disk, bs "HTTP/1.1 200 OK" ++ CRLF ++ CRLF ++ bs "old text")
  /\ doc_files disk [bs "GET /sub HTTP/1.1" ++ CRLF ++ CRLF] = (Err EISDIR, [Called Get (bs "/sub")], disk, bs "HTTP/1.1 200 OK" ++ CRLF ++ CRLF)
  /\ doc_files disk [bs "GET /b HTTP/1.1" ++ CRLF ++ CRLF]
    = (Ok tt, [Called Get (bs "/b")], disk, reply (bs "500 Internal Server Error") (bs "no such file"))
  /\ doc_files disk [bs "GET /../key HTTP/1.1" ++ CRLF ++ CRLF]
    = (Ok tt, [Called Get (bs "/../key")], disk, bs "HTTP/1.1 200 OK" ++ CRLF ++ CRLF ++ bs "secret")
  /\ doc_files disk [bs "PUT /a.txt HTTP/1.1" ++ CRLF ++ bs "Content-Length: 5" ++ CRLF ++ CRLF ++ bs "he"; bs "llo"]
    = (Ok tt, [Called Put (bs "/a.txt")], srv_with (bs "hello"), reply (bs "200 OK") [])
  /\ C69_client Get [] (bs "HTTP/1.1 200 OK" ++ CRLF ++ CRLF) = (Ok tt, [])
  /\ delivers (body_read Std (bufr_read Std 8 dyn_read) 300) (rs_body (response_new OK (dyn_of seg_read [Seg x61 [x62]; Fail (IoError (KOther 5))])))
       ([B x61; B x62] ++ E (IoError (KOther 5)) :: [])
  /\ C70_broken [Seg x61 [x62]; Fail (IoError (KOther 5))] = (Err (IoError (KOther 5)), [Called Get (bs "/a")], reply (bs "200 OK") (bs "ab"))
  /\ C70_broken [Seg x61 [x62]] = (Ok tt, [Called Get (bs "/a")], reply (bs "200 OK") (bs "ab"))
  /\ (sendable_uri (uri_of [bs "a.txt"]) /\ sendable (rq_headers (down_req (bs "/a.txt"))) /\ good_length (rq_headers (down_req (bs "/a.txt")))
      /\ Forall plain_name [bs "a.txt"] /\ at_path disk ([bs "srv"] ++ [bs "a.txt"]) = Some (File (bs "old text"))
      /\ length (concat (request_pieces (down_req (bs "/a.txt")))) + 4 < 400)
  /\ (exists n c, reach C70_client C70_server 3 2 n c /\ ended (side1 C70_client c) /\ ended (side2 C70_server c)
      /\ fst (C70_client (fresh (fst c))) = Ok (Some (bs "old text"))).
Proof.
  split; [vm_compute; reflexivity|]. split; [vm_compute; reflexivity|]. split; [vm_compute; reflexivity|]. split; [vm_compute; reflexivity|].
  split; [vm_compute; reflexivity|]. split; [vm_compute; reflexivity|].
  split; [apply tilclose_delivers, bufr_delivers, dyn_delivers; [lia|exact (seg_delivers [Seg x61 [x62]; Fail (IoError (KOther 5))])]|].
  split; [vm_compute; reflexivity|]. split; [vm_compute; reflexivity|]. split.
  - split; [apply C66_uri; [discriminate|reflexivity|reflexivity|reflexivity]|].
    split; [apply sendable_check; [reflexivity|exact (headers_from_sorted [])]|]. split; [intros w Hw; vm_compute in Hw; discriminate|].
    split; [repeat constructor; try discriminate; vm_compute; intuition discriminate|]. split; [reflexivity|]. apply Nat.ltb_lt. vm_compute. reflexivity.
  - apply (greedy_outcome _ _ _ _ 1000). vm_compute. repeat split.
Qed.
