(** No two messages look the same on the wire: C86. *)
From Verif Require Import Base Utf8 UnicodeTables Case Num Io Parser Types Message Outgoing Client Server Transport Lemmas ReadLemmas NumLemmas Utf8Lemmas
  ChunkSpec ChunkLemmas BodyLemmas WriteLemmas OutLemmas ParserLemmas CaseLemmas TypesLemmas HeadLemmas BlockLemmas MsgLemmas SimLemmas PBody PIo PParse PHead
  POut PUrl PAdd PServer PFraming PValid PTrailer PConform PTell.

(** A header whose name has no colon and in which no line ends. *)
Definition clear_header (kv : bytes * bytes) : Prop := ~ In COLON (fst kv) /\ no_crlf (fst kv) /\ no_crlf (snd kv).
(** A request whose target has no space and whose headers are of this kind. *)
Definition clear_request {B} (r : request B) : Prop := ~ In SP (rq_uri r) /\ Forall clear_header (rq_headers r).
(** The parts of a request that the wire is to tell. *)
Definition told {B} (r : request B) : method * bytes * version * headers := (rq_method r, rq_uri r, rq_version r, rq_headers r).
(** The calls to [write] that gave something. *)
Definition given (ops : list op) : list bytes := filter (fun d => match d with [] => false | _ => true end) (written ops).

Lemma app_same_length {A} (a : list A) : forall b x y, length a = length b -> a ++ x = b ++ y -> a = b /\ x = y.
Proof.
  induction a as [|p a IH]; intros [|q b] x y Hl E; try discriminate Hl; [auto|]. injection E as -> E. injection Hl as Hl.
  apply IH in E as [-> ->]; auto.
Qed.
Lemma split_crlf a b x y : no_crlf a -> no_crlf b -> a ++ CRLF ++ x = b ++ CRLF ++ y -> a = b /\ x = y.
Proof.
  assert (K : forall a b x y l, no_crlf b -> b = a ++ l -> CRLF ++ x = l ++ CRLF ++ y -> l = []).
  { intros a0 b0 x0 y0 l Hb -> E. destruct l as [|p [|q l]]; auto; cbn [app] in E.
    - unfold CRLF in E. injection E as E1 E2 _. discriminate E2.
    - unfold CRLF in E. injection E as <- <- _. exfalso. apply Hb. now exists a0, l. }
  intros Ha Hb E. destruct (app_eq_app _ _ _ _ E) as (l & [[E1 E2]|[E1 E2]]).
  - assert (l = []) as -> by (eapply (K b a); eauto). rewrite app_nil_r in E1. subst a. cbn [app] in E2. apply app_inv_head in E2. auto.
  - assert (l = []) as -> by (eapply (K a b); eauto). rewrite app_nil_r in E1. subst b. cbn [app] in E2. apply app_inv_head in E2. auto.
Qed.

Lemma header_line_clear kv : clear_header kv -> no_crlf (header_line kv).
Proof.
  intros (_ & Hk & Hv). unfold header_line. change (bs ": " ++ snd kv) with (COLON :: SP :: snd kv).
  apply no_crlf_app; [easy|exact Hk|]. apply no_crlf_cons; [easy|]. now apply no_crlf_cons.
Qed.
Lemma header_line_inj a b : clear_header a -> clear_header b -> header_line a = header_line b -> a = b.
Proof.
  destruct a as [k v], b as [k' v']. intros (H & _) (H' & _) E. unfold header_line in E. cbn [fst snd] in *.
  change (bs ": " ++ v) with (COLON :: SP :: v) in E. change (bs ": " ++ v') with (COLON :: SP :: v') in E.
  apply split_once in E as [-> E]; auto. now injection E as ->.
Qed.
Lemma header_line_cons kv : header_line kv <> [].
Proof. destruct kv as [[|c k] v]; discriminate. Qed.
Lemma headers_split h : forall h' x y, Forall clear_header h -> Forall clear_header h' ->
  wire_lines (map header_line h) ++ CRLF ++ x = wire_lines (map header_line h') ++ CRLF ++ y -> h = h' /\ x = y.
Proof.
  assert (Z : no_crlf []) by (intros (a & b & K); now destruct a).
  induction h as [|a h IH]; intros [|b h'] x y Ha Hb E; unfold wire_lines in E; cbn [map flat_map app] in E; rewrite <- ?app_assoc in E.
  - apply app_inv_head in E. auto.
  - inversion_clear Hb. apply (split_crlf []) in E as [E _]; auto using header_line_clear. symmetry in E. now apply header_line_cons in E.
  - inversion_clear Ha. apply (split_crlf _ []) in E as [E _]; auto using header_line_clear. now apply header_line_cons in E.
  - inversion_clear Ha. inversion_clear Hb. apply split_crlf in E as [E1 E2]; auto using header_line_clear.
    apply header_line_inj in E1; auto. subst b. apply IH in E2 as [-> ->]; auto.
Qed.

Lemma digits_plain radix n c : (2 <= radix <= 36)%N -> In c [CR; SP; x2e] -> ~ In c (show_radix radix n).
Proof.
  intros Hr Hc H. destruct (show_radix_numeral radix n) as (_ & ds & Hf & _); [lia|lia|].
  induction Hf as [|b d l ds [_ Hd] Hf IH]; [easy|]. destruct H as [->|H]; [|auto].
  destruct Hc as [<-|[<-|[<-|[]]]]; [change (bval CR) with 13%N in Hd|change (bval SP) with 32%N in Hd|change (bval x2e) with 46%N in Hd]; lia.
Qed.
Lemma version_inj v w : show_version v = show_version w -> v = w.
Proof.
  destruct v as [a b], w as [a' b']. unfold show_version, version_pieces. cbn [vmajor vminor concat]. rewrite !app_nil_r. intros E.
  apply app_inv_head in E. change (bs "." ++ show_dec b) with (x2e :: show_dec b) in E. change (bs "." ++ show_dec b') with (x2e :: show_dec b') in E.
  apply split_once in E as [E1 E2]; [|apply digits_plain; [lia|cbn; auto]..].
  apply show_radix_inj in E1; [|lia]. apply show_radix_inj in E2; [|lia]. congruence.
Qed.
Lemma version_plain v c : In c [CR; SP] -> ~ In c (show_version v).
Proof.
  intros Hc H. assert (Hd : forall n, ~ In c (show_dec n)).
  { intros n. apply digits_plain; [lia|]. destruct Hc as [<-|[<-|[]]]; cbn; auto. }
  unfold show_version, version_pieces in H. cbn [concat] in H. rewrite app_nil_r in H.
  apply in_app_or in H as [H|H]; [|apply in_app_or in H as [H|H]; [now apply Hd in H|apply in_app_or in H as [H|H]; [|now apply Hd in H]]];
    destruct Hc as [<-|[<-|[]]]; cbn in H; intuition discriminate.
Qed.
Lemma method_plain m : ~ In SP (show_method m).
Proof. destruct m; cbn; intuition discriminate. Qed.
Lemma method_inj m n : show_method m = show_method n -> m = n.
Proof. destruct m, n; intros E; (reflexivity || discriminate E). Qed.
Lemma status_plain st : ~ In CR (show_status st).
Proof. destruct st; try (apply digits_plain; [lia|cbn; auto]); cbn; intuition discriminate. Qed.
Lemma status_inj s t : show_status s = show_status t -> s = t.
Proof.
  assert (K : forall n x, In SP x -> show_dec n <> x) by (intros n x Hx <-; revert Hx; apply digits_plain; [lia|cbn; auto]).
  assert (K' : forall n x, In SP x -> x <> show_dec n) by (intros n x Hx E; symmetry in E; revert E; now apply K).
  destruct s, t; cbn [show_status]; intros E; try reflexivity; try discriminate E;
    try (apply show_radix_inj in E; [now subst|lia]); exfalso; revert E; (apply K || apply K'); cbn; intuition congruence.
Qed.

(** ** Heads *)
Theorem C86_request_head : forall B1 B2 (r1 : request B1) (r2 : request B2) x y,
  clear_request r1 -> clear_request r2 ->
  concat (request_pieces r1) ++ x = concat (request_pieces r2) ++ y -> told r1 = told r2 /\ x = y.
Proof.
  intros B1 B2 r1 r2 x y [U1 H1] [U2 H2] E. rewrite !request_pieces_wire, !headers_pieces_wire in E. unfold request_line_of in E.
  rewrite <- !app_assoc in E. cbn [app] in E. rewrite <- !app_assoc in E. apply split_once in E as [Em E]; [|apply method_plain..]. cbn [app] in E.
  apply split_once in E as [Eu E]; auto. unfold CRLF in E at 1 3. cbn [app] in E.
  apply split_once in E as [Ev E]; [|apply version_plain; cbn; auto..]. injection E as E.
  rewrite <- ?app_assoc in E. apply headers_split in E as [Eh ->]; auto. apply method_inj in Em. apply version_inj in Ev.
  unfold told. split; [congruence|reflexivity].
Qed.
Print Assumptions C86_request_head.
Theorem C86_response_head : forall B1 B2 (r1 : response B1) (r2 : response B2) x y,
  Forall clear_header (rs_headers r1) -> Forall clear_header (rs_headers r2) ->
  concat (response_pieces r1) ++ x = concat (response_pieces r2) ++ y ->
  rs_version r1 = rs_version r2 /\ rs_status r1 = rs_status r2 /\ rs_headers r1 = rs_headers r2 /\ x = y.
Proof.
  intros B1 B2 r1 r2 x y H1 H2 E. rewrite !response_pieces_wire, !headers_pieces_wire in E. unfold status_line_of in E.
  rewrite <- !app_assoc in E. cbn [app] in E. apply split_once in E as [Ev E]; [|apply version_plain; cbn; auto..].
  unfold CRLF in E at 1 3. cbn [app] in E. apply split_once in E as [Es E]; [|apply status_plain..]. injection E as E.
  rewrite <- ?app_assoc in E. apply headers_split in E as [Eh ->]; auto. apply status_inj in Es. apply version_inj in Ev. auto.
Qed.
Print Assumptions C86_response_head.

(** ** Bodies: even the calls to [write] can be told apart *)
Lemma chunks_split a : forall b x y, Forall (fun d => d <> []) a -> Forall (fun d => d <> []) b ->
  flat_map chunk_of a ++ bs "0" ++ CRLF ++ CRLF ++ x = flat_map chunk_of b ++ bs "0" ++ CRLF ++ CRLF ++ y -> a = b /\ x = y.
Proof.
  assert (C : forall d z, d <> [] -> chunk_of d ++ z = show_hex (N.of_nat (length d)) ++ CR :: LF :: d ++ CRLF ++ z).
  { intros [|c d] z Hd; [easy|]. unfold chunk_of, CRLF. rewrite <- !app_assoc. cbn [app]. reflexivity. }
  assert (P : forall n, ~ In CR (show_hex n)) by (intros n; apply digits_plain; [lia|cbn; auto]).
  assert (Z : forall (d x y : bytes), d <> [] -> bs "0" ++ CRLF ++ x = show_hex (N.of_nat (length d)) ++ CR :: y -> False).
  { intros d x y Hd E. change (bs "0" ++ CRLF ++ x) with (show_hex 0 ++ CR :: LF :: x) in E.
    apply split_once in E as [E _]; auto. apply show_radix_inj in E; [|lia]. destruct d; [easy|discriminate E]. }
  induction a as [|d a IH]; intros [|e b] x y Ha Hb E; cbn [flat_map app] in E.
  - repeat apply app_inv_head in E. auto.
  - inversion_clear Hb. rewrite <- app_assoc, C in E by auto. now apply Z in E.
  - inversion_clear Ha. rewrite <- app_assoc, C in E by auto. symmetry in E. now apply Z in E.
  - inversion_clear Ha. inversion_clear Hb. rewrite <- !app_assoc, !C in E by auto. apply split_once in E as [El E]; auto.
    apply show_radix_inj in El; [|lia]. apply Nat2N.inj in El. injection E as E. apply app_same_length in E as [-> E]; auto.
    injection E as E. apply IH in E as [-> ->]; auto.
Qed.
Lemma given_wire ops : flat_map chunk_of (written ops) = flat_map chunk_of (given ops).
Proof. unfold given. induction (written ops) as [|[|b d] ws IH]; cbn [flat_map filter app]; auto. now f_equal. Qed.
Lemma given_cons ops : Forall (fun d => d <> []) (given ops).
Proof. unfold given. induction (written ops) as [|[|b d] ws IH]; cbn [filter]; auto. now constructor. Qed.

(** ** Whole requests *)
(** No request is a prefix of another, let alone the same: if the bytes of two requests, with anything after them, are equal,
    then method, target, version, headers, every non-empty call to [write] and what comes after are. *)
Theorem C86_request : forall B1 B2 (r1 : request B1) (r2 : request B2) ops1 ops2 x y,
  clear_request r1 -> clear_request r2 ->
  whole_request r1 ops1 ++ x = whole_request r2 ops2 ++ y ->
  told r1 = told r2 /\ (has_body (rq_method r1) = true -> given ops1 = given ops2) /\ x = y.
Proof.
  intros B1 B2 r1 r2 ops1 ops2 x y C1 C2 E. unfold whole_request in E. rewrite <- !app_assoc in E.
  apply C86_request_head in E as [Et E]; auto. split; [exact Et|]. assert (Em : rq_method r1 = rq_method r2) by (unfold told in Et; congruence).
  rewrite <- Em in E. destruct (has_body (rq_method r1)); [|split; [discriminate|exact E]].
  rewrite !given_wire, <- !app_assoc in E. apply chunks_split in E as [-> ->]; auto using given_cons.
Qed.
Print Assumptions C86_request.

(** All the requests of a connection. *)
Theorem C86_connection : forall l1 l2 : list (request unit * list op),
  Forall (fun p => clear_request (fst p)) l1 -> Forall (fun p => clear_request (fst p)) l2 ->
  flat_map (fun p => whole_request (fst p) (snd p)) l1 = flat_map (fun p => whole_request (fst p) (snd p)) l2 ->
  Forall2 (fun p q => told (fst p) = told (fst q) /\ (has_body (rq_method (fst p)) = true -> given (snd p) = given (snd q))) l1 l2.
Proof.
  assert (N : forall (p : request unit * list op) x, whole_request (fst p) (snd p) ++ x <> []).
  { intros [r ops] x. unfold whole_request. cbn [fst snd]. rewrite request_pieces_wire. unfold request_line_of. destruct (rq_method r); discriminate. }
  induction l1 as [|p l1 IH]; intros [|q l2] H1 H2 E; cbn [flat_map] in E.
  - constructor.
  - symmetry in E. now apply N in E.
  - now apply N in E.
  - inversion_clear H1. inversion_clear H2. apply C86_request in E as (E1 & E2 & E3); auto. 
Qed.
Print Assumptions C86_connection.

(** Two clients that sent the same bytes, over any socket, were asked for the same. *)
Theorem C86_sent : forall S1 S2 bld1 bld2 cap1 cap2 (wt1 : writer S1) (wt2 : writer S2) log1 log2 fuel1 fuel2 r1 r2 s1 s2 o1 o2 sa1 sa2 ops1 ops2 ob1 ob2 t1 t2 w,
  honest wt1 log1 -> honest wt2 log2 -> clear_request r1 -> clear_request r2 ->
  send bld1 cap1 wt1 fuel1 r1 s1 = (Ok o1, sa1) -> run_ops bld1 cap1 wt1 fuel1 ops1 o1 = (Ok tt, ob1) -> finish_send bld1 cap1 wt1 fuel1 ob1 = (Ok tt, t1) ->
  send bld2 cap2 wt2 fuel2 r2 s2 = (Ok o2, sa2) -> run_ops bld2 cap2 wt2 fuel2 ops2 o2 = (Ok tt, ob2) -> finish_send bld2 cap2 wt2 fuel2 ob2 = (Ok tt, t2) ->
  log1 t1 = log1 s1 ++ w -> log2 t2 = log2 s2 ++ w ->
  told r1 = told r2 /\ given ops1 = given ops2.
Proof.
  assert (K : forall S bld cap (wt : writer S) log fuel r s o sa ops ob t w, honest wt log ->
    send bld cap wt fuel r s = (Ok o, sa) -> run_ops bld cap wt fuel ops o = (Ok tt, ob) -> finish_send bld cap wt fuel ob = (Ok tt, t) ->
    log t = log s ++ w -> w = whole_request r ops /\ (has_body (rq_method r) = false -> given ops = [])).
  { intros S bld cap wt log fuel r s o sa ops ob t w Hh H1 H2 H3 E.
    apply (request_serialize_log bld cap wt log Hh) in H1 as [_ H1]. destruct (H1 o eq_refl) as (L1 & I1 & _ & B1).
    pose proof H2 as H2'. apply (run_ops_log bld cap wt log Hh) in H2 as ((_ & L2) & I2 & B2 & _); auto.
    apply (finish_send_log bld cap wt log Hh) in H3 as (_ & _ & L3); auto.
    rewrite (L2 (ex_intro _ tt eq_refl)), L1, B2, B1 in L3. specialize (L3 eq_refl). rewrite <- !app_assoc in L3. rewrite E in L3.
    apply app_inv_head in L3. split.
    - rewrite L3. unfold whole_request, terminator. destruct (has_body (rq_method r)); [now rewrite written_wire|now rewrite no_body_wire].
    - intros Hb. rewrite Hb in B1. clear - H2' B1. revert o B1 H2'. unfold given.
      induction ops as [|[d|] ops IH]; intros [so|bo] B1 H2; cbn [is_body] in B1; try discriminate B1; auto;
        cbn [run_ops outgoing_write outgoing_flush sbind] in H2; try discriminate H2.
      cbn [written flat_map app]. apply (IH (ONoBody so)); auto. }
  intros S1 S2 bld1 bld2 cap1 cap2 wt1 wt2 log1 log2 fuel1 fuel2 r1 r2 s1 s2 o1 o2 sa1 sa2 ops1 ops2 ob1 ob2 t1 t2 w
    Hh1 Hh2 C1 C2 A1 A2 A3 D1 D2 D3 L1 L2.
  destruct (K _ _ _ _ _ _ _ _ _ _ _ _ _ _ Hh1 A1 A2 A3 L1) as [W1 G1].
  destruct (K _ _ _ _ _ _ _ _ _ _ _ _ _ _ Hh2 D1 D2 D3 L2) as [W2 G2].
  destruct (C86_request _ _ r1 r2 ops1 ops2 [] []) as (Et & Eg & _); auto; [now rewrite !app_nil_r, <- W1, <- W2|].
  split; [exact Et|]. assert (Em : rq_method r1 = rq_method r2) by (unfold told in Et; congruence). rewrite <- Em in G2.
  destruct (has_body (rq_method r1)); [now apply Eg|]. rewrite G1, G2; reflexivity.
Qed.
Print Assumptions C86_sent.

(** ** Answers *)
(** The answer says how long its body is, and says the truth. *)
Definition announced {B} (r : response B) (data : bytes) : Prop :=
  exists v, headers_get (bs "Content-Length") (rs_headers r) = Some v /\ numeral 10 v (N.of_nat (length data)).
Theorem C86_response : forall B1 B2 (r1 : response B1) (r2 : response B2) d1 d2 x y,
  Forall clear_header (rs_headers r1) -> Forall clear_header (rs_headers r2) -> announced r1 d1 -> announced r2 d2 ->
  response_wire r1 d1 ++ x = response_wire r2 d2 ++ y ->
  rs_version r1 = rs_version r2 /\ rs_status r1 = rs_status r2 /\ rs_headers r1 = rs_headers r2 /\ d1 = d2 /\ x = y.
Proof.
  intros B1 B2 r1 r2 d1 d2 x y H1 H2 (v1 & G1 & N1) (v2 & G2 & N2) E.
  assert (W : forall B (r : response B) d, response_wire r d = concat (response_pieces r) ++ d).
  { intros B r d. rewrite response_pieces_wire. unfold response_wire. now rewrite <- !app_assoc. }
  rewrite !W, <- !app_assoc in E. apply C86_response_head in E as (E1 & E2 & E3 & E); auto.
  rewrite E3, G2 in G1. injection G1 as ->. assert (El : N.of_nat (length d1) = N.of_nat (length d2)) by (apply (numeral_functional 10 v1); [lia|assumption..]).
  apply Nat2N.inj in El. apply app_same_length in E as [-> ->]; auto.
Qed.
Print Assumptions C86_response.

(** ** Examples *)
Ltac clear_bytes := first [apply no_cr_no_crlf; apply in_byte_false; vm_compute; reflexivity | apply in_byte_false; vm_compute; reflexivity].
Ltac clear_headers := repeat (constructor; [split; [clear_bytes|split; clear_bytes]|]); constructor.
Definition C86_req : request unit :=
  mkRequest Put (bs "/x?y=1") v11 (headers_from [(bs "host", bs "h"); (bs "transfer-encoding", bs "chunked")]) tt.
Example C86_case :
  clear_request C86_req
  /\ given [Write (bs "ab"); Write []; Flush; Write (bs "c")] = [bs "ab"; bs "c"]
  /\ (whole_request C86_req [Write (bs "ab"); Write []; Flush; Write (bs "c")] =
      bs "PUT /x?y=1 HTTP/1.1" ++ CRLF ++ bs "host: h" ++ CRLF ++ bs "transfer-encoding: chunked" ++ CRLF ++ CRLF
      ++ bs "2" ++ CRLF ++ bs "ab" ++ CRLF ++ bs "1" ++ CRLF ++ bs "c" ++ CRLF ++ bs "0" ++ CRLF ++ CRLF)
  /\ (let r := respond_all [(bs "Content-Length", bs "3")] (response_new OK tt) in
      Forall clear_header (rs_headers r) /\ announced r (bs "abc")
      /\ response_wire r (bs "abc") = bs "HTTP/1.1 200 OK" ++ CRLF ++ bs "content-length: 3" ++ CRLF ++ CRLF ++ bs "abc").
Proof.
  split; [split; [clear_bytes|clear_headers]|]. split; [reflexivity|]. split; [vm_compute; reflexivity|]. cbv zeta.
  split; [clear_headers|]. split; [exists (bs "3"); split; [vm_compute; reflexivity|number 3%N]|vm_compute; reflexivity].
Qed.

(** A target with a space in it can stand for a header. *)
Theorem C86_target_refuted :
  ~ (forall r1 r2 : request unit, Forall clear_header (rq_headers r1) -> Forall clear_header (rq_headers r2) ->
     whole_request r1 [] = whole_request r2 [] -> told r1 = told r2).
Proof.
  intros H. specialize (H (mkRequest Get (bs "/ HTTP/1.1" ++ CRLF ++ bs "a: b") v11 [] tt) (mkRequest Get (bs "/") v11 [(bs "a", bs "b HTTP/1.1")] tt)).
  discriminate H; [constructor|clear_headers|vm_compute; reflexivity].
Qed.
Print Assumptions C86_target_refuted.
(** So can a header value with a line end in it stand for two headers. *)
Theorem C86_header_refuted :
  ~ (forall r1 r2 : request unit, ~ In SP (rq_uri r1) -> ~ In SP (rq_uri r2) ->
     whole_request r1 [] = whole_request r2 [] -> told r1 = told r2).
Proof.
  intros H. specialize (H (mkRequest Get (bs "/") v11 [(bs "a", bs "b" ++ CRLF ++ bs "c: d")] tt) (mkRequest Get (bs "/") v11 [(bs "a", bs "b"); (bs "c", bs "d")] tt)).
  discriminate H; [clear_bytes..|vm_compute; reflexivity].
Qed.
Print Assumptions C86_header_refuted.
(** An answer that does not say how long it is can be the beginning of another. *)
Theorem C86_unannounced_refuted :
  ~ (forall (r1 r2 : response unit) d1 d2 x, Forall clear_header (rs_headers r1) -> Forall clear_header (rs_headers r2) ->
     response_wire r1 d1 ++ x = response_wire r2 d2 -> x = []).
Proof.
  intros H. specialize (H (mkResponse v11 OK [] tt) (mkResponse v11 OK [] tt) (bs "a") (bs "ab") (bs "b") (Forall_nil _) (Forall_nil _)).
  discriminate H. vm_compute. reflexivity.
Qed.
Print Assumptions C86_unannounced_refuted.
