(** Chunked bodies as HTTP has them (RFC 7230 section 4.1), with extensions and trailers: C78. *)
From Verif Require Import Base Utf8 Num Io Types Message Transport Lemmas ReadLemmas NumLemmas Utf8Lemmas ChunkSpec ChunkLemmas BodyLemmas
  WriteLemmas ParserLemmas CaseLemmas TypesLemmas HeadLemmas BlockLemmas MsgLemmas PBody PIo PHead POut PFraming PValid.

(** ** The grammar *)
(** chunk-ext: nothing, or blanks, a semicolon and whatever follows on the line (the grammar of extensions is narrower). *)
Definition extension (x : bytes) : Prop := x = [] \/ exists w t, x = w ++ x3b :: t /\ Forall blank w /\ ~ In CR t.
(** A chunk: size, extension and data; the last one has no data. *)
Definition chunk : Type := bytes * bytes * bytes.
Definition chunk_line (c : chunk) : bytes := fst (fst c) ++ snd (fst c).
Definition http_chunk (c : chunk) : Prop := numeral 16 (fst (fst c)) (N.of_nat (length (snd c))) /\ extension (snd (fst c)).
Definition chunk_wire (c : chunk) : bytes := chunk_line c ++ CRLF ++ snd c ++ CRLF.
Definition payload (cs : list chunk) : bytes := flat_map snd cs.
(** chunked-body: chunks, last-chunk, trailer-part. *)
Definition http_body (cs : list chunk) (z : chunk) (trailers : list bytes) : bytes :=
  flat_map chunk_wire cs ++ chunk_line z ++ CRLF ++ wire_lines trailers ++ CRLF.
Definition http_chunked (cs : list chunk) (z : chunk) (trailers : list bytes) : Prop :=
  Forall http_chunk (cs ++ [z]) /\ Forall (fun c => snd c <> []) cs /\ snd z = [] /\ exists fs, Forall2 http_field trailers fs.

(** ** What the library makes of it *)
Definition plain_chunk (c : chunk) : Prop := snd (fst c) = [] /\ (N.of_nat (length (snd c)) <= u64_max)%N.

Lemma hex_no_cr s n : numeral 16 s n -> ~ In CR s.
Proof.
  intros [_ (ds & F & _)] H. induction F as [|b d s ds Hd F IH]; [easy|]. destruct H as [-> |H]; auto.
  destruct Hd as [Hd [[_ K]|[_ [K|K]]]]; change (bval CR) with 13%N in K; lia.
Qed.
Lemma hex_in s n b : numeral 16 s n -> In b s -> exists d, digit 16 b d.
Proof.
  intros [_ (ds & F & _)] H. induction F as [|c d s ds Hd F IH]; [easy|]. destruct H as [-> |H]; eauto.
Qed.
Lemma line_no_crlf c : http_chunk c -> no_crlf (chunk_line c).
Proof.
  intros [Hn Hx]. apply no_cr_no_crlf. unfold chunk_line. intros H. apply in_app_or in H as [H|H]; [now apply (hex_no_cr _ _ Hn)|].
  destruct Hx as [Hx|(w & t & Hx & Hw & Ht)]; rewrite Hx in H; [easy|]. apply in_app_or in H as [H|[H|H]]; [|discriminate|easy].
  rewrite Forall_forall in Hw. apply Hw in H as [H|H]; discriminate.
Qed.
Lemma plain_size c : http_chunk c -> plain_chunk c -> size_line (chunk_line c) (N.of_nat (length (snd c))).
Proof. intros [Hn _] [Hx Hm]. unfold chunk_line. rewrite Hx, app_nil_r. split; auto. Qed.
Lemma other_size c : http_chunk c -> ~ plain_chunk c -> ~ exists n, size_line (chunk_line c) n.
Proof.
  intros [Hn Hx] Hp [m [Hm Hs]]. destruct c as [[h x] d]. unfold chunk_line, plain_chunk in *. cbn [fst snd] in *.
  assert (K : forall s, numeral 16 s m -> ~ In x3b s).
  { intros s Hs' H. destruct (hex_in _ _ _ Hs' H) as (k & Hk & [[Hk2 E]|[Hk2 [E|E]]]); change (bval x3b) with 59%N in E; lia. }
  destruct Hx as [->|(w & t & -> & _)].
  - rewrite app_nil_r in Hs. destruct Hs as [Hs|(t & -> & Hs)].
    + apply Hp. split; auto. replace (N.of_nat (length d)) with m; auto. eapply (numeral_functional 16); eauto. lia.
    + destruct (hex_in _ _ x2b Hn) as (k & Hk & [[Hk2 E]|[Hk2 [E|E]]]); [now left|..]; change (bval x2b) with 43%N in E; lia.
  - destruct Hs as [Hs|(s & E & Hs)].
    + apply (K _ Hs). apply in_or_app. right. apply in_or_app. right. now left.
    + apply (K _ Hs). assert (H : In x3b (x2b :: s)) by (rewrite <- E; apply in_or_app; right; apply in_or_app; right; now left).
      destruct H as [H|H]; [discriminate|auto].
Qed.

Lemma chunks_loose cs p w : Forall http_chunk cs -> Forall plain_chunk cs -> Forall (fun c => snd c <> []) cs ->
  loose_wire p w -> loose_wire (payload cs ++ p) (flat_map chunk_wire cs ++ w).
Proof.
  intros Hc Hp Hd Hw. induction cs as [|c cs IH]; auto. apply Forall_cons_iff in Hc as [C1 C2], Hp as [P1 P2], Hd as [D1 D2].
  unfold payload. cbn [flat_map]. unfold chunk_wire at 1. rewrite <- !app_assoc. apply (lw_chunk (chunk_line c) (snd c) CR LF); auto using plain_size.
Qed.
Lemma chunks_bad cs p w : Forall http_chunk cs -> Forall plain_chunk cs -> Forall (fun c => snd c <> []) cs ->
  bad_wire p w -> bad_wire (payload cs ++ p) (flat_map chunk_wire cs ++ w).
Proof.
  intros Hc Hp Hd Hw. induction cs as [|c cs IH]; auto. apply Forall_cons_iff in Hc as [C1 C2], Hp as [P1 P2], Hd as [D1 D2].
  unfold payload. cbn [flat_map]. unfold chunk_wire at 1. rewrite <- !app_assoc. apply (bw_chunk (chunk_line c) (snd c) CR LF); auto using plain_size.
Qed.

(** Without extensions and with sizes below 2^64: exactly the payload, and then the end; trailers and the line that ends
    the body are left in the stream. *)
Theorem C78_plain :
  forall T bld (rd : reader T) t len fuel cs z trailers zs,
  http_chunked cs z trailers -> Forall plain_chunk (cs ++ [z]) ->
  delivers rd t (map B (http_body cs z trailers) ++ zs) -> length (map B (http_body cs z trailers) ++ zs) + 3 < fuel ->
  delivers_end (body_read bld rd fuel) (BChunked len (CStream t)) (map B (payload cs))
    (fun b => exists t', b = BChunked len (CDone t') /\ delivers rd t' (map B (wire_lines trailers ++ CRLF) ++ zs)).
Proof.
  intros T bld rd t len fuel cs z trailers zs (Hc & Hd & Hz & _) Hp D L. apply Forall_app in Hc as [C1 C2], Hp as [P1 P2].
  apply Forall_inv in C2, P2. pose proof (plain_size z C2 P2) as Hs. rewrite Hz in Hs.
  pose proof (chunks_loose cs [] _ C1 P1 Hd (lw_last _ Hs)) as Hw. rewrite app_nil_r in Hw.
  eapply chunked_body_delivers; eauto. unfold http_body.
  replace (flat_map chunk_wire cs ++ chunk_line z ++ CRLF ++ wire_lines trailers ++ CRLF)
    with ((flat_map chunk_wire cs ++ chunk_line z ++ CRLF) ++ wire_lines trailers ++ CRLF) by now rewrite <- !app_assoc.
  rewrite map_app, <- app_assoc. now apply loose_decodes.
Qed.
Print Assumptions C78_plain.

(** Otherwise: the data of the chunks before the first that has an extension or is too large, and then an error. *)
Theorem C78_refused :
  forall T bld (rd : reader T) t len fuel cs z trailers zs,
  http_chunked cs z trailers -> ~ Forall plain_chunk (cs ++ [z]) ->
  delivers rd t (map B (http_body cs z trailers) ++ zs) -> length (map B (http_body cs z trailers) ++ zs) + 3 < fuel ->
  exists good bad rest e, cs ++ [z] = good ++ bad :: rest /\ Forall plain_chunk good /\ ~ plain_chunk bad
    /\ delivers (body_read bld rd fuel) (BChunked len (CStream t)) (map B (payload good) ++ [Transport.E e]).
Proof.
  intros T bld rd t len fuel cs z trailers zs (Hc & Hd & Hz & _) Hp D L.
  assert (Hdec : forall c, plain_chunk c \/ ~ plain_chunk c).
  { intros [[h x] d]. unfold plain_chunk. cbn [fst snd]. destruct x; [|right; intros [K _]; discriminate].
    destruct (N.le_gt_cases (N.of_nat (length d)) u64_max); [left; auto|right; intros [_ K]; lia]. }
  assert (Hsplit : exists good bad rest, cs ++ [z] = good ++ bad :: rest /\ Forall plain_chunk good /\ ~ plain_chunk bad).
  { revert Hp. generalize (cs ++ [z]) as l. clear - Hdec. induction l as [|c l IH]; intros Hp; [now destruct Hp|].
    destruct (Hdec c) as [Hc|Hc]; [|now exists [], c, l].
    destruct IH as (good & bad & rest & -> & H1 & H2); [intros K; apply Hp; now constructor|]. exists (c :: good), bad, rest. repeat split; auto. }
  destruct Hsplit as (good & bad & rest & Es & Hg & Hb). exists good, bad, rest.
  assert (Hcb : http_chunk bad) by (rewrite Es in Hc; apply Forall_app in Hc as [_ Hc]; now inversion Hc).
  assert (Hcg : Forall http_chunk good) by (rewrite Es in Hc; now apply Forall_app in Hc).
  assert (Hdg : Forall (fun c => snd c <> []) good /\ exists r, http_body cs z trailers = flat_map chunk_wire good ++ chunk_line bad ++ CRLF ++ r).
  { clear - Es Hd. revert cs Es Hd. induction good as [|g good IH]; intros [|c cs] Es Hd; cbn [app] in Es.
    - injection Es as -> <-. split; [constructor|]. eexists. reflexivity.
    - injection Es as -> E. split; [constructor|]. unfold http_body. cbn [flat_map app]. unfold chunk_wire at 1. rewrite <- !app_assoc. eexists. reflexivity.
    - injection Es as _ E. now destruct good.
    - injection Es as -> Es. apply Forall_cons_iff in Hd as [D1 D2]. destruct (IH _ Es D2) as [I1 [r I2]]. split; [now constructor|].
      exists r. unfold http_body in *. cbn [flat_map]. rewrite <- !app_assoc. now rewrite I2. }
  destruct Hdg as [Hdg [r Er]].
  pose proof (chunks_bad good [] _ Hcg Hg Hdg (bw_line (chunk_line bad) r (line_no_crlf _ Hcb) (other_size _ Hcb Hb))) as Hw.
  rewrite app_nil_r in Hw. rewrite <- Er in Hw. destruct (bad_decodes bld _ _ zs Hw) as (e & rr & He). exists e.
  split; auto. split; auto. split; auto. eapply delivers_end_delivers, chunked_body_delivers; eauto.
Qed.
Print Assumptions C78_refused.

(** ** Examples *)
Ltac hex l := split; [discriminate|exists l; split; [|reflexivity]];
  repeat (apply Forall2_cons; [split; [reflexivity|first [left; split; reflexivity|right; split; [easy|first [left; reflexivity|right; reflexivity]]]]|]);
  constructor.

(** "5 hello 6  world 00" with a trailer, read to the end: the trailer and the empty line are still there. *)
Definition with_trailer : list chunk * chunk * list bytes :=
  ([(bs "5", [], bs "hello"); (bs "006", [], bs " world")], (bs "00", [], []), [bs "x-sum: 1"]).
Definition case_trailer : list event :=
  match http_body (fst (fst with_trailer)) (snd (fst with_trailer)) (snd with_trailer) ++ bs "HTTP/1.1" with
  | b :: l => [Seg b l] | [] => [] end.
Example C78_case :
  http_chunked (fst (fst with_trailer)) (snd (fst with_trailer)) (snd with_trailer)
  /\ Forall plain_chunk (fst (fst with_trailer) ++ [snd (fst with_trailer)])
  /\ delivers seg_read case_trailer (map B (http_body (fst (fst with_trailer)) (snd (fst with_trailer)) (snd with_trailer)) ++ map B (bs "HTTP/1.1"))
  /\ exists b, drains (body_read Std seg_read 200) (BChunked None (CStream case_trailer)) (bs "hello world") None b
     /\ items_of (body_reader b) = map B (bs "x-sum: 1" ++ CRLF ++ CRLF ++ bs "HTTP/1.1").
Proof.
  split; [|split; [|split]].
  - split; [|split; [|split]].
    + repeat apply Forall_cons; [| | |constructor]; (split; [|now left]); [hex [5]%N|hex [0;0;6]%N|hex [0;0]%N].
    + repeat apply Forall_cons; [discriminate|discriminate|constructor].
    + reflexivity.
    + exists [(bs "x-sum", bs " 1")]. apply Forall2_cons; [|constructor]. split; [split; [apply in_byte_false; reflexivity|reflexivity]|]. split.
      * assert (K : Forall token [bs "x-sum"]) by tokens. now inversion K.
      * apply Forall_cons; [right; now left|]. apply Forall_cons; [left; split; vm_compute; congruence|constructor].
  - repeat apply Forall_cons; [| | |constructor]; (split; [reflexivity|easy]).
  - exact (seg_delivers case_trailer).
  - eexists. split.
    + change (bs "hello world") with (bs "hello" ++ bs " world" ++ []).
      eapply (drains_step _ 5); [lia|reflexivity|easy|]. eapply (drains_step _ 9); [lia|reflexivity|easy|].
      eapply (drains_eof _ 3); [lia|reflexivity].
    + reflexivity.
Qed.

(** A body valid for HTTP that the library does not read: a chunk extension. *)
Theorem C78_all_read_refuted :
  exists cs z trailers s b,
  http_chunked cs z trailers /\ items_of s = map B (http_body cs z trailers)
  /\ payload cs = bs "hello" /\ drains (body_read Std seg_read 200) (BChunked None (CStream s)) [] (Some (to_io Std (ParseIntError IInvalidDigit))) b.
Proof.
  exists [(bs "5", bs ";a=b", bs "hello")], (bs "0", [], []), [],
    [Seg x35 (bs ";a=b" ++ CRLF ++ bs "hello" ++ CRLF ++ bs "0" ++ CRLF ++ CRLF)].
  eexists. split; [split; [|split; [|split]]|split; [|split]].
  - repeat apply Forall_cons; [| |constructor]; split; [hex [5]%N| |hex [0]%N|now left].
    right. exists [], (bs "a=b"). split; [reflexivity|split; [constructor|]]. intros H. repeat (destruct H as [H|H]; [discriminate H|]). destruct H.
  - apply Forall_cons; [discriminate|constructor].
  - reflexivity.
  - exists []. constructor.
  - reflexivity.
  - reflexivity.
  - eapply (drains_err _ 3); [lia|reflexivity].
Qed.
Print Assumptions C78_all_read_refuted.

(** And bytes that are no chunked body for HTTP, nor start with one, that it reads without complaint: a plus sign, and
    two bytes other than CR LF behind the data. *)
Theorem C78_only_valid_refuted :
  exists s b input, items_of s = map B input
  /\ (forall cs z trailers rest, http_chunked cs z trailers -> input <> http_body cs z trailers ++ rest)
  /\ drains (body_read Std seg_read 200) (BChunked None (CStream s)) (bs "hello") None b.
Proof.
  exists [Seg x2b (bs "5" ++ CRLF ++ bs "hello??0" ++ CRLF)]. eexists. exists (bs "+5" ++ CRLF ++ bs "hello??0" ++ CRLF).
  split; [reflexivity|]. split.
  - intros cs z trailers rest (Hc & _) E.
    assert (K : exists c r, http_chunk c /\ http_body cs z trailers ++ rest = chunk_line c ++ r).
    { unfold http_body. destruct cs as [|c cs].
      - exists z. eexists. split; [now inversion Hc|]. cbn [flat_map app]. rewrite <- !app_assoc. reflexivity.
      - exists c. eexists. split; [now inversion Hc|]. cbn [flat_map]. unfold chunk_wire at 1. rewrite <- !app_assoc. reflexivity. }
    destruct K as (c & r & [Hn _] & K). rewrite K in E. unfold chunk_line in E. destruct (fst (fst c)) as [|h0 h] eqn:Eh.
    + now destruct Hn.
    + injection E as E0 _. subst h0. destruct (hex_in _ _ x2b Hn) as (k & Hk & [[Hk2 E]|[Hk2 [E|E]]]); [now left|..]; change (bval x2b) with 43%N in E; lia.
  - change (bs "hello") with (bs "hello" ++ []).
    eapply (drains_step _ 9); [lia|reflexivity|easy|]. eapply (drains_eof _ 3); [lia|reflexivity].
Qed.
Print Assumptions C78_only_valid_refuted.
