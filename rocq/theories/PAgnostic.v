(** What the answer to a request depends on: C84. *)
From Verif Require Import Base Utf8 Case Num Io Parser Types Message Outgoing Server Transport.
From Verif Require Import Lemmas ReadLemmas NumLemmas ChunkSpec ChunkLemmas BodyLemmas WriteLemmas ParserLemmas CaseLemmas
  TypesLemmas HeadLemmas BlockLemmas MsgLemmas SimLemmas KeepLemmas ErrLemmas PBody PIo PParse PHead POut PReuse PServer.

(** Two header sets that frame a body in the same way: both chunked, or neither and either the same length or none. *)
Definition same_framing (h1 h2 : headers) : Prop :=
  let chunked h := hm_get (bs "transfer-encoding") h = Some (bs "chunked") in
  (chunked h1 /\ chunked h2)
  \/ (~ chunked h1 /\ ~ chunked h2
      /\ ((hm_get (bs "content-length") h1 = None /\ hm_get (bs "content-length") h2 = None)
          \/ exists w1 w2 n, hm_get (bs "content-length") h1 = Some w1 /\ hm_get (bs "content-length") h2 = Some w2 /\ u64_text w1 n /\ u64_text w2 n)).

(** A handler whose POST and PUT methods read the body to its end or its first error, with buffers of [n] bytes. *)
Definition takes_all {H} (h : handler H) (n : nat) (post put : bytes -> H -> bytes + error -> hresult * H) : Prop :=
  0 < n
  /\ (forall u hs, h_post h u hs = slurp n (fun d => Ret (post u hs (inl d))) (fun e => Ret (post u hs (inr e))) [])
  /\ (forall u hs, h_put h u hs = slurp n (fun d => Ret (put u hs (inl d))) (fun e => Ret (put u hs (inr e))) []).

Fixpoint upto (acc : bytes) (xs : list item) : bytes + error :=
  match xs with
  | [] => inl acc
  | B b :: t => upto (acc ++ [b]) t
  | Transport.E e :: _ => inr e
  end.
Lemma upto_app got : forall acc xs, upto acc (map B got ++ xs) = upto (acc ++ got) xs.
Proof. induction got as [|b got IH]; intros acc xs; cbn; [now rewrite app_nil_r|]. rewrite IH. now rewrite <- app_assoc. Qed.

Lemma slurp_result {A T} bld (rd : reader T) bfuel R n (f : bytes + error -> A) : reader_pos (body_read bld rd bfuel) R -> 0 < n ->
  forall k xs, length xs <= k -> forall fuel b acc, R b xs -> length xs + 1 < fuel ->
  fst (run_prog bld rd bfuel fuel (slurp n (fun d => Ret (f (inl d))) (fun e => Ret (f (inr e))) acc) b) = Ok (f (upto acc xs)).
Proof.
  intros HR Hn. induction k as [|k IH]; intros xs Hk fuel b acc Hb Hf; (destruct fuel as [|fuel]; [lia|]); rewrite slurp_eq; cbn [run_prog];
    pose proof (HR n b xs Hn Hb) as H; destruct xs as [|[x|e] xs]; try (cbn in Hk; lia).
  - destruct H as (s' & -> & _). destruct fuel as [|fuel]; [cbn in Hf; lia|]. reflexivity.
  - destruct H as (s' & -> & _). destruct fuel as [|fuel]; [cbn in Hf; lia|]. reflexivity.
  - destruct H as (got & xs' & s' & -> & Hg & _ & Ex & Hs). rewrite Ex, upto_app.
    assert (Hl : length (B x :: xs) = length got + length xs') by (rewrite Ex, app_length, map_length; reflexivity).
    destruct got as [|g got]; [easy|]. cbn [length] in *. apply IH; auto; lia.
  - destruct H as (s' & -> & _). destruct fuel as [|fuel]; [cbn in Hf; lia|]. reflexivity.
Qed.

(** What a framed body delivers; it depends on the framing and on what follows the head. *)
Inductive body_items (bld : build) (h : headers) (zs : list item) : list item -> Prop :=
| bi_chunked out rest : hm_get (bs "transfer-encoding") h = Some (bs "chunked") -> decodes bld None zs out rest -> body_items bld h zs out
| bi_limited w n : hm_get (bs "transfer-encoding") h <> Some (bs "chunked") -> hm_get (bs "content-length") h = Some w -> u64_text w n ->
    body_items bld h zs (take_items n zs)
| bi_close : hm_get (bs "transfer-encoding") h <> Some (bs "chunked") -> hm_get (bs "content-length") h = None -> body_items bld h zs zs.

Lemma u64_text_functional w n m : u64_text w n -> u64_text w m -> n = m.
Proof.
  intros H1 H2. pose proof (content_length_good [(bs "content-length", w)] w n eq_refl H1) as E1.
  pose proof (content_length_good [(bs "content-length", w)] w m eq_refl H2) as E2. congruence.
Qed.

Lemma body_items_total bld h zs : good_length h -> exists out, body_items bld h zs out.
Proof.
  intros Hg. destruct (sized_dec h) as [[Hc|Hl]|[Hc Hl]].
  - destruct (decodes_total bld None zs) as (out & rest & Hd). exists out. now apply bi_chunked with rest.
  - assert (Hdec : {hm_get (bs "transfer-encoding") h = Some (bs "chunked")} + {hm_get (bs "transfer-encoding") h <> Some (bs "chunked")}).
    { destruct (hm_get (bs "transfer-encoding") h) as [e|]; [|right; easy].
      destruct (beqb e (bs "chunked")) eqn:E; [left; apply beqb_true in E; now rewrite E|]. right. intros [= ->]. now rewrite beqb_refl in E. }
    destruct Hdec as [Hc|Hc].
    + destruct (decodes_total bld None zs) as (out & rest & Hd). exists out. now apply bi_chunked with rest.
    + destruct (hm_get (bs "content-length") h) as [w|] eqn:E; [|easy]. destruct (Hg w E) as [n Hn]. exists (take_items n zs). now apply (bi_limited bld h zs w n).
  - exists zs. now apply bi_close.
Qed.

Lemma body_items_same bld h1 h2 zs out : same_framing h1 h2 -> body_items bld h1 zs out -> body_items bld h2 zs out.
Proof.
  intros Hs H. destruct H as [out rest Hc Hd|w n Hc Hl Hn|Hc Hl]; cbv zeta in Hs; destruct Hs as [[Hs1 Hs2]|(Hs1 & Hs2 & Hs)]; try easy.
  - now apply bi_chunked with rest.
  - destruct Hs as [[Hs _]|(w1 & w2 & n' & E1 & E2 & T1 & T2)]; [congruence|].
    assert (w1 = w) by congruence. subst w1. rewrite (u64_text_functional w n n') by auto. now apply bi_limited with w2.
  - destruct Hs as [[_ Hs]|(w1 & w2 & n' & E1 & _)]; [|congruence]. now apply bi_close.
Qed.

Lemma decodes_out bld o xs out rest : decodes bld o xs out rest -> length out <= length xs + 1.
Proof.
  induction 1 as [xs rest H|xs e rest H|xs n xs1 out rest H Hd IH|n b xs out rest Hn Hd IH|n e xs Hn|n Hn|xs x xs1 out rest H Hd IH|xs e xs1 H];
    cbn [length]; try lia.
  - pose proof (chunk_head_lt bld xs _ _ H). lia.
  - pose proof (items_exact_length bld 2 [] xs) as Hx. rewrite H in Hx. cbn [snd] in Hx. lia.
Qed.
Lemma take_out n xs : length (take_items n xs) <= length xs.
Proof.
  revert n. induction xs as [|[b|e] xs IH]; intros n; cbn; destruct (n =? 0)%N; cbn; try lia;
    [specialize (IH (n - 1)%N)|specialize (IH n)]; lia.
Qed.

Lemma framed_items {T} bld (rd : reader T) fuel h t b zs out : framed h t b -> delivers rd t zs -> body_items bld h zs out ->
  length zs + 3 < fuel -> delivers (body_read bld rd fuel) b out /\ length out <= length zs + 1.
Proof.
  intros (len & Hl & Hb) D Hi Hf. destruct Hi as [out rest Hc Hd|w n Hc Hw Hn|Hc Hw].
  - destruct Hb as [[_ ->]|[Hx _]]; [|easy]. split; [|now apply decodes_out in Hd].
    destruct (chunked_body_delivers bld rd t zs out rest fuel len D Hd Hf) as (R & HR & HS & _). now exists R.
  - destruct Hb as [[Hx _]|[_ ->]]; [easy|]. destruct Hl as [[Hl _]|(v & n' & Hv & Tv & ->)]; [congruence|].
    assert (v = w) by congruence. subst v. rewrite (u64_text_functional w n n') by auto.
    split; [now apply limited_delivers|]. pose proof (take_out n' zs). lia.
  - destruct Hb as [[Hx _]|[_ ->]]; [easy|]. destruct Hl as [[_ ->]|(v & n' & Hv & _)]; [|congruence].
    split; [now apply tilclose_delivers|lia].
Qed.

(** ** C84 *)
(** The answer to a request without a body argument depends on its method and its path only: not on the version, the headers or what
    follows the head. *)
Theorem C84_plain : forall S1 S2 H bld1 bld2 cap1 cap2 (rd1 : reader S1) (rd2 : reader S2) etext1 etext2 (hd : handler H) f1 f2 hs s1 s2
    first1 lines1 zs1 v1 h1 first2 lines2 zs2 v2 h2 m u g,
  plain_method hd m = Some g -> 0 < cap1 -> 0 < cap2 ->
  good_request first1 lines1 m u v1 h1 -> good_request first2 lines2 m u v2 h2 ->
  delivers rd1 s1 (map B (head_bytes first1 lines1) ++ zs1) -> length (map B (head_bytes first1 lines1) ++ zs1) < f1 ->
  delivers rd2 s2 (map B (head_bytes first2 lines2) ++ zs2) -> length (map B (head_bytes first2 lines2) ++ zs2) < f2 ->
  exists t1 t2, serve_one_inner bld1 cap1 rd1 etext1 hd f1 hs s1 = (fst (g u hs), [Called m u], snd (g u hs), t1)
    /\ serve_one_inner bld2 cap2 rd2 etext2 hd f2 hs s2 = (fst (g u hs), [Called m u], snd (g u hs), t2).
Proof.
  intros S1 S2 H bld1 bld2 cap1 cap2 rd1 rd2 etext1 etext2 hd f1 f2 hs s1 s2 first1 lines1 zs1 v1 h1 first2 lines2 zs2 v2 h2 m u g
    Hm C1 C2 G1 G2 D1 F1 D2 F2.
  destruct (serve_one_inner bld1 cap1 rd1 etext1 hd f1 hs s1) as [[[r1 cs1] hs1] t1] eqn:E1.
  destruct (serve_one_inner bld2 cap2 rd2 etext2 hd f2 hs s2) as [[[r2 cs2] hs2] t2] eqn:E2.
  destruct (C46_dispatch S1 H bld1 cap1 rd1 etext1 hd f1 hs s1 first1 lines1 zs1 m u v1 h1 C1 G1 D1 F1 _ _ _ _ E1) as [X1 _].
  destruct (C46_dispatch S2 H bld2 cap2 rd2 etext2 hd f2 hs s2 first2 lines2 zs2 m u v2 h2 C2 G2 D2 F2 _ _ _ _ E2) as [X2 _].
  destruct (X1 g Hm) as [-> Y1]. destruct (X2 g Hm) as [-> Y2]. rewrite <- Y1 in Y2 |- *. injection Y2 as -> ->. cbn [fst snd]. eauto.
Qed.
Print Assumptions C84_plain.

(** The answer to one with a body depends on its method, its path, how the body is framed and what follows the head: not on the version
    or the other headers, nor on how the framing is spelled. *)
Theorem C84_body : forall S1 S2 H bld cap1 cap2 (rd1 : reader S1) (rd2 : reader S2) etext1 etext2 (hd : handler H) n post put f1 f2 hs s1 s2
    first1 lines1 v1 h1 first2 lines2 v2 h2 zs m u g,
  takes_all hd n post put -> body_method hd m = Some g -> 0 < cap1 -> 0 < cap2 ->
  good_request first1 lines1 m u v1 h1 -> good_request first2 lines2 m u v2 h2 -> same_framing h1 h2 ->
  delivers rd1 s1 (map B (head_bytes first1 lines1) ++ zs) -> length (map B (head_bytes first1 lines1) ++ zs) + 3 < f1 ->
  delivers rd2 s2 (map B (head_bytes first2 lines2) ++ zs) -> length (map B (head_bytes first2 lines2) ++ zs) + 3 < f2 ->
  exists r cs hs' t1 t2, serve_one_inner bld cap1 rd1 etext1 hd f1 hs s1 = (r, cs, hs', t1)
    /\ serve_one_inner bld cap2 rd2 etext2 hd f2 hs s2 = (r, cs, hs', t2).
Proof.
  intros S1 S2 H bld cap1 cap2 rd1 rd2 etext1 etext2 hd n post put f1 f2 hs s1 s2 first1 lines1 v1 h1 first2 lines2 v2 h2 zs m u g
    (Hn & Hpost & Hput) Hm C1 C2 G1 G2 Hs D1 F1 D2 F2.
  destruct (body_items_total bld h1 zs ltac:(apply G1)) as [out I1]. pose proof (body_items_same bld h1 h2 zs out Hs I1) as I2.
  destruct (request_accepts_rel bld (bufr_read bld cap1 rd1) (delivers (bufr_read bld cap1 rd1)) f1 (bufr_new s1) first1 lines1 zs m u v1 h1)
    as (b1 & t1 & Q1 & B1 & R1); auto using delivers_pos, bufr_delivers; try lia.
  destruct (request_accepts_rel bld (bufr_read bld cap2 rd2) (delivers (bufr_read bld cap2 rd2)) f2 (bufr_new s2) first2 lines2 zs m u v2 h2)
    as (b2 & t2 & Q2 & B2 & R2); auto using delivers_pos, bufr_delivers; try lia.
  rewrite app_length in F1, F2.
  destruct (framed_items bld _ f1 h1 t1 b1 zs out B1 R1 I1 ltac:(lia)) as [(P1 & HP1 & Hb1) Hl1].
  destruct (framed_items bld _ f2 h2 t2 b2 zs out B2 R2 I2 ltac:(lia)) as [(P2 & HP2 & Hb2) Hl2].
  assert (Er : require_length b1 = require_length b2 /\ (require_length b1 = Ok tt \/ require_length b1 = Err LengthRequired)).
  { destruct (framed_length h1 t1 b1 B1) as [L1 L1']. destruct (framed_length h2 t2 b2 B2) as [L2 L2']. cbv zeta in Hs. unfold sized in *.
    destruct Hs as [[K1 K2]|(K1 & K2 & [[K3 K4]|(w1 & w2 & k & K3 & K4 & _)])].
    - rewrite L1, L2; auto.
    - rewrite L1', L2'; auto.
    - rewrite L1, L2; auto; right; congruence. }
  destruct Er as [Er Er'].
  assert (K : forall f, exists r cs hs' u1 u2,
    body_call bld cap1 rd1 etext1 m u (slurp n (fun d => Ret (f (inl d))) (fun e => Ret (f (inr e))) []) b1 hs f1 s1 = (r, cs, hs', u1)
    /\ body_call bld cap2 rd2 etext2 m u (slurp n (fun d => Ret (f (inl d))) (fun e => Ret (f (inr e))) []) b2 hs f2 s2 = (r, cs, hs', u2)).
  { intros f.
    pose proof (slurp_result bld (bufr_read bld cap1 rd1) f1 P1 n f HP1 Hn (length out) out (le_n _) f1 b1 [] Hb1 ltac:(lia)) as X1.
    pose proof (slurp_result bld (bufr_read bld cap2 rd2) f2 P2 n f HP2 Hn (length out) out (le_n _) f2 b2 [] Hb2 ltac:(lia)) as X2.
    unfold body_call. rewrite <- Er.
    destruct (run_prog bld _ f1 f1 _ b1) as [y1 c1]. destruct (run_prog bld _ f2 f2 _ b2) as [y2 c2]. cbn [fst] in X1, X2. subst y1 y2.
    destruct (f (upto [] out)) as [r hs']. destruct Er' as [-> | ->]; do 5 eexists; split; reflexivity. }
  unfold serve_one_inner. rewrite Q1, Q2. cbn [rq_method rq_uri rq_body].
  destruct m; try discriminate Hm; [rewrite Hpost|rewrite Hput]; apply K.
Qed.
Print Assumptions C84_body.

(** ** Example: a request of HTTP/9.7 with two hosts and a padded length *)
Definition C84_lines : list bytes := [bs "Host: a"; bs "HOST: b"; bs "Content-Length: 005"].
Definition C84_headers : headers := Eval vm_compute in headers_from [(bs "host", bs "a"); (bs "host", bs "b"); (bs "content-length", bs "005")].
Lemma C84_request : good_request (bs "PUT /x HTTP/9.7") C84_lines Put (bs "/x") (mkVersion 9 7) C84_headers.
Proof.
  assert (TL : forall l, l <> [] -> forallb (fun b => bval b <? 128)%N l = true -> ~ In CR l -> text_line l).
  { intros l A1 A2 A3. split; auto. split; [now apply no_cr_no_crlf|]. now apply utf8_bs_ascii. }
  assert (T1 : text_line (bs "PUT /x HTTP/9.7")) by (apply TL; try reflexivity; cbn; intuition easy).
  assert (T2 : Forall text_line C84_lines) by (repeat constructor; try (apply TL; try reflexivity; cbn; intuition easy)).
  split; auto. split; auto. split; [apply request_line_meaning; [apply T1|reflexivity]|]. split.
  - exists C84_lines, [(bs "host", bs "a"); (bs "host", bs "b"); (bs "content-length", bs "005")]. repeat split.
    + change (folded ((bs "Host: a" :: [] ++ (bs "HOST: b" :: [] ++ (bs "Content-Length: 005" :: [] ++ []))))
        [bs "Host: a" ++ concat []; bs "HOST: b" ++ concat []; bs "Content-Length: 005" ++ concat []]).
      assert (NB : forall l' : bytes, starts_blank l' = false -> ~ blank_first l') by (intros l' E Hb; apply starts_blank_true in Hb; congruence).
      repeat (constructor; try (intros l' t Hx; try discriminate Hx; injection Hx as <- _; now apply NB)).
    + repeat constructor.
      * exists (bs "Host"), (bs "a"). repeat split; auto. intros H. vm_compute in H. repeat (destruct H as [H|H]; [discriminate H|]). destruct H.
      * exists (bs "HOST"), (bs "b"). repeat split; auto. intros H. vm_compute in H. repeat (destruct H as [H|H]; [discriminate H|]). destruct H.
      * exists (bs "Content-Length"), (bs "005"). repeat split; auto. intros H. vm_compute in H. repeat (destruct H as [H|H]; [discriminate H|]). destruct H.
  - intros w Hw. vm_compute in Hw. injection Hw as <-. exists 5%N.
    split; [reflexivity|]. left. split; [easy|]. exists [0%N; 0%N; 5%N]. split; [|reflexivity]. repeat constructor; vm_compute; congruence.
Qed.

Lemma echo_takes_all : takes_all echo 2
  (fun u h o => match o with inl d => (Ok (inl (from_string OK d)), h ++ [d]) | inr _ => (Ok (inr (from_string BadRequest (bs "?"))), h) end)
  (fun u h o => match o with inl d => (Ok (inl (from_string OK d)), h ++ [d]) | inr _ => (Ok (inr (from_string BadRequest (bs "?"))), h) end).
Proof. split; [lia|]. split; reflexivity. Qed.

Lemma C84_framing : same_framing [(bs "content-length", bs "5")] C84_headers.
Proof.
  right. split; [vm_compute; discriminate|]. split; [vm_compute; discriminate|]. right. exists (bs "5"), (bs "005"), 5%N.
  split; [reflexivity|]. split; [reflexivity|].
  split; (split; [reflexivity|]; left; split; [easy|]); [exists [5%N]|exists [0%N; 0%N; 5%N]]; (split; [|reflexivity]); repeat constructor; vm_compute; congruence.
Qed.

Example C84_case : exists t1 t2,
  serve_one_inner Std 8 wire3_read no_text echo 300 [] ([], segs [C46_wire])
    = (Ok (inl (from_string OK (bs "hello"))), [Called Put (bs "/x")], [bs "hello"], t1)
  /\ serve_one_inner Std 8 wire3_read no_text echo 300 [] ([], segs [head_bytes (bs "PUT /x HTTP/9.7") C84_lines; bs "hello"])
    = (Ok (inl (from_string OK (bs "hello"))), [Called Put (bs "/x")], [bs "hello"], t2).
Proof.
  destruct (C84_body wire3 wire3 (list bytes) Std 8 8 wire3_read wire3_read no_text no_text echo 2 _ _ 300 300 [] ([], segs [C46_wire])
    ([], segs [head_bytes (bs "PUT /x HTTP/9.7") C84_lines; bs "hello"]) _ _ _ _ _ _ _ _ (map B (bs "hello")) Put (bs "/x") _ echo_takes_all eq_refl
    ltac:(lia) ltac:(lia) (proj1 C46_request) C84_request C84_framing (wire3_delivers [] (segs [C46_wire])) ltac:(cbn; lia)
    (wire3_delivers [] (segs [head_bytes (bs "PUT /x HTTP/9.7") C84_lines; bs "hello"])) ltac:(cbn; lia)) as (r & cs & hs' & t1 & t2 & E1 & E2).
  exists t1, t2. rewrite E1, E2. vm_compute in E1. injection E1 as <- <- <- _. split; reflexivity.
Qed.

(** RFC 7230 section 5.4: a server must answer 400 to a request of HTTP/1.1 without a Host field and to any with more than one. This
    one does not look. *)
Definition host_line (l : bytes) : Prop := exists name value, l = name ++ [COLON] ++ value /\ to_lowercase name = bs "host".
Inductive hosts : list bytes -> nat -> Prop :=
| hosts_nil : hosts [] 0
| hosts_one l ls n : host_line l -> hosts ls n -> hosts (l :: ls) (S n)
| hosts_other l ls n : ~ host_line l -> hosts ls n -> hosts (l :: ls) n.

Theorem C84_host_refuted : ~ (forall (hd : handler (list bytes)) first lines m u h k fuel evs,
  good_request first lines m u (mkVersion 1 1) h -> hosts lines k -> k <> 1 ->
  items_of evs = map B (head_bytes first lines) -> length (head_bytes first lines) < fuel ->
  firstn 12 (fst (snd (serve_stream Std 8 wire3_read wire3_writer no_text hd 4 fuel [] ([], evs)))) = bs "HTTP/1.1 400").
Proof.
  intros H. assert (T1 : text_line (bs "GET / HTTP/1.1")).
  { split; [discriminate|]. split; [apply no_cr_no_crlf; cbn; intuition easy|]. now apply utf8_bs_ascii. }
  assert (G : good_request (bs "GET / HTTP/1.1") [] Get (bs "/") (mkVersion 1 1) (headers_from [])).
  { split; [exact T1|]. split; [constructor|]. split; [apply request_line_meaning; [apply T1|reflexivity]|]. split; [|discriminate].
    exists [], []. split; [constructor|]. split; [constructor|]. reflexivity. }
  specialize (H echo (bs "GET / HTTP/1.1") [] Get (bs "/") (headers_from []) 0 300 (segs [head_bytes (bs "GET / HTTP/1.1") []]) G hosts_nil
    ltac:(lia) eq_refl ltac:(cbn; lia)).
  vm_compute in H. discriminate H.
Qed.
Print Assumptions C84_host_refuted.
