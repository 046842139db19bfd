(** Property C44: what is left on a connection after a response. *)
From Verif Require Import Base Utf8 Case Num Io Parser Types Message Outgoing Client Transport.
From Verif Require Import Lemmas ReadLemmas NumLemmas ChunkSpec ChunkLemmas BodyLemmas ParserLemmas CaseLemmas TypesLemmas
  HeadLemmas BlockLemmas MsgLemmas PBody PHead.

(** The bytes of a whole response with status line [first] and header lines [lines]. *)
Definition head_bytes (first : bytes) (lines : list bytes) : bytes := first ++ CRLF ++ wire_lines lines ++ CRLF.
Definition good_head (first : bytes) (lines : list bytes) (v : version) (st : status) (h : headers) : Prop :=
  text_line first /\ Forall text_line lines /\ status_line_says first v st /\ accepted_block lines h /\ good_length h.

(** How a response with headers [h] carries [payload]: by length, or chunked up to and including the
    line of the last chunk. *)
Inductive carries (h : headers) (payload : bytes) : bytes -> Prop :=
| carries_length w : hm_get (bs "transfer-encoding") h <> Some (bs "chunked") ->
    hm_get (bs "content-length") h = Some w -> u64_text w (N.of_nat (length payload)) -> carries h payload payload
| carries_chunks wire : hm_get (bs "transfer-encoding") h = Some (bs "chunked") ->
    chunked_wire payload wire -> carries h payload wire.

Lemma response_accepts_rel {T} bld (rd : reader T) R fuel t first lines zs v st h : reader_pos rd R ->
  good_head first lines v st h -> R t (map B (head_bytes first lines) ++ zs) ->
  length (map B (head_bytes first lines) ++ zs) < fuel ->
  exists b t', response_deserialize bld rd fuel t = (Ok (mkResponse v st h b), t')
    /\ framed h (bufr_new t') b /\ R t' zs.
Proof.
  intros HR (Hf & Hl & Hr & Ha & Hc) D Hlen. destruct (good_length_of h Hc) as [n Hcl]. unfold head_bytes in *.
  rewrite (app_assoc first CRLF), (map_app B (first ++ CRLF)), <- app_assoc in D, Hlen.
  destruct (response_items bld rd R t _ fuel HR D Hlen) as (t' & D' & ->).
  rewrite (resp_of_line bld first (v, st)), (hdrs_accept_exact bld lines h) in *; auto;
    try (apply status_line_accepted; auto; apply Hf).
  cbn [sbind] in *. rewrite Hcl in *. cbn in *. eexists _, t'. split; [reflexivity|]. split; auto. now apply framed_new.
Qed.

(** A body read to its end leaves the reader at what follows it. *)
Lemma carries_read {T} bld (rd : reader T) R t h payload wire zs b fuel : reader_pos rd R ->
  framed h t b -> carries h payload wire -> R t (map B wire ++ zs) -> length (map B wire ++ zs) + 3 < fuel ->
  delivers_end (body_read bld rd fuel) b (map B payload) (fun b' => R (body_reader b') zs).
Proof.
  intros HR (len & Hlen & Hb) Hc Ht Hf. destruct Hc as [w H1 H2 H3|wire H1 Hw].
  - assert (El : len = Some (N.of_nat (length payload))).
    { pose proof (content_length_good h w _ H2 H3) as E1. destruct Hlen as [[E _]|(v & n & E & Hn & ->)]; [congruence|].
      rewrite H2 in E. injection E as <-. rewrite (content_length_good h w n H2 Hn) in E1. congruence. }
    destruct Hb as [[Hb _]|[_ ->]]; [congruence|]. rewrite El.
    destruct (limited_end_rel bld rd R t payload zs fuel HR Ht) as (R' & A1 & A2 & A3). exists R'. repeat split; auto.
    intros n s' Hn Hs. destruct (A3 n s' Hn Hs) as (t' & -> & H). exact H.
  - destruct Hb as [[_ ->]|[Hb _]]; [|congruence].
    destruct (chunked_body_rel bld rd R t (map B wire ++ zs) (map B payload) zs fuel len HR Ht) as (R' & A1 & A2 & A3);
      eauto using loose_decodes, chunked_loose.
    exists R'. repeat split; auto. intros n s' Hn Hs. destruct (A3 n s' Hn Hs) as (t' & -> & H). exact H.
Qed.

(** ** What is left *)
(** A response that is read to its end leaves on the socket what followed it, except for the bytes
    the body's BufReader had read ahead, which are lost when it is dropped. The no_std build reads
    nothing ahead. *)
Theorem C44_left_over : forall T bld cap (rd : reader T) fuel s first lines v st h payload wire zs,
  0 < cap -> good_head first lines v st h -> carries h payload wire ->
  delivers rd s (map B (head_bytes first lines ++ wire) ++ zs) ->
  length (map B (head_bytes first lines ++ wire) ++ zs) + 3 < fuel ->
  exists b s1, response_deserialize bld rd fuel s = (Ok (mkResponse v st h b), s1)
    /\ forall got o b', drains (body_read bld (bufr_read bld cap rd) fuel) b got o b' ->
       got = payload /\ o = None
       /\ exists ys, zs = map B (br_buf (body_reader b')) ++ ys /\ delivers rd (br_inner (body_reader b')) ys
            /\ (bld = NoStd -> br_buf (body_reader b') = []).
Proof.
  intros T bld cap rd fuel s first lines v st h payload wire zs Hcap Hh Hc (R & HR & Hs) Hf.
  rewrite map_app, <- app_assoc in Hs, Hf.
  destruct (response_accepts_rel bld rd R fuel s first lines _ v st h HR Hh Hs) as (b & s1 & E & Hb & Hs1); [lia|].
  exists b, s1. split; auto. intros got o b' Hd.
  assert (Hf' : length (map B wire ++ zs) + 3 < fuel) by (rewrite app_length in Hf; lia).
  pose proof (carries_read bld (bufr_read bld cap rd) (bufr_rel bld R) (bufr_new s1) h payload wire zs b fuel
    (bufr_read_pos bld cap rd R Hcap HR) Hb Hc (bufr_new_rel bld R s1 _ Hs1) Hf') as He.
  destruct (delivers_end_drains _ _ _ _ _ _ _ He Hd) as (-> & -> & Hp). rewrite lead_map, fault_map in *.
  split; auto. split; auto. destruct (Hp eq_refl) as (ys & A1 & A2 & A3). exists ys. split; auto. split; [now exists R|auto].
Qed.
Print Assumptions C44_left_over.

(** If nothing was read ahead after a length-delimited body, the next response is parsed from its
    first byte, as on a fresh connection. *)
Theorem C44_after_length : forall T bld cap (rd : reader T) fuel s first lines v st h payload w zs,
  0 < cap -> good_head first lines v st h ->
  hm_get (bs "transfer-encoding") h <> Some (bs "chunked") ->
  hm_get (bs "content-length") h = Some w -> u64_text w (N.of_nat (length payload)) ->
  delivers rd s (map B (head_bytes first lines ++ payload) ++ zs) ->
  length (map B (head_bytes first lines ++ payload) ++ zs) + 3 < fuel ->
  exists b s1, response_deserialize bld rd fuel s = (Ok (mkResponse v st h b), s1)
    /\ forall got o b', drains (body_read bld (bufr_read bld cap rd) fuel) b got o b' ->
       got = payload /\ o = None
       /\ (br_buf (body_reader b') = [] \/ bld = NoStd -> delivers rd (br_inner (body_reader b')) zs).
Proof.
  intros T bld cap rd fuel s first lines v st h payload w zs Hcap Hh H1 H2 H3 Hs Hf.
  destruct (C44_left_over T bld cap rd fuel s first lines v st h payload payload zs Hcap Hh) as (b & s1 & E & K); auto.
  { now apply carries_length with w. }
  exists b, s1. split; auto. intros got o b' Hd. destruct (K got o b' Hd) as (-> & -> & ys & A1 & A2 & A3).
  split; auto. split; auto. intros Hb. assert (Hn : br_buf (body_reader b') = []) by (destruct Hb; auto).
  rewrite Hn in A1. cbn in A1. now subst.
Qed.
Print Assumptions C44_after_length.

(** After a chunked body the empty line that ends it is still unread. If nothing was read ahead
    (always so in the no_std build), reading the next response fails at once with UnexpectedEof; only
    the attempt after that starts at its first byte. If exactly the empty line was read ahead, the next
    response is parsed from its first byte. *)
Theorem C44_after_chunks : forall T bld cap (rd : reader T) fuel s first lines v st h payload wire zs,
  0 < cap -> good_head first lines v st h ->
  hm_get (bs "transfer-encoding") h = Some (bs "chunked") -> chunked_wire payload wire ->
  delivers rd s (map B (head_bytes first lines ++ wire ++ CRLF) ++ zs) ->
  length (map B (head_bytes first lines ++ wire ++ CRLF) ++ zs) + 3 < fuel ->
  exists b s1, response_deserialize bld rd fuel s = (Ok (mkResponse v st h b), s1)
    /\ forall got o b', drains (body_read bld (bufr_read bld cap rd) fuel) b got o b' ->
       got = payload /\ o = None
       /\ (br_buf (body_reader b') = [] \/ bld = NoStd ->
            exists s2, response_deserialize bld rd fuel (br_inner (body_reader b')) = (Err UnexpectedEof, s2)
              /\ delivers rd s2 zs)
       /\ (br_buf (body_reader b') = CRLF -> delivers rd (br_inner (body_reader b')) zs).
Proof.
  intros T bld cap rd fuel s first lines v st h payload wire zs Hcap Hh H1 H2 Hs Hf.
  assert (Hz : map B (head_bytes first lines ++ wire ++ CRLF) ++ zs = map B (head_bytes first lines ++ wire) ++ map B CRLF ++ zs).
  { now rewrite !map_app, <- !app_assoc. }
  rewrite Hz in Hs, Hf.
  destruct (C44_left_over T bld cap rd fuel s first lines v st h payload wire (map B CRLF ++ zs) Hcap Hh) as (b & s1 & E & K); auto.
  { now apply carries_chunks. }
  exists b, s1. split; auto. intros got o b' Hd. destruct (K got o b' Hd) as (-> & -> & ys & A1 & A2 & A3).
  split; auto. split; auto. split.
  - intros Hb. assert (Hn : br_buf (body_reader b') = []) by (destruct Hb; auto). rewrite Hn in A1. cbn [map app] in A1. subst ys.
    assert (Hl : length (map B CRLF ++ zs) < fuel) by (rewrite app_length in Hf; lia).
    destruct (response_delivers bld rd _ _ fuel A2 Hl) as (s2 & D2 & E2).
    assert (Er : resp_of bld (map B CRLF ++ zs) = (Err UnexpectedEof, zs)) by (destruct bld; reflexivity).
    rewrite Er in D2, E2. cbn in D2, E2. eauto.
  - intros Hb. rewrite Hb in A1. apply app_inv_head in A1. now subst.
Qed.
Print Assumptions C44_after_chunks.

(** ** Segments *)
(** A socket hands out at most one segment per read. If the response ends where a segment ends,
    nothing of what follows has been read when its body is finished, in either build. *)
Definition seg_pos (evs2 : list event) (s : list event) (xs : list item) : Prop :=
  xs = items_of s /\ ((exists evs1, s = evs1 ++ evs2) \/ length xs < length (items_of evs2)).
Definition buf_pos (bld : build) (evs2 : list event) (r : bufr (list event)) (xs : list item) : Prop :=
  xs = map B (br_buf r) ++ items_of (br_inner r) /\ (bld = NoStd -> br_buf r = [])
  /\ ((exists evs1, br_inner r = evs1 ++ evs2) \/ length xs < length (items_of evs2)).

Lemma seg_step evs2 n s : 0 < n -> (exists evs1, s = evs1 ++ evs2) \/ length (items_of s) < length (items_of evs2) ->
  match items_of s with
  | [] => seg_read n s = (Ok [], s)
  | E e :: xs' => exists s', seg_read n s = (Err e, s') /\ items_of s' = xs'
       /\ ((exists evs1, s' = evs1 ++ evs2) \/ length (items_of s) <= length (items_of evs2))
  | B _ :: _ => exists got s', seg_read n s = (Ok got, s') /\ got <> [] /\ length got <= n
       /\ items_of s = map B got ++ items_of s'
       /\ ((exists evs1, s' = evs1 ++ evs2) \/ length (items_of s) <= length (items_of evs2))
  end.
Proof.
  intros Hn Hs. destruct s as [|[b more|e] t]; cbn [items_of flat_map event_items map app].
  - reflexivity.
  - destruct n as [|m]; [lia|]. cbn [seg_read].
    set (s' := match skipn m more with [] => t | b' :: more' => Seg b' more' :: t end).
    assert (Ei : B b :: map B more ++ flat_map event_items t = map B (b :: firstn m more) ++ items_of s').
    { cbn [map app]. f_equal. unfold s'. rewrite <- (firstn_skipn m more) at 1. rewrite map_app, <- app_assoc. f_equal.
      now destruct (skipn m more). }
    exists (b :: firstn m more), s'. split; auto. split; [easy|]. split; [cbn; rewrite firstn_length; lia|]. split; auto.
    destruct Hs as [[[|ev evs1] Hs]|Hs].
    + cbn [app] in Hs. right. subst evs2. apply le_n.
    + left. cbn in Hs. injection Hs as <- ->. unfold s'. destruct (skipn m more); [now exists evs1|eexists (_ :: _); reflexivity].
    + right. exact (Nat.lt_le_incl _ _ Hs).
  - exists t. split; [now destruct n|]. split; auto. destruct Hs as [[[|ev evs1] Hs]|Hs].
    + cbn [app] in Hs. right. subst evs2. apply le_n.
    + left. cbn in Hs. injection Hs as <- ->. now exists evs1.
    + right. exact (Nat.lt_le_incl _ _ Hs).
Qed.

Lemma seg_after evs2 (s s' : list event) (got : bytes) (buf : list item) :
  (exists evs1, s' = evs1 ++ evs2) \/ length (map B got ++ buf ++ items_of s') <= length (items_of evs2) -> got <> [] ->
  (exists evs1, s' = evs1 ++ evs2) \/ length (buf ++ items_of s') < length (items_of evs2).
Proof. intros [H|H] Hg; auto. right. rewrite app_length, map_length in H. destruct got; [easy|]. cbn in H. lia. Qed.

Lemma seg_pos_read evs2 : reader_pos seg_read (seg_pos evs2).
Proof.
  intros n s xs Hn (-> & Hs). pose proof (seg_step evs2 n s Hn Hs) as H. destruct (items_of s) as [|[b|e] xs] eqn:Ei.
  - exists s. rewrite H. split; auto. split; auto.
  - destruct H as (got & s' & A1 & A2 & A3 & A4 & A5). rewrite A4 in *. exists got, (items_of s'), s'. repeat split; auto.
    exact (seg_after evs2 s s' got [] A5 A2).
  - destruct H as (s' & A1 & <- & A3). exists s'. split; auto. split; [reflexivity|]. destruct A3; [now left|right]. cbn in *. lia.
Qed.

Lemma buf_pos_read bld cap evs2 : 0 < cap -> reader_pos (bufr_read bld cap seg_read) (buf_pos bld evs2).
Proof.
  intros Hc n [s buf] xs Hn (-> & Hb & Hs). cbn [br_buf br_inner] in *. unfold bufr_read. cbn [br_buf br_inner].
  assert (Hd : buf = [] ->
    match map B buf ++ items_of s with
    | [] => exists s', (let (x, s') := seg_read n s in (x, mkBufr s' buf)) = (Ok [], s') /\ buf_pos bld evs2 s' []
    | E e :: xs' => exists s', (let (x, s') := seg_read n s in (x, mkBufr s' buf)) = (Err e, s') /\ buf_pos bld evs2 s' xs'
    | B _ :: _ => exists got xs' s', (let (x, s') := seg_read n s in (x, mkBufr s' buf)) = (Ok got, s')
        /\ got <> [] /\ length got <= n /\ map B buf ++ items_of s = map B got ++ xs' /\ buf_pos bld evs2 s' xs'
    end).
  { intros ->. cbn [map app] in *. pose proof (seg_step evs2 n s Hn Hs) as H. destruct (items_of s) as [|[b|e] xs] eqn:Ei.
    - exists (mkBufr s []). rewrite H. split; auto. split; cbn; auto.
    - destruct H as (got & s' & A1 & A2 & A3 & A4 & A5). rewrite A4 in *. exists got, (items_of s'), (mkBufr s' []).
      rewrite A1. repeat split; auto. exact (seg_after evs2 s s' got [] A5 A2).
    - destruct H as (s' & A1 & <- & A3). exists (mkBufr s' []). rewrite A1. split; auto. split; [reflexivity|]. split; [easy|].
      destruct A3; [now left|right]. cbn in *. lia. }
  destruct bld; [|apply Hd; auto]. destruct buf as [|g buf].
  - destruct (cap <=? n) eqn:Ec; [apply Hd; auto|]. apply Nat.leb_gt in Ec. cbn [map app] in *.
    pose proof (seg_step evs2 cap s Hc Hs) as H. destruct (items_of s) as [|[b|e] xs] eqn:Ei.
    + exists (mkBufr s []). rewrite H, firstn_nil, skipn_nil. split; auto. split; cbn; auto.
    + destruct H as (got & s' & A1 & A2 & A3 & A4 & A5). rewrite A1, A4 in *.
      assert (Eg : map B got ++ items_of s' = map B (firstn n got) ++ map B (skipn n got) ++ items_of s').
      { now rewrite app_assoc, <- map_app, firstn_skipn. }
      assert (Hg : firstn n got <> []) by (destruct got, n; cbn; easy || lia).
      exists (firstn n got), (map B (skipn n got) ++ items_of s'), (mkBufr s' (skipn n got)). split; auto.
      split; auto. split; [rewrite firstn_length; lia|]. split; auto. split; [reflexivity|]. split; [easy|]. cbn.
      rewrite Eg in A5. exact (seg_after evs2 s s' _ _ A5 Hg).
    + destruct H as (s' & A1 & <- & A3). exists (mkBufr s' []). rewrite A1. split; auto. split; [reflexivity|]. split; [easy|].
      destruct A3; [now left|right]. cbn in *. lia.
  - destruct n as [|m]; [lia|].
    exists (firstn (S m) (g :: buf)), (map B (skipn (S m) (g :: buf)) ++ items_of s), (mkBufr s (skipn (S m) (g :: buf))).
    split; auto. split; [easy|]. split; [rewrite firstn_length; lia|].
    split; [now rewrite app_assoc, <- map_app, firstn_skipn|]. split; [reflexivity|]. split; [easy|]. cbn [br_inner].
    destruct Hs as [Hs|Hs]; auto. right. rewrite app_length, map_length in *. rewrite skipn_length. cbn [length] in *. lia.
Qed.

Theorem C44_segments : forall bld cap fuel evs1 evs2 first lines v st h payload wire,
  0 < cap -> good_head first lines v st h -> carries h payload wire ->
  items_of evs1 = map B (head_bytes first lines ++ wire) -> length (items_of (evs1 ++ evs2)) + 3 < fuel ->
  exists b s1, response_deserialize bld seg_read fuel (evs1 ++ evs2) = (Ok (mkResponse v st h b), s1)
    /\ forall got o b', drains (body_read bld (bufr_read bld cap seg_read) fuel) b got o b' ->
       got = payload /\ o = None /\ br_buf (body_reader b') = [] /\ br_inner (body_reader b') = evs2.
Proof.
  intros bld cap fuel evs1 evs2 first lines v st h payload wire Hcap Hh Hc Hi Hf.
  assert (Ei : items_of (evs1 ++ evs2) = map B (head_bytes first lines) ++ map B wire ++ items_of evs2).
  { unfold items_of. rewrite flat_map_app. fold (items_of evs1). rewrite Hi, map_app, <- app_assoc. reflexivity. }
  rewrite Ei in Hf.
  destruct (response_accepts_rel bld seg_read (seg_pos evs2) fuel (evs1 ++ evs2) first lines (map B wire ++ items_of evs2) v st h)
    as (b & s1 & E & Hb & (Hs1 & Hs2)); auto using seg_pos_read; [|lia|].
  { split; [now rewrite Ei|]. left. now exists evs1. }
  exists b, s1. split; auto. intros got o b' Hd.
  assert (Hf' : length (map B wire ++ items_of evs2) + 3 < fuel) by (rewrite app_length in Hf; lia).
  assert (Hn : buf_pos bld evs2 (bufr_new s1) (map B wire ++ items_of evs2)).
  { split; [exact Hs1|]. split; [easy|]. exact Hs2. }
  pose proof (carries_read bld (bufr_read bld cap seg_read) (buf_pos bld evs2) (bufr_new s1) h payload wire (items_of evs2) b fuel
    (buf_pos_read bld cap evs2 Hcap) Hb Hc Hn Hf') as He.
  destruct (delivers_end_drains _ _ _ _ _ _ _ He Hd) as (-> & -> & Hp). rewrite lead_map, fault_map in *.
  split; auto. split; auto. destruct (Hp eq_refl) as (A1 & A2 & [(e & A3)|A3]); [|lia].
  rewrite A3 in A1. unfold items_of in A1. rewrite flat_map_app, app_assoc in A1. fold (items_of e) in A1.
  assert (A4 : map B (br_buf (body_reader b')) ++ items_of e = []).
  { apply (app_inv_tail (items_of evs2)). symmetry. exact A1. }
  apply app_eq_nil in A4 as [A4 A5]. split; [now destruct (br_buf (body_reader b'))|]. rewrite A3.
  destruct e as [|[b0 m|e0] e]; easy.
Qed.
Print Assumptions C44_segments.

(** So a length-delimited response that ends with a segment is followed by the next response as if it
    came on a fresh connection, and a chunked one whose final empty line comes in a later segment makes
    reading the next response fail. *)
Theorem C44_segments_chunked : forall bld cap fuel evs1 evs2 zs first lines v st h payload wire,
  0 < cap -> good_head first lines v st h ->
  hm_get (bs "transfer-encoding") h = Some (bs "chunked") -> chunked_wire payload wire ->
  items_of evs1 = map B (head_bytes first lines ++ wire) -> items_of evs2 = map B CRLF ++ zs ->
  length (items_of (evs1 ++ evs2)) + 3 < fuel ->
  exists b s1, response_deserialize bld seg_read fuel (evs1 ++ evs2) = (Ok (mkResponse v st h b), s1)
    /\ forall got o b', drains (body_read bld (bufr_read bld cap seg_read) fuel) b got o b' ->
       got = payload /\ o = None
       /\ exists s2, response_deserialize bld seg_read fuel (br_inner (body_reader b')) = (Err UnexpectedEof, s2)
            /\ items_of s2 = zs.
Proof.
  intros bld cap fuel evs1 evs2 zs first lines v st h payload wire Hcap Hh H1 H2 Hi Hz Hf.
  destruct (C44_segments bld cap fuel evs1 evs2 first lines v st h payload wire) as (b & s1 & E & K); auto.
  { now apply carries_chunks. }
  exists b, s1. split; auto. intros got o b' Hd. destruct (K got o b' Hd) as (-> & -> & A1 & ->). split; auto. split; auto.
  assert (Hl : length (map B CRLF ++ zs) < fuel).
  { unfold items_of in Hf. rewrite flat_map_app, app_length in Hf. fold (items_of evs2) in Hf. rewrite Hz in Hf. lia. }
  assert (R0 : seg_pos [] evs2 (map B CRLF ++ zs)) by (split; [auto|left; exists evs2; now rewrite app_nil_r]).
  destruct (response_items bld seg_read (seg_pos []) evs2 _ fuel (seg_pos_read []) R0 Hl) as (s2 & [D2 _] & E2).
  assert (Er : resp_of bld (map B CRLF ++ zs) = (Err UnexpectedEof, zs)) by (destruct bld; reflexivity).
  rewrite Er in D2, E2. cbn in D2, E2. eauto.
Qed.
Print Assumptions C44_segments_chunked.

(** Two responses. When each comes in a segment of its own, both are read. When both come in one
    segment, the std build loses the second one. A chunked one whose last two bytes come late breaks
    the next one, in both builds; without the buffer it always does. *)
Definition C44_one : bytes := head_bytes (bs "HTTP/1.1 200 OK") [bs "Content-Length: 2"] ++ bs "ab".
Definition C44_two : bytes := head_bytes (bs "HTTP/1.1 200 OK") [bs "Transfer-Encoding: chunked"] ++
  bs "2" ++ CRLF ++ bs "cd" ++ CRLF ++ bs "0" ++ CRLF.
Fixpoint read_all {T} (rd : reader T) (fuel : nat) (t : T) : option (bytes * T) :=
  match fuel with
  | O => None
  | S f => match rd 8 t with
           | (Ok [], t') => Some ([], t')
           | (Ok got, t') => match read_all rd f t' with Some (r, t'') => Some (got ++ r, t'') | None => None end
           | _ => None
           end
  end.
Definition C44_after (bld : build) (evs : list event) : option (bytes * list event) :=
  match response_deserialize bld seg_read 400 evs with
  | (Ok r, s) =>
      match read_all (body_read bld (bufr_read bld 1024 seg_read) 400) 400 (rs_body r) with
      | Some (data, b) => Some (data, br_inner (body_reader b))
      | None => None
      end
  | _ => None
  end.
Example C44_case :
  good_head (bs "HTTP/1.1 200 OK") [bs "Content-Length: 2"] (mkVersion 1 1) OK [(bs "content-length", bs "2")]
  /\ carries [(bs "content-length", bs "2")] (bs "ab") (bs "ab")
  /\ C44_after Std (text C44_one ++ text C44_two) = Some (bs "ab", text C44_two)
  /\ C44_after Std (text (C44_one ++ C44_two)) = Some (bs "ab", [])
  /\ C44_after NoStd (text (C44_one ++ C44_two)) = Some (bs "ab", text C44_two)
  /\ C44_after Std (text (C44_two ++ CRLF) ++ text C44_one) = Some (bs "cd", text C44_one)
  /\ C44_after Std (text C44_two ++ text (CRLF ++ C44_one)) = Some (bs "cd", text (CRLF ++ C44_one))
  /\ C44_after NoStd (text (C44_two ++ CRLF) ++ text C44_one) = Some (bs "cd", text CRLF ++ text C44_one)
  /\ fst (response_deserialize Std seg_read 400 (text (CRLF ++ C44_one))) = Err UnexpectedEof.
Proof.
  assert (H2 : u64_text (bs "2") 2).
  { split; [reflexivity|]. left. split; [easy|]. exists [2%N]. split; [|reflexivity]. repeat constructor; vm_compute; congruence. }
  split; [|split; [|repeat split; vm_compute; reflexivity]].
  - assert (TL : forall l, l <> [] -> forallb (fun b => bval b <? 128)%N l = true -> ~ In CR l -> text_line l).
    { intros l A1 A2 A3. split; auto. split; [now apply no_cr_no_crlf|]. now apply utf8_bs_ascii. }
    assert (T1 : text_line (bs "HTTP/1.1 200 OK")) by (apply TL; try reflexivity; cbn; intuition easy).
    assert (T2 : text_line (bs "Content-Length: 2")) by (apply TL; try reflexivity; cbn; intuition easy).
    split; auto. split; auto. split; [apply status_line_meaning; [apply T1|reflexivity]|]. split.
    + exists [bs "Content-Length: 2"], [(bs "content-length", bs "2")]. repeat split.
      * change (folded (bs "Content-Length: 2" :: [] ++ []) [bs "Content-Length: 2" ++ concat []]). constructor; try easy. constructor.
      * constructor; auto. exists (bs "Content-Length"), (bs "2"). repeat split; auto. intros H. vm_compute in H.
        repeat (destruct H as [H|H]; [discriminate|]). destruct H.
    + intros w Hw. vm_compute in Hw. injection Hw as <-. exists 2%N. exact H2.
  - apply carries_length with (bs "2"); easy.
Qed.
