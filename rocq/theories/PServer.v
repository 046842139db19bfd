(** Properties C46-C51: the server. *)
From Verif Require Import Base Utf8 Case Num Io Parser Types Message Outgoing Server Transport.
From Verif Require Import Lemmas ReadLemmas NumLemmas ChunkSpec ChunkLemmas BodyLemmas WriteLemmas ParserLemmas CaseLemmas
  TypesLemmas HeadLemmas BlockLemmas MsgLemmas SimLemmas KeepLemmas ErrLemmas PBody PIo PParse PHead POut PReuse.

(** ** A request on the wire *)
Definition good_request (first : bytes) (lines : list bytes) (m : method) (u : bytes) (v : version) (h : headers) : Prop :=
  text_line first /\ Forall text_line lines /\ request_line_says first m u v /\ accepted_block lines h /\ good_length h.

Lemma request_accepts_rel {T} bld (rd : reader T) R fuel t first lines zs m u v h : reader_pos rd R ->
  good_request first lines m u v h -> R t (map B (head_bytes first lines) ++ zs) ->
  length (map B (head_bytes first lines) ++ zs) < fuel ->
  exists b t', request_deserialize bld rd fuel t = (Ok (mkRequest m u v h b), t') /\ framed h t' b /\ R t' zs.
Proof.
  intros HR (Hf & Hl & Hr & Ha & Hc) D Hlen. destruct (good_length_of h Hc) as [n Hcl]. unfold head_bytes in *.
  rewrite (app_assoc first CRLF), (map_app B (first ++ CRLF)), <- app_assoc in D, Hlen.
  destruct (request_items bld rd R t _ fuel HR D Hlen) as (t' & D' & ->).
  rewrite (req_of_line bld first (m, u, v)), (hdrs_accept_exact bld lines h) in *; auto;
    try (apply request_line_accepted; auto; apply Hf).
  cbn [sbind] in *. rewrite Hcl in *. cbn in *. eexists _, t'. split; [reflexivity|]. split; auto. now apply framed_new.
Qed.

(** The handler method a request is meant for. *)
Definition plain_method {H} (hd : handler H) (m : method) : option (bytes -> H -> hresult * H) :=
  match m with
  | Delete => Some (h_delete hd) | Get => Some (h_get hd) | Head => Some (h_head hd)
  | Options => Some (h_options hd) | Trace => Some (h_trace hd)
  | Put | Post => None
  end.
Definition body_method {H} (hd : handler H) (m : method) : option (bytes -> H -> prog (hresult * H)) :=
  match m with Put => Some (h_put hd) | Post => Some (h_post hd) | _ => None end.

(** The request says how long its body is. *)
Definition sized (h : headers) : Prop :=
  hm_get (bs "transfer-encoding") h = Some (bs "chunked") \/ hm_get (bs "content-length") h <> None.

Lemma sized_dec h : {sized h} + {hm_get (bs "transfer-encoding") h <> Some (bs "chunked") /\ hm_get (bs "content-length") h = None}.
Proof.
  unfold sized. destruct (hm_get (bs "content-length") h) as [v|]; [left; now right|].
  destruct (hm_get (bs "transfer-encoding") h) as [e|]; [|right; now split].
  destruct (beqb e (bs "chunked")) eqn:E.
  - apply beqb_true in E. subst. left. now left.
  - right. split; auto. intros [= ->]. now rewrite beqb_refl in E.
Qed.

Lemma framed_length {T} h (t : T) b : framed h t b ->
  (sized h -> require_length b = Ok tt)
  /\ (hm_get (bs "transfer-encoding") h <> Some (bs "chunked") -> hm_get (bs "content-length") h = None ->
      require_length b = Err LengthRequired).
Proof.
  intros (len & Hl & Hb). split.
  - intros Hs. destruct Hb as [[_ ->]|[Ht ->]]; auto. destruct len; auto.
    destruct Hl as [[Hl _]|(v & n & _ & _ & Hn)]; [|easy]. destruct Hs; easy.
  - intros H1 H2. destruct Hb as [[Hb _]|[_ ->]]; [easy|]. destruct Hl as [[_ ->]|(v & n & Hl & _)]; [easy|congruence].
Qed.

(** ** C46. Dispatch *)
(** A request that parses leads to one call, of the method it names, on its uri. Other methods than
    PUT and POST see nothing of the body: what they return is what is answered. PUT and POST are
    given the body as framed by the headers, standing at the first byte after the head. *)
Theorem C46_dispatch : forall S H bld cap (rd : reader S) etext (hd : handler H) fuel hs s first lines zs m u v h,
  0 < cap -> good_request first lines m u v h ->
  delivers rd s (map B (head_bytes first lines) ++ zs) -> length (map B (head_bytes first lines) ++ zs) < fuel ->
  forall r cs hs' s', serve_one_inner bld cap rd etext hd fuel hs s = (r, cs, hs', s') ->
  (forall f, plain_method hd m = Some f -> cs = [Called m u] /\ (r, hs') = f u hs)
  /\ (forall f, body_method hd m = Some f -> sized h ->
        cs = [Called m u]
        /\ exists t b x b', framed h t b /\ delivers (bufr_read bld cap rd) t zs
           /\ run_prog bld (bufr_read bld cap rd) fuel fuel (f u hs) b = (x, b')
           /\ match x with
              | Ok out => (r, hs') = out
              | Err e => r = Err e /\ hs' = hs
              | Panic => r = Panic /\ hs' = hs
              | Fuel => r = Fuel /\ hs' = hs
              end).
Proof.
  intros S H bld cap rd etext hd fuel hs s first lines zs m u v h Hcap Hq (R & HR & Hs) Hf r cs hs' s' E.
  destruct (request_accepts_rel bld (bufr_read bld cap rd) (bufr_rel bld R) fuel (bufr_new s) first lines zs m u v h
    (bufr_read_pos bld cap rd R Hcap HR) Hq (bufr_new_rel bld R s _ Hs) Hf) as (b & t & Eq & Hb & Ht).
  unfold serve_one_inner in E. rewrite Eq in E. cbn [rq_method rq_uri rq_body] in E.
  assert (Dt : delivers (bufr_read bld cap rd) t zs) by (exists (bufr_rel bld R); auto using bufr_read_pos).
  assert (K : forall f, body_call bld cap rd etext m u (f u hs) b hs fuel s = (r, cs, hs', s') -> sized h ->
        cs = [Called m u]
        /\ exists t b x b', framed h t b /\ delivers (bufr_read bld cap rd) t zs
           /\ run_prog bld (bufr_read bld cap rd) fuel fuel (f u hs) b = (x, b')
           /\ match x with
              | Ok out => (r, hs') = out
              | Err e => r = Err e /\ hs' = hs
              | Panic => r = Panic /\ hs' = hs
              | Fuel => r = Fuel /\ hs' = hs
              end).
  { intros f Ec Hz. unfold body_call in Ec. rewrite (proj1 (framed_length h t b Hb) Hz) in Ec.
    destruct (run_prog bld (bufr_read bld cap rd) fuel fuel (f u hs) b) as [x b'] eqn:Ep.
    split.
    - destruct x as [[r0 h0]|e| |]; now inversion Ec.
    - exists t, b, x, b'. repeat (split; [assumption|]). destruct x as [[r0 h0]|e| |]; inversion Ec; subst; auto. }
  destruct m; unfold plain_call in E; (split; [intros f [= <-]|intros f [= <-]; auto]); inversion E; subst; split; auto;
    symmetry; apply surjective_pairing.
Qed.
Print Assumptions C46_dispatch.

(** What a program can compute from a body of the bytes [data]: every read with a non-empty buffer
    gets some of the next bytes, any number that fits, and end of file after the last.
    [len k] is what [content_length] returns with [k] bytes to go. *)
Inductive runs {A} (len : nat -> option N) : prog A -> bytes -> A -> Prop :=
| runs_ret a d : runs len (Ret a) d a
| runs_read n k got rest a : got <> [] -> length got <= n -> runs len (k (Got got)) rest a ->
    runs len (ReadBody n k) (got ++ rest) a
| runs_end n k a : 0 < n -> runs len (k (Got [])) [] a -> runs len (ReadBody n k) [] a
| runs_length k d a : runs len (k (len (length d))) d a -> runs len (BodyLength k) d a.

(** The program returns after fewer than [n] steps on that body, however the reads turn out. *)
Inductive stops {A} (len : nat -> option N) : nat -> prog A -> bytes -> Prop :=
| stops_ret n a d : stops len (S n) (Ret a) d
| stops_read n m k d : (forall got rest, d = got ++ rest -> length got <= m -> (got = [] -> d = []) -> stops len n (k (Got got)) rest) ->
    stops len (S n) (ReadBody m k) d
| stops_length n k d : stops len n (k (len (length d))) d -> stops len (S n) (BodyLength k) d.

(** Programs that never read with an empty buffer (see C09 for what happens if they do). *)
CoInductive reads_some {A} : prog A -> Prop :=
| reads_ret a : reads_some (Ret a)
| reads_read n k : 0 < n -> (forall o, reads_some (k o)) -> reads_some (ReadBody n k)
| reads_length k : (forall o, reads_some (k o)) -> reads_some (BodyLength k).

(** [content_length] of a body that [carries] a payload: for a length-delimited one what is left of it, for a
    chunked one the Content-Length header, if any. *)
Definition length_left (h : headers) (len : nat -> option N) : Prop :=
  (hm_get (bs "transfer-encoding") h <> Some (bs "chunked") /\ forall k, len k = Some (N.of_nat k))
  \/ (hm_get (bs "transfer-encoding") h = Some (bs "chunked")
      /\ ((hm_get (bs "content-length") h = None /\ forall k, len k = None)
          \/ exists w n, hm_get (bs "content-length") h = Some w /\ u64_text w n /\ forall k, len k = Some n)).

Lemma body_length_step {T} bld (rd : reader T) fuel n b x b' : body_read bld rd fuel n b = (Ok x, b') ->
  match b with
  | BChunked l _ => exists c, b' = BChunked l c
  | BLimited l _ => exists t', b' = BLimited (l - N.of_nat (length x)) t'
  | BTilClose _ => exists t', b' = BTilClose t'
  end.
Proof.
  destruct b as [l c|l t|t]; cbn [body_read].
  - destruct (chunked_read bld rd fuel n c) as [y c']. intros E. inversion E; subst. eauto.
  - unfold take_read. destruct (l =? 0)%N eqn:E0.
    + intros E. inversion E; subst. apply N.eqb_eq in E0. subst. cbn. eauto.
    + destruct (rd (N.to_nat (N.min (N.of_nat n) l)) t) as [[got|e| |] t']; try easy.
      destruct (_ <=? _)%N; [|easy]. intros E. inversion E; subst. eauto.
  - destruct (rd n t) as [y t']. intros E. inversion E; subst. eauto.
Qed.

Lemma run_prog_runs {A T} bld (rd : reader T) bfuel len R (I : hbody T -> bytes -> Prop)
    (HR : reader_pos (body_read bld rd bfuel) R)
    (HI : forall n b b' got rest, I b (got ++ rest) -> body_read bld rd bfuel n b = (Ok got, b') -> I b' rest)
    (HL : forall b d, I b d -> body_content_length b = len (length d)) :
  forall fuel (p : prog A) b data x b', R b (map B data) -> I b data -> reads_some p ->
  run_prog bld rd bfuel fuel p b = (x, b') ->
  (x = Fuel /\ ~ stops len fuel p data) \/ exists a, x = Ok a /\ runs len p data a.
Proof.
  induction fuel as [|f IH]; intros p b data x b' Hb Hc Hp H; cbn [run_prog] in H.
  { injection H as <- <-. left. split; auto. intros Hs. inversion Hs. }
  destruct p as [a|n k|k].
  - injection H as <- <-. right. exists a. split; auto. constructor.
  - inversion Hp as [|n' k' Hn Hk|]; subst. pose proof (HR n b (map B data) Hn Hb) as Hr.
    destruct data as [|d data]; cbn [map] in Hr.
    + destruct Hr as (b1 & E1 & Hb1). rewrite E1 in H.
      destruct (IH (k (Got [])) b1 [] x b' Hb1) as [[-> Hn']|(a & -> & Ha)]; auto.
      * exact (HI n b b1 [] [] Hc E1).
      * left. split; auto. intros Hs. inversion Hs as [|? ? ? ? Hk'|]; subst. apply Hn', (Hk' [] []); auto. cbn. lia.
      * right. exists a. split; auto. now constructor.
    + destruct Hr as (got & xs' & b1 & E1 & Hg & Hlen & Ex & Hb1).
      assert (Er : exists rest, d :: data = got ++ rest /\ xs' = map B rest).
      { clear - Ex. change (B d :: map B data) with (map B (d :: data)) in Ex. revert Ex. generalize (d :: data). clear.
        induction got as [|g got IH]; intros l Ex; [exists l; auto|]. destruct l as [|c l]; [easy|].
        cbn in Ex. injection Ex as -> Ex. destruct (IH l Ex) as (rest & -> & ->). exists rest. auto. }
      destruct Er as (rest & Er & ->). rewrite Er in *. rewrite E1 in H.
      destruct (IH (k (Got got)) b1 rest x b' Hb1) as [[-> Hn']|(a & -> & Ha)]; auto.
      * exact (HI n b b1 got rest Hc E1).
      * left. split; auto. intros Hs. inversion Hs as [|? ? ? ? Hk'|]; subst. apply Hn', Hk'; auto. easy.
      * right. exists a. split; auto. now constructor.
  - inversion Hp as [| |k' Hk]; subst. rewrite (HL _ _ Hc) in H. destruct (IH _ _ data _ _ Hb Hc (Hk _) H) as [[-> Hn']|(a & -> & Ha)]; auto.
    { left. split; auto. intros Hs. now inversion Hs. }
    right. exists a. split; auto. now constructor.
Qed.

(** If the body is well-formed, the handler computes its answer from exactly the payload bytes, whatever the
    segmentation and the buffer sizes it chooses. *)
Theorem C46_body : forall S H bld cap (rd : reader S) etext (hd : handler H) fuel hs s first lines zs m u v h payload wire f,
  0 < cap -> good_request first lines m u v h -> body_method hd m = Some f -> carries h payload wire ->
  delivers rd s (map B (head_bytes first lines ++ wire) ++ zs) ->
  length (map B (head_bytes first lines ++ wire) ++ zs) + 3 < fuel ->
  reads_some (f u hs) ->
  forall r cs hs' s', serve_one_inner bld cap rd etext hd fuel hs s = (r, cs, hs', s') ->
  cs = [Called m u] /\ exists len, length_left h len
    /\ ((r = Fuel /\ hs' = hs /\ ~ stops len fuel (f u hs) payload) \/ runs len (f u hs) payload (r, hs')).
Proof.
  intros S H bld cap rd etext hd fuel hs s first lines zs m u v h payload wire f Hcap Hq Hm Hc Hs Hf Hp r cs hs' s' E.
  rewrite map_app, <- app_assoc in Hs, Hf.
  destruct (C46_dispatch S H bld cap rd etext hd fuel hs s first lines (map B wire ++ zs) m u v h Hcap Hq Hs ltac:(lia)
    r cs hs' s' E) as [_ K].
  assert (Hz : sized h).
  { destruct Hc; [right; congruence|now left]. }
  destruct (K f Hm Hz) as (-> & t & b & x & b' & Hfr & (R & HR & Ht) & Ep & Hx). split; auto.
  rewrite app_length in Hf.
  destruct (carries_read bld (bufr_read bld cap rd) R t h payload wire zs b fuel HR Hfr Hc Ht ltac:(lia)) as (R' & HR' & Hb & _).
  assert (Hl : exists len (I : hbody (bufr S) -> bytes -> Prop), length_left h len /\ I b payload
     /\ (forall n b b' got rest, I b (got ++ rest) -> body_read bld (bufr_read bld cap rd) fuel n b = (Ok got, b') -> I b' rest)
     /\ (forall b d, I b d -> body_content_length b = len (length d))).
  { destruct Hfr as (l & Hl & Hfb). destruct Hc as [w H1 H2 H3|wire H1 Hw].
    - exists (fun k => Some (N.of_nat k)), (fun b d => exists t, b = BLimited (N.of_nat (length d)) t).
      split; [now left|]. split; [|split].
      + destruct Hfb as [[Hfb _]|[_ ->]]; [easy|]. destruct Hl as [[Hl _]|(w' & n & Hl & Hn & ->)]; [congruence|].
        rewrite H2 in Hl. injection Hl as <-.
        assert (En : n = N.of_nat (length payload)).
        { pose proof (content_length_good h w _ H2 Hn). pose proof (content_length_good h w _ H2 H3). congruence. }
        subst. eauto.
      + intros n0 b0 b1 got rest (t0 & ->) Eb. apply body_length_step in Eb as (t1 & ->). exists t1. f_equal.
        rewrite app_length. lia.
      + intros b0 d (t0 & ->). reflexivity.
    - exists (fun _ => l), (fun b _ => exists c, b = BChunked l c).
      destruct Hfb as [[_ ->]|[Hfb _]]; [|easy]. split; [|split; [|split]].
      + right. split; auto. destruct Hl as [[Hl ->]|(w' & n & Hl & Hn & ->)]; [now left|right]. eauto.
      + eauto.
      + intros n0 b0 b1 got rest (c & ->) Eb. apply body_length_step in Eb. exact Eb.
      + intros b0 d (c & ->). reflexivity. }
  destruct Hl as (len & I & Hll & Ib & HI & HL).
  destruct (run_prog_runs bld (bufr_read bld cap rd) fuel len R' I HR' HI HL fuel (f u hs) b payload x b' Hb Ib Hp Ep)
    as [[-> Hn]|(a & -> & Ha)]; exists len; split; auto.
  - left. destruct Hx. auto.
  - right. now rewrite Hx.
Qed.
Print Assumptions C46_body.

(** What a program can compute from a body that delivers the items [xs], errors included: it is told of every error, in
    its place. [content_length] may answer anything here. *)
Inductive sees {A} : prog A -> list item -> A -> Prop :=
| sees_ret a xs : sees (Ret a) xs a
| sees_read n k got xs a : got <> [] -> length got <= n -> sees (k (Got got)) xs a -> sees (ReadBody n k) (map B got ++ xs) a
| sees_error n k e xs a : sees (k (Failed e)) xs a -> sees (ReadBody n k) (E e :: xs) a
| sees_end n k a : 0 < n -> sees (k (Got [])) [] a -> sees (ReadBody n k) [] a
| sees_length k o xs a : sees (k o) xs a -> sees (BodyLength k) xs a.
(** The program returns after fewer than [n] steps on that body, however the reads turn out. *)
Inductive halts {A} : nat -> prog A -> list item -> Prop :=
| halts_ret n a xs : halts (S n) (Ret a) xs
| halts_read n m k xs :
    (forall got ys, xs = map B got ++ ys -> length got <= m -> (got = [] -> xs = []) -> halts n (k (Got got)) ys) ->
    (forall e ys, xs = E e :: ys -> halts n (k (Failed e)) ys) -> halts (S n) (ReadBody m k) xs
| halts_length n k xs : (forall o, halts n (k o) xs) -> halts (S n) (BodyLength k) xs.

Lemma run_prog_sees {A T} bld (rd : reader T) bfuel R (HR : reader_pos (body_read bld rd bfuel) R) :
  forall fuel (p : prog A) b xs x b', R b xs -> reads_some p -> run_prog bld rd bfuel fuel p b = (x, b') ->
  (x = Fuel /\ ~ halts fuel p xs) \/ exists a, x = Ok a /\ sees p xs a.
Proof.
  induction fuel as [|f IH]; intros p b xs x b' Hb Hp H; cbn [run_prog] in H.
  { injection H as <- <-. left. split; auto. intros Hs. inversion Hs. }
  destruct p as [a|n k|k].
  - injection H as <- <-. right. exists a. split; auto. constructor.
  - inversion Hp as [|n' k' Hn Hk|]; subst. pose proof (HR n b xs Hn Hb) as Hr. destruct xs as [|[c|e] xs].
    + destruct Hr as (b1 & E1 & Hb1). rewrite E1 in H.
      destruct (IH _ _ _ _ _ Hb1 (Hk _) H) as [[-> Hn']|(a & -> & Ha)].
      * left. split; auto. intros Hs. inversion Hs as [|? ? ? ? Hk' _|]; subst. apply Hn', (Hk' [] []); auto. cbn. lia.
      * right. exists a. split; auto. now constructor.
    + destruct Hr as (got & ys & b1 & E1 & Hg & Hlen & Ex & Hb1). rewrite E1 in H.
      destruct (IH _ _ _ _ _ Hb1 (Hk _) H) as [[-> Hn']|(a & -> & Ha)].
      * left. split; auto. intros Hs. inversion Hs as [|? ? ? ? Hk' _|]; subst. now apply Hn', Hk'.
      * right. exists a. split; auto. rewrite Ex. now constructor.
    + destruct Hr as (b1 & E1 & Hb1). rewrite E1 in H.
      destruct (IH _ _ _ _ _ Hb1 (Hk _) H) as [[-> Hn']|(a & -> & Ha)].
      * left. split; auto. intros Hs. inversion Hs as [|? ? ? ? _ Hk'|]; subst. now apply Hn', Hk'.
      * right. exists a. split; auto. now constructor.
  - inversion Hp as [| |k' Hk]; subst. destruct (IH _ _ _ _ _ Hb (Hk _) H) as [[-> Hn']|(a & -> & Ha)].
    + left. split; auto. intros Hs. inversion Hs; subst. auto.
    + right. exists a. split; auto. eapply sees_length; eauto.
Qed.

(** A handler of a request with a Content-Length is told of the errors among the announced bytes, and of nothing behind
    them; a stream that ends early looks like the end of the body (C12). *)
Theorem C46_limited_body : forall S H bld cap (rd : reader S) etext (hd : handler H) fuel hs s first lines zs m u v h w n f,
  0 < cap -> good_request first lines m u v h -> body_method hd m = Some f ->
  hm_get (bs "transfer-encoding") h <> Some (bs "chunked") -> hm_get (bs "content-length") h = Some w -> u64_text w n ->
  delivers rd s (map B (head_bytes first lines) ++ zs) -> length (map B (head_bytes first lines) ++ zs) + 3 < fuel ->
  reads_some (f u hs) ->
  forall r cs hs' s', serve_one_inner bld cap rd etext hd fuel hs s = (r, cs, hs', s') ->
  cs = [Called m u]
  /\ ((r = Fuel /\ hs' = hs /\ ~ halts fuel (f u hs) (take_items n zs)) \/ sees (f u hs) (take_items n zs) (r, hs')).
Proof.
  intros S H bld cap rd etext hd fuel hs s first lines zs m u v h w n f Hcap Hq Hm Hte Hw Hn Hs Hf Hp r cs hs' s' E.
  destruct (C46_dispatch S H bld cap rd etext hd fuel hs s first lines zs m u v h Hcap Hq Hs ltac:(lia)
    r cs hs' s' E) as [_ K].
  destruct (K f Hm ltac:(right; congruence)) as (-> & t & b & x & b' & (l & Hl & Hfb) & Dt & Ep & Hx). split; auto.
  destruct Hfb as [[Hfb _]|[_ ->]]; [easy|]. destruct Hl as [[Hl _]|(w' & n' & Hl & Hn' & ->)]; [congruence|].
  assert (n' = n).
  { rewrite Hw in Hl. injection Hl as <-. pose proof (content_length_good h w _ Hw Hn). pose proof (content_length_good h w _ Hw Hn'). congruence. }
  subst n'.
  destruct (limited_delivers bld _ t zs n fuel Dt) as (R & HR & Hb).
  destruct (run_prog_sees bld _ fuel R HR fuel (f u hs) _ _ x b' Hb Hp Ep) as [[-> Hn2]|(a & -> & Ha)].
  - left. destruct Hx. auto.
  - right. now rewrite Hx.
Qed.
Print Assumptions C46_limited_body.

(** A handler of a chunked request whose stream ends or fails before the end of the body gets a part of the payload and
    then an error. *)
Theorem C46_broken_body : forall S H bld cap (rd : reader S) etext (hd : handler H) fuel hs s first lines m u v h payload wire cut missing tail f,
  0 < cap -> good_request first lines m u v h -> body_method hd m = Some f ->
  hm_get (bs "transfer-encoding") h = Some (bs "chunked") ->
  chunked_wire payload wire -> wire = cut ++ missing -> missing <> [] ->
  (tail = [] \/ exists e ys, tail = E e :: ys /\ is_retry bld e = false) ->
  delivers rd s (map B (head_bytes first lines ++ cut) ++ tail) ->
  length (map B (head_bytes first lines ++ cut) ++ tail) + 3 < fuel ->
  reads_some (f u hs) ->
  forall r cs hs' s', serve_one_inner bld cap rd etext hd fuel hs s = (r, cs, hs', s') ->
  cs = [Called m u]
  /\ exists p q e, payload = p ++ q
    /\ (forall e0 ys, tail = E e0 :: ys -> e = e0 \/ e = to_io bld e0) /\ (tail = [] -> e = io_eof bld \/ e = to_io bld UnexpectedEof)
    /\ ((r = Fuel /\ hs' = hs /\ ~ halts fuel (f u hs) (map B p ++ [E e])) \/ sees (f u hs) (map B p ++ [E e]) (r, hs')).
Proof.
  intros S H bld cap rd etext hd fuel hs s first lines m u v h payload wire cut missing tail f Hcap Hq Hm Hte Hw Ew Hmi Htl Hs Hf Hp r cs hs' s' Es.
  rewrite map_app, <- app_assoc in Hs, Hf. rewrite app_length in Hf.
  destruct (C46_dispatch S H bld cap rd etext hd fuel hs s first lines (map B cut ++ tail) m u v h Hcap Hq Hs ltac:(rewrite app_length; lia)
    r cs hs' s' Es) as [_ K].
  destruct (K f Hm ltac:(now left)) as (-> & t & b & x & b' & (l & Hl & Hfb) & Dt & Ep & Hx). split; auto.
  destruct Hfb as [[_ ->]|[Hfb _]]; [|easy].
  assert (D : exists p q e, payload = p ++ q
     /\ (forall e0 ys, tail = E e0 :: ys -> e = e0 \/ e = to_io bld e0) /\ (tail = [] -> e = io_eof bld \/ e = to_io bld UnexpectedEof)
     /\ delivers (body_read bld (bufr_read bld cap rd) fuel) (BChunked l (CStream t)) (map B p ++ [E e])).
  { destruct Htl as [->|(e0 & ys & -> & Hr)].
    - rewrite app_nil_r in *.
      destruct (C06_truncated_is_error _ bld _ t payload wire cut missing l fuel Hw Ew Hmi Dt ltac:(lia)) as (p & q & e & Epq & Hk & D & _).
      exists p, q, e. split; [|split; [|split]]; auto. intros; discriminate.
    - destruct (C10_covers_all_cuts payload wire cut missing Hw Ew Hmi) as (p & q & Epq & Hpw).
      destruct (C10_error_reported_once _ bld _ t p cut e0 ys l fuel Hpw Hr Dt ltac:(lia)) as (e' & He & R & HR & Hb & _).
      exists p, q, e'. split; [|split; [|split]]; auto.
      + intros e1 ys1 [= -> ->]. auto.
      + discriminate.
      + exists R. auto. }
  destruct D as (p & q & e & Epq & He & He2 & R & HR & Hb). exists p, q, e. split; [|split; [|split]]; auto.
  destruct (run_prog_sees bld _ fuel R HR fuel (f u hs) _ _ x b' Hb Hp Ep) as [[-> Hn2]|(a & -> & Ha)].
  - left. destruct Hx. auto.
  - right. now rewrite Hx.
Qed.
Print Assumptions C46_broken_body.

(** Reading a body to its end with buffers of [n] bytes and going on with what was read. *)
CoFixpoint slurp {A} (n : nat) (done : bytes -> prog A) (failed : error -> prog A) (acc : bytes) : prog A :=
  ReadBody n (fun o => match o with
                       | Got [] => done acc
                       | Got d => slurp n done failed (acc ++ d)
                       | Failed e => failed e
                       end).
Lemma unfold_prog {A} (p : prog A) :
  p = match p with Ret a => Ret a | ReadBody n k => ReadBody n k | BodyLength k => BodyLength k end.
Proof. now destruct p. Qed.
Lemma slurp_eq {A} n (done : bytes -> prog A) failed acc : slurp n done failed acc =
  ReadBody n (fun o => match o with
                       | Got [] => done acc
                       | Got d => slurp n done failed (acc ++ d)
                       | Failed e => failed e
                       end).
Proof. now rewrite (unfold_prog (slurp n done failed acc)) at 1. Qed.

Lemma slurp_runs {A} len n (done : bytes -> prog A) failed : forall data acc a,
  runs len (slurp n done failed acc) data a -> runs len (done (acc ++ data)) [] a.
Proof.
  intros data acc a H. remember (slurp n done failed acc) as p eqn:Ep. revert acc Ep.
  induction H as [| n0 k got rest a Hg Hn H IH|n0 k a Hn H _|]; intros acc Ep; rewrite slurp_eq in Ep; try easy.
  - injection Ep as -> ->. destruct got as [|g got]; [easy|]. rewrite app_assoc. apply IH. reflexivity.
  - injection Ep as -> ->. now rewrite app_nil_r.
Qed.
Lemma slurp_reads_some {A} n (done : bytes -> prog A) failed : 0 < n ->
  (forall d, reads_some (done d)) -> (forall e, reads_some (failed e)) -> forall acc, reads_some (slurp n done failed acc).
Proof.
  intros Hn H1 H2. cofix IH. intros acc. rewrite slurp_eq. constructor; auto. intros [[|d data]|e]; auto.
Qed.
Lemma slurp_stops {A} len n (done : bytes -> prog A) failed k : forall data acc, 0 < n ->
  stops len k (done (acc ++ data)) [] -> stops len (Datatypes.S (length data) + k) (slurp n done failed acc) data.
Proof.
  intros data. remember (length data) as l eqn:El. revert data El. induction l as [l IH] using lt_wf_ind. intros data -> acc Hn H.
  rewrite slurp_eq. constructor. intros got rest -> Hg He. destruct got as [|g got].
  - specialize (He eq_refl). cbn in He. subst rest. cbn. now rewrite app_nil_r in H.
  - assert (Hl : length rest < length ((g :: got) ++ rest)) by (rewrite app_length; cbn; lia).
    pose proof (IH _ Hl rest eq_refl (acc ++ g :: got) Hn) as Hs. rewrite <- app_assoc in Hs. specialize (Hs H).
    clear - Hs Hl. revert Hs. rewrite app_length. cbn [length]. generalize (slurp n done failed (acc ++ g :: got)). intros p Hs.
    assert (Hm : forall a b (q : prog A) d, stops len a q d -> a <= b -> stops len b q d).
    { clear. intros a b q d H. revert b. induction H as [a x d|a m k d H IH|a k d H IH]; intros b Hb; (destruct b as [|b]; [lia|]);
        constructor; intros; [eapply IH|apply IH]; eauto; lia. }
    eapply Hm; [exact Hs|]. change (Datatypes.S (length rest) + k <= Datatypes.S (length got) + length rest + k). lia.
Qed.

(** ** Response bodies and writing a response *)
Lemma dyn_read_of {T} (rd : reader T) n t : dyn_read n (dyn_of rd t) = (fst (rd n t), dyn_of rd (snd (rd n t))).
Proof. cbn. now destruct (rd n t). Qed.
Lemma dyn_delivers {T} (rd : reader T) t xs : delivers rd t xs -> delivers dyn_read (dyn_of rd t) xs.
Proof. apply delivers_embed. intros. apply dyn_read_of. Qed.
(** The body of a response built from a string is that string. *)
Lemma from_string_delivers bld cap fuel st s : 0 < cap ->
  delivers (body_read bld (bufr_read bld cap dyn_read) fuel) (rs_body (from_string st s)) (map B s).
Proof.
  intros Hc. apply tilclose_delivers, bufr_delivers, dyn_delivers; auto.
  pose proof (delivers0_delivers _ _ _ (C36_cursor s 0%N)) as H. now rewrite N.min_0_l in H.
Qed.

(** The bytes of a whole response whose body is [data]. *)
Definition response_wire {B} (r : response B) (data : bytes) : bytes :=
  status_line_of (rs_version r) (rs_status r) ++ CRLF ++ concat (headers_pieces (rs_headers r)) ++ CRLF ++ data.

Lemma respond_log {S} bld cap (wt : writer S) log bufsz fuel r xs s x s' : honest wt log -> 0 < bufsz ->
  delivers (body_read bld (bufr_read bld cap dyn_read) fuel) (rs_body r) xs ->
  respond bld cap wt bufsz fuel r s = (x, s') ->
  exists data xs1 xs2 p, xs = xs1 ++ xs2 /\ noisy bld data xs1 /\ prefix p (response_wire r data) /\ log s' = log s ++ p
    /\ (forall y, x = Ok y -> xs2 = [] /\ p = response_wire r data).
Proof.
  intros Hh Hz Hd H. unfold respond in H.
  assert (Ew : forall d, response_wire r d = concat (response_pieces r) ++ d).
  { intros d. rewrite response_pieces_wire. unfold response_wire. now rewrite <- !app_assoc. }
  destruct (write_pieces bld wt fuel (response_pieces r) s) as [w s1] eqn:E1.
  apply (write_pieces_log wt log Hh) in E1 as [(p & Hp & Hl) Hok].
  destruct w as [u|e| |].
  2-4: injection H as <- <-; exists [], [], xs, p; rewrite Ew, app_nil_r; repeat split; auto using noisy_nil; easy.
  specialize (Hok (ex_intro _ u eq_refl)).
  destruct (copy bld _ wt bufsz fuel (rs_body r) s1) as [y [b' s2]] eqn:E2. unfold copy in E2.
  apply (copy_log bld _ _ log bufsz Hz (fun d w r0 w' Hw => write_all_log wt log Hh bld fuel d w r0 w' Hw)) with (xs := xs) in E2 as
    (data & xs1 & xs2 & q & -> & Hn & Hq & Hl2 & Hy); auto.
  exists data, xs1, xs2, (concat (response_pieces r) ++ q). rewrite Ew.
  assert (Es : s2 = s') by (destruct y; now injection H).
  split; auto. split; auto. split; [now apply prefix_cons|]. split; [rewrite <- Es, Hl2, Hok; now rewrite app_assoc|].
  intros z ->. destruct y as [n|e| |]; try easy. destruct Hy as (-> & -> & _). auto.
Qed.

Lemma respond_reliable {S} bld cap (wt : writer S) log bufsz fuel r xs data s : honest wt log -> reliable wt -> 0 < bufsz ->
  delivers (body_read bld (bufr_read bld cap dyn_read) fuel) (rs_body r) xs -> noisy bld data xs ->
  length (response_wire r []) <= fuel -> bufsz <= fuel -> length xs < fuel ->
  exists s', respond bld cap wt bufsz fuel r s = (Ok tt, s') /\ log s' = log s ++ response_wire r data.
Proof.
  intros Hh Hr Hz Hd Hn H1 H2 H3. unfold respond.
  assert (Ew : forall d, response_wire r d = concat (response_pieces r) ++ d).
  { intros d. rewrite response_pieces_wire. unfold response_wire. now rewrite <- !app_assoc. }
  rewrite Ew, app_nil_r in H1.
  destruct (write_pieces_reliable wt log Hh bld fuel (response_pieces r) s Hr H1) as (s1 & -> & L1).
  destruct (copy_complete bld (body_read bld (bufr_read bld cap dyn_read) fuel) (write_all bld wt fuel) log bufsz Hz) with
    (fuel := fuel) (written := 0%N) (s := rs_body r) (w := s1) (xs := xs) (data := data) as (b' & s2 & E & L2 & _); auto.
  { intros d w Hw. apply (write_all_reliable wt log Hh); auto. lia. }
  unfold copy. rewrite E. exists s2. split; auto. rewrite L2, L1, Ew. now rewrite app_assoc.
Qed.

(** Reading a request and running the handler writes nothing. *)
Lemma kept_reader {S} (rd : reader S) (P : S -> Prop) (HP : forall n s, P s -> P (snd (rd n s))) :
  kept rd (mkWriter (fun _ s => (Panic, s)) (fun s => (Panic, s))) P.
Proof. split; auto. Qed.
Lemma run_prog_keep {S A} bld cap (rd : reader S) (P : S -> Prop) (HP : forall n s, P s -> P (snd (rd n s))) bfuel :
  forall fuel (p : prog A) b, P (br_inner (body_reader b)) ->
  P (br_inner (body_reader (snd (run_prog bld (bufr_read bld cap rd) bfuel fuel p b)))).
Proof.
  induction fuel as [|f IH]; intros p b H; cbn [run_prog]; [exact H|]. destruct p as [a|n k|k]; [exact H| |now apply IH].
  pose proof (body_read_keep bld cap rd _ P (kept_reader rd P HP) bfuel n b H) as H1.
  destruct (body_read bld (bufr_read bld cap rd) bfuel n b) as [[d|e| |] b']; cbn [snd] in *; auto.
Qed.
Lemma request_keep {S} bld cap (rd : reader S) (P : S -> Prop) (HP : forall n s, P s -> P (snd (rd n s))) fuel s : P s ->
  P (br_inner (snd (request_deserialize bld (bufr_read bld cap rd) fuel (bufr_new s))))
  /\ forall q, fst (request_deserialize bld (bufr_read bld cap rd) fuel (bufr_new s)) = Ok q -> P (br_inner (body_reader (rq_body q))).
Proof.
  intros H.
  pose proof (bufr_self bld cap rd _ P (kept_reader rd P HP)) as Hself.
  pose proof (request_head_alike _ (crlf_next bld (bufr_read bld cap rd) fuel) (crlf_next bld (bufr_read bld cap rd) fuel)
    (fun a b h => crlf_sim bld _ _ _ Hself fuel [] a b h) fuel (bufr_new s) (bufr_new s) (conj eq_refl H)) as [_ [_ Hs]].
  unfold request_deserialize.
  destruct (request_head _ fuel (bufr_new s)) as [[h|e| |] s1]; cbn [sbind fst snd] in *; split; auto; try easy.
  intros q [= <-]. cbn. unfold body_new. destruct (match qh_encoding h with Some _ => _ | None => _ end); auto.
  destruct (qh_length h); auto.
Qed.
Lemma inner_keep {S H} bld cap (rd : reader S) etext (hd : handler H) (P : S -> Prop) (HP : forall n s, P s -> P (snd (rd n s)))
  fuel hs s : P s -> P (snd (serve_one_inner bld cap rd etext hd fuel hs s)).
Proof.
  intros Hs. unfold serve_one_inner. destruct (request_keep bld cap rd P HP fuel s Hs) as [H1 H2].
  destruct (request_deserialize bld (bufr_read bld cap rd) fuel (bufr_new s)) as [[q|e| |] t]; cbn [fst snd] in *; auto.
  specialize (H2 q eq_refl).
  assert (K : forall m p, P (snd (body_call bld cap rd etext m (rq_uri q) p (rq_body q) hs fuel s))).
  { intros m p. unfold body_call. destruct (require_length (rq_body q)); auto.
    pose proof (run_prog_keep bld cap rd P HP fuel fuel p (rq_body q) H2) as H3.
    destruct (run_prog bld (bufr_read bld cap rd) fuel fuel p (rq_body q)) as [[[r h]|e| |] b']; exact H3. }
  destruct (rq_method q); auto.
Qed.

(** ** C50. The response on the wire *)
Theorem C50_wire : forall S H bld cap (rd : reader S) (wt : writer S) etext log (hd : handler H) bufsz fuel hs s x cs hs' s2,
  honest wt log -> silent rd log -> 0 < bufsz ->
  serve_stream bld cap rd wt etext hd bufsz fuel hs s = (x, cs, hs', s2) ->
  exists y s1, serve_one_inner bld cap rd etext hd fuel hs s = (y, cs, hs', s1)
    (* nothing is written before the handler has returned *)
    /\ log s1 = log s
    /\ match y with
       | Ok (inl r) | Ok (inr r) =>
           forall xs, delivers (body_read bld (bufr_read bld cap dyn_read) fuel) (rs_body r) xs ->
           exists data xs1 xs2 p, xs = xs1 ++ xs2 /\ noisy bld data xs1
             /\ prefix p (response_wire r data) /\ log s2 = log s ++ p
             /\ (x = Ok tt -> xs2 = [] /\ p = response_wire r data)
       | Err e => x = Err e /\ log s2 = log s
       | Panic => x = Panic /\ log s2 = log s
       | Fuel => x = Fuel /\ log s2 = log s
       end.
Proof.
  intros S H bld cap rd wt etext log hd bufsz fuel hs s x cs hs' s2 Hh Hs Hz E. unfold serve_stream in E.
  pose proof (inner_keep bld cap rd etext hd (fun s' => log s' = log s) (fun n s' Hx => eq_trans (Hs n s') Hx) fuel hs s eq_refl) as L1.
  destruct (serve_one_inner bld cap rd etext hd fuel hs s) as [[[y cs0] hs0] s1]. cbn [snd] in L1.
  assert (K : forall r, (let (x, s2) := respond bld cap wt bufsz fuel r s1 in (x, cs0, hs0, s2)) = (x, cs, hs', s2) ->
    cs0 = cs /\ hs0 = hs' /\ forall xs, delivers (body_read bld (bufr_read bld cap dyn_read) fuel) (rs_body r) xs ->
           exists data xs1 xs2 p, xs = xs1 ++ xs2 /\ noisy bld data xs1
             /\ prefix p (response_wire r data) /\ log s2 = log s ++ p
             /\ (x = Ok tt -> xs2 = [] /\ p = response_wire r data)).
  { intros r Er. destruct (respond bld cap wt bufsz fuel r s1) as [x0 s0] eqn:E0. injection Er as -> -> -> ->.
    split; auto. split; auto. intros xs Hd. rewrite <- L1.
    destruct (respond_log bld cap wt log bufsz fuel r xs s1 x s2 Hh Hz Hd E0) as (data & xs1 & xs2 & p & A1 & A2 & A3 & A4 & A5).
    exists data, xs1, xs2, p. repeat split; auto; now apply (A5 tt). }
  exists y, s1. destruct y as [[r|r]|e| |].
  1-2: destruct (K r E) as (-> & -> & K'); auto.
  all: injection E as <- <- <- <-; auto.
Qed.
Print Assumptions C50_wire.

(** Of [serve_one] as a whole: it returns [Ok] only if a connection was accepted and all of the response was sent; a
    failed accept is returned, and nobody is asked. *)
Theorem C50_served : forall S H bld cap (rd : reader S) (wt : writer S) etext log (hd : handler H) bufsz fuel hs acc x cs hs' so,
  honest wt log -> silent rd log -> 0 < bufsz ->
  serve_one bld cap rd wt etext hd bufsz fuel hs acc = (x, cs, hs', so) ->
  (x = Ok tt -> exists s s1 s2 r y, acc = Ok s /\ so = Some s2
     /\ serve_one_inner bld cap rd etext hd fuel hs s = (Ok y, cs, hs', s1) /\ (y = inl r \/ y = inr r)
     /\ forall xs, delivers (body_read bld (bufr_read bld cap dyn_read) fuel) (rs_body r) xs ->
          exists data, noisy bld data xs /\ log s2 = log s ++ response_wire r data)
  /\ (forall e, acc = Err e -> cs = [] /\ hs' = hs /\ so = None
        /\ x = Err (match bld with Std => IoError (KOther 0) | NoStd => e end)).
Proof.
  intros S H bld cap rd wt etext log hd bufsz fuel hs acc x cs hs' so Hh Hs Hz E. split.
  - intros ->. destruct acc as [s|e| |]; cbn [serve_one] in E; try discriminate.
    destruct (serve_stream bld cap rd wt etext hd bufsz fuel hs s) as [[[x0 cs0] hs0] s2] eqn:E2. injection E as -> -> -> <-.
    destruct (C50_wire S H bld cap rd wt etext log hd bufsz fuel hs s _ _ _ _ Hh Hs Hz E2) as (y & s1 & E1 & L1 & HW).
    destruct y as [y|e| |]; [|now destruct HW..].
    assert (K : exists r, (y = inl r \/ y = inr r) /\ forall xs, delivers (body_read bld (bufr_read bld cap dyn_read) fuel) (rs_body r) xs ->
      exists data xs1 xs2 p, xs = xs1 ++ xs2 /\ noisy bld data xs1 /\ prefix p (response_wire r data) /\ log s2 = log s ++ p
        /\ (@Ok unit tt = Ok tt -> xs2 = [] /\ p = response_wire r data)) by (destruct y as [r|r]; exists r; auto).
    destruct K as (r & Hy & HK). exists s, s1, s2, r, y. repeat (split; [auto; fail|]). intros xs Hd.
    destruct (HK xs Hd) as (data & xs1 & xs2 & p & -> & Hn & _ & L2 & Hok). destruct (Hok eq_refl) as [-> ->].
    exists data. rewrite app_nil_r. auto.
  - intros e ->. cbn [serve_one] in E. injection E as <- <- <- <-. repeat split; auto.
Qed.
Print Assumptions C50_served.

(** If every write succeeds and the body can be read to its end, the whole response is sent. *)
Theorem C50_complete : forall S H bld cap (rd : reader S) (wt : writer S) etext log (hd : handler H) bufsz fuel hs s y cs hs' s1 r xs data,
  honest wt log -> reliable wt -> silent rd log -> 0 < bufsz ->
  serve_one_inner bld cap rd etext hd fuel hs s = (Ok y, cs, hs', s1) -> y = inl r \/ y = inr r ->
  delivers (body_read bld (bufr_read bld cap dyn_read) fuel) (rs_body r) xs -> noisy bld data xs ->
  length (response_wire r []) <= fuel -> bufsz <= fuel -> length xs < fuel ->
  exists s2, serve_stream bld cap rd wt etext hd bufsz fuel hs s = (Ok tt, cs, hs', s2)
    /\ log s2 = log s ++ response_wire r data.
Proof.
  intros S H bld cap rd wt etext log hd bufsz fuel hs s y cs hs' s1 r xs data Hh Hr Hs Hz E Hy Hd Hn H1 H2 H3.
  pose proof (inner_keep bld cap rd etext hd (fun s' => log s' = log s) (fun n s' Hx => eq_trans (Hs n s') Hx) fuel hs s eq_refl) as L1.
  rewrite E in L1. cbn [snd] in L1.
  destruct (respond_reliable bld cap wt log bufsz fuel r xs data s1 Hh Hr Hz Hd Hn H1 H2 H3) as (s2 & E2 & L2).
  exists s2. rewrite L2, L1. split; auto. unfold serve_stream. rewrite E. destruct Hy as [-> | ->]; now rewrite E2.
Qed.
Print Assumptions C50_complete.

(** ** C47. PUT and POST need a length *)
Definition reply (code_and_reason text : bytes) : bytes := bs "HTTP/1.1 " ++ code_and_reason ++ CRLF ++ CRLF ++ text.

Theorem C47_refused : forall S H bld cap (rd : reader S) (wt : writer S) etext log (hd : handler H) bufsz fuel hs s first lines zs m u v h,
  0 < cap -> good_request first lines m u v h -> m = Put \/ m = Post ->
  hm_get (bs "transfer-encoding") h <> Some (bs "chunked") -> hm_get (bs "content-length") h = None ->
  delivers rd s (map B (head_bytes first lines) ++ zs) -> length (map B (head_bytes first lines) ++ zs) < fuel ->
  (exists r s1, serve_one_inner bld cap rd etext hd fuel hs s = (Ok (inr r), [], hs, s1)
     /\ rs_status r = StLengthRequired)
  /\ (honest wt log -> reliable wt -> silent rd log -> 0 < bufsz -> bufsz <= fuel -> 50 <= fuel ->
      exists s2, serve_stream bld cap rd wt etext hd bufsz fuel hs s = (Ok tt, [], hs, s2)
        /\ log s2 = log s ++ reply (bs "411 Length Required") (bs "length required")).
Proof.
  intros S H bld cap rd wt etext log hd bufsz fuel hs s first lines zs m u v h Hcap Hq Hm H1 H2 (R & HR & Hs) Hf.
  destruct (request_accepts_rel bld (bufr_read bld cap rd) (bufr_rel bld R) fuel (bufr_new s) first lines zs m u v h
    (bufr_read_pos bld cap rd R Hcap HR) Hq (bufr_new_rel bld R s _ Hs) Hf) as (b & t & Eq & Hb & Ht).
  assert (E : serve_one_inner bld cap rd etext hd fuel hs s
    = (Ok (inr (from_string StLengthRequired (bs "length required"))), [], hs, br_inner (body_reader b))).
  { unfold serve_one_inner. rewrite Eq. cbn [rq_method rq_uri rq_body]. unfold body_call.
    rewrite (proj2 (framed_length h t b Hb) H1 H2). destruct Hm as [-> | ->]; reflexivity. }
  split; [eauto|]. intros Hh Hr Hsil Hz Hz2 Hf2.
  apply (C50_complete S H bld cap rd wt etext log hd bufsz fuel hs s _ _ _ _ (from_string StLengthRequired (bs "length required"))
    (map B (bs "length required")) (bs "length required") Hh Hr Hsil Hz E); auto using noisy_map_B, from_string_delivers.
  - vm_compute (length _). lia.
  - vm_compute (length _). lia.
Qed.
Print Assumptions C47_refused.

Theorem C47_called : forall S H bld cap (rd : reader S) etext (hd : handler H) fuel hs s first lines zs m u v h,
  0 < cap -> good_request first lines m u v h -> m = Put \/ m = Post ->
  hm_get (bs "transfer-encoding") h = Some (bs "chunked") \/ hm_get (bs "content-length") h <> None ->
  delivers rd s (map B (head_bytes first lines) ++ zs) -> length (map B (head_bytes first lines) ++ zs) < fuel ->
  exists r hs' s', serve_one_inner bld cap rd etext hd fuel hs s = (r, [Called m u], hs', s').
Proof.
  intros S H bld cap rd etext hd fuel hs s first lines zs m u v h Hcap Hq Hm Hz Hs Hf.
  destruct (serve_one_inner bld cap rd etext hd fuel hs s) as [[[r cs] hs'] s'] eqn:E.
  destruct (C46_dispatch S H bld cap rd etext hd fuel hs s first lines zs m u v h Hcap Hq Hs Hf r cs hs' s' E) as [_ K].
  exists r, hs', s'. destruct Hm as [-> | ->]; destruct (K _ eq_refl Hz) as [-> _]; reflexivity.
Qed.
Print Assumptions C47_called.

(** ** C48. Malformed requests *)
(** The items [xs] begin with a request, retried interruptions aside, and [ys] follows. *)
Definition request_on (bld : build) (xs : list item) (m : method) (u : bytes) (h : headers) (ys : list item) : Prop :=
  exists first lines v cx, xs = cx ++ B LF :: ys /\ noisy bld (head_bytes first lines) (cx ++ [B LF])
    /\ good_request first lines m u v h.

Lemma framed_good_length {T} h (t : T) b : framed h t b -> good_length h.
Proof.
  intros (len & Hl & _) w Hw. destruct Hl as [[Hl _]|(v & n & Hl & Hn & _)]; [congruence|]. rewrite Hw in Hl. injection Hl as <-. eauto.
Qed.

Lemma request_found {S} bld cap (rd : reader S) fuel s xs q t : 0 < cap ->
  delivers rd s xs -> length xs < fuel ->
  request_deserialize bld (bufr_read bld cap rd) fuel (bufr_new s) = (Ok q, t) ->
  exists ys, request_on bld xs (rq_method q) (rq_uri q) (rq_headers q) ys /\ framed (rq_headers q) t (rq_body q)
    /\ delivers (bufr_read bld cap rd) t ys.
Proof.
  intros Hcap Hs Hf E. pose proof (bufr_delivers bld cap rd s xs Hcap Hs) as Hs'.
  destruct (C30_request _ bld (bufr_read bld cap rd) fuel (bufr_new s) xs q t Hs' Hf E)
    as (first & lines & cx & ys & A1 & A2 & A3 & A4 & A5 & A6 & A7 & A8).
  pose proof (C13_request _ bld _ fuel _ q t E) as Hfr.
  exists ys. split; [|auto]. exists first, lines, (rq_version q), cx. repeat (split; [assumption|]). now apply framed_good_length in Hfr.
Qed.

(** A handler method runs, or the handler's state changes, only for a request. *)
Theorem C48_only_requests : forall S H bld cap (rd : reader S) etext (hd : handler H) fuel hs s xs r cs hs' s',
  0 < cap -> delivers rd s xs -> length xs < fuel ->
  serve_one_inner bld cap rd etext hd fuel hs s = (r, cs, hs', s') -> cs <> [] \/ hs' <> hs ->
  exists m u h ys, request_on bld xs m u h ys /\ cs = [Called m u].
Proof.
  intros S H bld cap rd etext hd fuel hs s xs r cs hs' s' Hcap Hs Hf E Hc. unfold serve_one_inner in E.
  destruct (request_deserialize bld (bufr_read bld cap rd) fuel (bufr_new s)) as [[q|e| |] t] eqn:Eq.
  2-4: injection E as <- <- <- <-; destruct Hc; easy.
  destruct (request_found bld cap rd fuel s xs q t Hcap Hs Hf Eq) as (ys & Hr & _).
  exists (rq_method q), (rq_uri q), (rq_headers q), ys. split; auto.
  assert (K : forall m p, body_call bld cap rd etext m (rq_uri q) p (rq_body q) hs fuel s = (r, cs, hs', s') -> cs = [Called m (rq_uri q)]).
  { intros m p Ec. unfold body_call in Ec. destruct (require_length (rq_body q)) as [x|e| |].
    - destruct (run_prog _ _ _ _ _ _) as [[[r0 h0]|e| |] b']; now injection Ec.
    - injection Ec as <- <- <- <-. now destruct Hc.
    - injection Ec as <- <- <- <-. now destruct Hc.
    - injection Ec as <- <- <- <-. now destruct Hc. }
  unfold plain_call in E. destruct (rq_method q); try (injection E as <- <- <- <-; reflexivity); eapply K; eauto.
Qed.
Print Assumptions C48_only_requests.

(** Anything else is answered with status 500 (or panics, see C16). The text of the answer is that of
    the error. The transport is assumed not to fail with [LengthRequired] itself; with std it cannot. *)
Theorem C48_malformed : forall S H bld cap (rd : reader S) (wt : writer S) etext log (hd : handler H) bufsz fuel hs s xs,
  0 < cap -> delivers rd s xs -> length xs < fuel -> (forall m u h ys, ~ request_on bld xs m u h ys) ->
  (forall n s, fst (rd n s) <> Err LengthRequired) ->
  (exists s1, serve_one_inner bld cap rd etext hd fuel hs s = (Panic, [], hs, s1))
  \/ (exists e s1, serve_one_inner bld cap rd etext hd fuel hs s
        = (Ok (inr (from_string InternalServerError (etext e s))), [], hs, s1)
      /\ (honest wt log -> reliable wt -> silent rd log -> 0 < bufsz -> bufsz <= fuel -> 50 <= fuel -> length (etext e s) < fuel ->
          exists s2, serve_stream bld cap rd wt etext hd bufsz fuel hs s = (Ok tt, [], hs, s2)
            /\ log s2 = log s ++ reply (bs "500 Internal Server Error") (etext e s))).
Proof.
  intros S H bld cap rd wt etext log hd bufsz fuel hs s xs Hcap Hs Hf Hno Hlr.
  assert (Hnf : fst (request_deserialize bld (bufr_read bld cap rd) fuel (bufr_new s)) <> Fuel).
  { destruct (request_delivers bld _ _ _ fuel (bufr_delivers bld cap rd s xs Hcap Hs) Hf) as (t & _ & ->). cbn [fst].
    pose proof (req_not_fuel bld xs) as Hx. destruct (fst (req_of bld xs)); easy. }
  assert (Hne : fst (request_deserialize bld (bufr_read bld cap rd) fuel (bufr_new s)) <> Err LengthRequired).
  { intros He. refine (request_errs (fun e => e <> LengthRequired) _ bld (bufr_read bld cap rd) _ fuel (bufr_new s) _ He eq_refl).
    - intros e Hx ->. exact Hx.
    - intros n b. apply bufr_errs. intros n0 s0 e He0 ->. now apply (Hlr n0 s0). }
  unfold serve_one_inner.
  destruct (request_deserialize bld (bufr_read bld cap rd) fuel (bufr_new s)) as [[q|e| |] t] eqn:Eq; cbn [fst] in *; [| | |easy].
  - destruct (request_found bld cap rd fuel s xs q t Hcap Hs Hf Eq) as (ys & Hr & _). now apply Hno in Hr.
  - right. exists e, (br_inner t).
    assert (Er : error_response etext e s = from_string InternalServerError (etext e s)) by (now destruct e).
    rewrite Er. split; auto. intros Hh Hr Hsil Hz Hz2 Hf2 Hl.
    assert (E : serve_one_inner bld cap rd etext hd fuel hs s
      = (Ok (inr (from_string InternalServerError (etext e s))), [], hs, br_inner t)).
    { unfold serve_one_inner. now rewrite Eq, Er. }
    apply (C50_complete S H bld cap rd wt etext log hd bufsz fuel hs s _ _ _ _ (from_string InternalServerError (etext e s))
      (map B (etext e s)) (etext e s) Hh Hr Hsil Hz E); auto using noisy_map_B, from_string_delivers.
    + vm_compute (length _). lia.
    + now rewrite map_length.
  - left. eauto.
Qed.
Print Assumptions C48_malformed.

(** ** C49. Default methods *)
(** Every method is refused with status 405 and nothing of the body is read: the connection stays as
    parsing the head left it. (PUT and POST without a length still get 411, C47. The text for POST names PUT.) *)
Definition default_text (m : method) : bytes :=
  match m with Post => bs "PUT not allowed" | _ => show_method m ++ bs " not allowed" end.
Theorem C49_refuses : forall S H bld cap (rd : reader S) (wt : writer S) etext log bufsz fuel (hs : H) s first lines zs m u v h,
  0 < cap -> good_request first lines m u v h -> (m = Put \/ m = Post -> sized h) ->
  delivers rd s (map B (head_bytes first lines) ++ zs) -> length (map B (head_bytes first lines) ++ zs) < fuel ->
  (exists r, serve_one_inner bld cap rd etext default_handler fuel hs s
       = (Ok (inl r), [Called m u], hs, br_inner (snd (request_deserialize bld (bufr_read bld cap rd) fuel (bufr_new s))))
     /\ rs_status r = MethodNotAllowed)
  /\ (honest wt log -> reliable wt -> silent rd log -> 0 < bufsz -> bufsz <= fuel -> 50 <= fuel ->
      exists s2, serve_stream bld cap rd wt etext default_handler bufsz fuel hs s = (Ok tt, [Called m u], hs, s2)
        /\ log s2 = log s ++ reply (bs "405 Method Not Allowed") (default_text m)).
Proof.
  intros S H bld cap rd wt etext log bufsz fuel hs s first lines zs m u v h Hcap Hq Hm (R & HR & Hs) Hf.
  destruct (request_accepts_rel bld (bufr_read bld cap rd) (bufr_rel bld R) fuel (bufr_new s) first lines zs m u v h
    (bufr_read_pos bld cap rd R Hcap HR) Hq (bufr_new_rel bld R s _ Hs) Hf) as (b & t & Eq & Hb & Ht).
  assert (Hbt : body_reader b = t).
  { destruct Hb as (len & _ & [[_ ->]|[_ ->]]); [reflexivity|now destruct len]. }
  assert (E : serve_one_inner bld cap rd etext default_handler fuel hs s
    = (Ok (inl (from_string MethodNotAllowed (default_text m))), [Called m u], hs, br_inner t)).
  { unfold serve_one_inner. rewrite Eq. cbn [rq_method rq_uri rq_body].
    destruct m; try reflexivity; unfold body_call; rewrite (proj1 (framed_length h t b Hb) (Hm ltac:(auto)));
      (destruct fuel; [lia|]); cbn; now rewrite Hbt. }
  rewrite Eq. cbn [snd]. split; [eauto|]. intros Hh Hr Hsil Hz Hz2 Hf2.
  apply (C50_complete S H bld cap rd wt etext log default_handler bufsz fuel hs s _ _ _ _ (from_string MethodNotAllowed (default_text m))
    (map B (default_text m)) (default_text m) Hh Hr Hsil Hz E); auto using noisy_map_B, from_string_delivers.
  - vm_compute (length _). lia.
  - rewrite map_length. destruct m; vm_compute (length _); lia.
Qed.
Print Assumptions C49_refuses.

(** ** C51. Histories *)
(** What one connection does to the handler: nothing if accepting failed, if the peer sent no request, or if it sent a
    PUT or POST without a length; otherwise one call. *)
Inductive effect {S H} (bld : build) (cap : nat) (rd : reader S) (hd : handler H) (fuel : nat) (hs : H)
  : res S -> list call -> H -> Prop :=
| effect_not_accepted acc : (forall s, acc <> Ok s) -> effect bld cap rd hd fuel hs acc [] hs
| effect_malformed s xs : delivers rd s xs -> (forall m u h ys, ~ request_on bld xs m u h ys) ->
    effect bld cap rd hd fuel hs (Ok s) [] hs
| effect_unsized s xs m u h ys : delivers rd s xs -> request_on bld xs m u h ys -> m = Put \/ m = Post -> ~ sized h ->
    effect bld cap rd hd fuel hs (Ok s) [] hs
| effect_plain s xs m u h ys f : delivers rd s xs -> request_on bld xs m u h ys -> plain_method hd m = Some f ->
    effect bld cap rd hd fuel hs (Ok s) [Called m u] (snd (f u hs))
| effect_body s xs m u h ys f t b x b' : delivers rd s xs -> request_on bld xs m u h ys ->
    body_method hd m = Some f -> sized h -> framed h t b -> delivers (bufr_read bld cap rd) t ys ->
    run_prog bld (bufr_read bld cap rd) fuel fuel (f u hs) b = (x, b') ->
    effect bld cap rd hd fuel hs (Ok s) [Called m u] (match x with Ok out => snd out | _ => hs end).

(** A history: the effects of the connections one after the other, up to a panic if there is one.
    ([Fuel] is a connection that is never done with.) *)
Inductive served {S H} (bld : build) (cap : nat) (rd : reader S) (wt : writer S) etext (hd : handler H) (bufsz fuel : nat)
  : H -> list (res S) -> bool -> list call -> H -> Prop :=
| served_nil hs : served bld cap rd wt etext hd bufsz fuel hs [] true [] hs
| served_cons hs acc cs1 hs1 rest alive cs2 hs2 :
    effect bld cap rd hd fuel hs acc cs1 hs1 -> served bld cap rd wt etext hd bufsz fuel hs1 rest alive cs2 hs2 ->
    served bld cap rd wt etext hd bufsz fuel hs (acc :: rest) alive (cs1 ++ cs2) hs2
| served_stop hs acc cs1 hs1 rest :
    effect bld cap rd hd fuel hs acc cs1 hs1 ->
    (exists x s1, serve_one bld cap rd wt etext hd bufsz fuel hs acc = (x, cs1, hs1, s1) /\ (x = Panic \/ x = Fuel)) ->
    served bld cap rd wt etext hd bufsz fuel hs (acc :: rest) false cs1 hs1.

Lemma inner_effect {S H} bld cap (rd : reader S) etext (hd : handler H) fuel hs s xs r cs hs' s' :
  0 < cap -> delivers rd s xs -> length xs < fuel ->
  serve_one_inner bld cap rd etext hd fuel hs s = (r, cs, hs', s') -> effect bld cap rd hd fuel hs (Ok s) cs hs'.
Proof.
  intros Hcap Hs Hf E.
  assert (Hno : fst (request_deserialize bld (bufr_read bld cap rd) fuel (bufr_new s)) <> Fuel
    /\ ((forall q, fst (request_deserialize bld (bufr_read bld cap rd) fuel (bufr_new s)) <> Ok q) ->
        forall m u h ys, ~ request_on bld xs m u h ys)).
  { pose proof (bufr_delivers bld cap rd s xs Hcap Hs) as Hs'. split.
    - destruct (request_delivers bld _ _ _ fuel Hs' Hf) as (t & _ & ->). cbn [fst].
      pose proof (req_not_fuel bld xs) as Hx. destruct (fst (req_of bld xs)); easy.
    - intros Hn m u h ys (first & lines & v & cx & Ex & Hx & H1 & H2 & H3 & H4 & H5).
      subst xs. destruct (C30_request_accepts_retries _ bld (bufr_read bld cap rd) fuel (bufr_new s) first lines cx ys m u v h) as (b & t & Eq & _); auto.
      eapply Hn. rewrite Eq. reflexivity. }
  destruct Hno as [Hnf Hno]. unfold serve_one_inner in E.
  destruct (request_deserialize bld (bufr_read bld cap rd) fuel (bufr_new s)) as [[q|e| |] t] eqn:Eq; cbn [fst] in *.
  2,3: injection E as <- <- <- <-; eapply effect_malformed; eauto; apply Hno; easy.
  2: easy.
  destruct (request_found bld cap rd fuel s xs q t Hcap Hs Hf Eq) as (ys & Hr & Hfr & Ht).
  assert (K : forall f, body_method hd (rq_method q) = Some f ->
    body_call bld cap rd etext (rq_method q) (rq_uri q) (f (rq_uri q) hs) (rq_body q) hs fuel s = (r, cs, hs', s') ->
    effect bld cap rd hd fuel hs (Ok s) cs hs').
  { intros f Hm Ec. unfold body_call in Ec. destruct (sized_dec (rq_headers q)) as [Hz|[Hz1 Hz2]].
    - rewrite (proj1 (framed_length _ _ _ Hfr) Hz) in Ec. destruct (run_prog _ _ _ _ _ _) as [x b'] eqn:Ep.
      pose proof (effect_body bld cap rd hd fuel hs s xs _ _ _ ys f t _ x b' Hs Hr Hm Hz Hfr Ht Ep) as Hx.
      destruct x as [[r0 h0]|e| |]; injection Ec as <- <- <- <-; exact Hx.
    - rewrite (proj2 (framed_length _ _ _ Hfr) Hz1 Hz2) in Ec. injection Ec as <- <- <- <-.
      eapply effect_unsized; eauto; [destruct (rq_method q); now auto|]. intros [Hz|Hz]; easy. }
  unfold plain_call in E. destruct (rq_method q) eqn:Em;
    try (injection E as <- <- <- <-; eapply effect_plain; eauto; reflexivity); eapply K; eauto; reflexivity.
Qed.

Theorem C51_history : forall S H bld cap (rd : reader S) (wt : writer S) etext (hd : handler H) bufsz fuel accs hs alive cs hs' ss,
  0 < cap -> (forall s, In (Ok s) accs -> exists xs, delivers rd s xs /\ length xs < fuel) ->
  serve_forever bld cap rd wt etext hd bufsz fuel hs accs = (alive, cs, hs', ss) ->
  served bld cap rd wt etext hd bufsz fuel hs accs alive cs hs'.
Proof.
  intros S H bld cap rd wt etext hd bufsz fuel accs. induction accs as [|acc accs IH]; intros hs alive cs hs' ss Hcap Hd E; cbn [serve_forever] in E.
  { injection E as <- <- <- <-. constructor. }
  destruct (serve_one bld cap rd wt etext hd bufsz fuel hs acc) as [[[x cs1] hs1] s1] eqn:E1.
  assert (He : effect bld cap rd hd fuel hs acc cs1 hs1).
  { destruct acc as [s|e| |]; cbn [serve_one] in E1; try (injection E1 as <- <- <- <-; now apply effect_not_accepted).
    destruct (Hd s (or_introl eq_refl)) as (xs & Hs & Hf).
    unfold serve_stream in E1. destruct (serve_one_inner bld cap rd etext hd fuel hs s) as [[[y cs0] hs0] s0] eqn:E0.
    pose proof (inner_effect bld cap rd etext hd fuel hs s xs y cs0 hs0 s0 Hcap Hs Hf E0) as He.
    destruct y as [[r|r]|e| |]; [destruct (respond _ _ _ _ _ _ _) as [z s2] in E1|destruct (respond _ _ _ _ _ _ _) as [z s2] in E1| | |];
      injection E1 as <- <- <- <-; exact He. }
  assert (Hd' : forall s, In (Ok s) accs -> exists xs, delivers rd s xs /\ length xs < fuel) by (intros; apply Hd; now right).
  destruct x as [x|e| |].
  - destruct (serve_forever bld cap rd wt etext hd bufsz fuel hs1 accs) as [[[al cs2] hs2] ss2] eqn:E2.
    injection E as <- <- <- <-. econstructor; eauto.
  - destruct (serve_forever bld cap rd wt etext hd bufsz fuel hs1 accs) as [[[al cs2] hs2] ss2] eqn:E2.
    injection E as <- <- <- <-. econstructor; eauto.
  - injection E as <- <- <- <-. eapply served_stop; eauto.
  - injection E as <- <- <- <-. eapply served_stop; eauto.
Qed.
Print Assumptions C51_history.

(** How the writes turn out makes no difference to the handler, as long as they do not panic. *)
Theorem C51_writes_do_not_matter : forall S H bld cap (rd : reader S) (wt wt' : writer S) etext (hd : handler H) bufsz bufsz' fuel accs hs cs hs' ss cs2 hs2 ss2,
  serve_forever bld cap rd wt etext hd bufsz fuel hs accs = (true, cs, hs', ss) ->
  serve_forever bld cap rd wt' etext hd bufsz' fuel hs accs = (true, cs2, hs2, ss2) -> cs2 = cs /\ hs2 = hs'.
Proof.
  intros S H bld cap rd wt wt' etext hd bufsz bufsz' fuel accs.
  induction accs as [|acc accs IH]; intros hs cs hs' ss cs2 hs2 ss2 E E'; cbn [serve_forever] in E, E'.
  { now injection E as <- <- <-; injection E' as <- <- <-. }
  destruct (serve_one bld cap rd wt etext hd bufsz fuel hs acc) as [[[x c1] h1] s1] eqn:E1.
  destruct (serve_one bld cap rd wt' etext hd bufsz' fuel hs acc) as [[[x' c1'] h1'] s1'] eqn:E1'.
  assert (Hsame : c1' = c1 /\ h1' = h1).
  { unfold serve_one, serve_stream in E1, E1'. destruct acc as [s|e| |]; [|injection E1 as <- <- <- <-; now injection E1' as <- <- <- <- ..].
    destruct (serve_one_inner bld cap rd etext hd fuel hs s) as [[[y c0] h0] s0].
    destruct y as [[r|r]|e| |];
      [destruct (respond _ _ _ _ _ _ _) as [z z2] in E1; destruct (respond _ _ _ _ _ _ _) as [z' z2'] in E1'
      |destruct (respond _ _ _ _ _ _ _) as [z z2] in E1; destruct (respond _ _ _ _ _ _ _) as [z' z2'] in E1'| | |];
      injection E1 as <- <- <- <-; now injection E1' as <- <- <- <-. }
  destruct Hsame as [-> ->].
  destruct (serve_forever bld cap rd wt etext hd bufsz fuel h1 accs) as [[[a b] c] d] eqn:E2.
  destruct (serve_forever bld cap rd wt' etext hd bufsz' fuel h1 accs) as [[[a' b'] c'] d'] eqn:E2'.
  destruct x; try easy; destruct x'; try easy; injection E as -> <- <- <-; injection E' as -> <- <- <-;
    destruct (IH _ _ _ _ _ _ _ E2 E2') as [-> ->]; auto.
Qed.
Print Assumptions C51_writes_do_not_matter.

(** A failed accept, a connection without a request and one refused for want of a length might as well not have been. *)
Theorem C51_bad_connections_do_not_matter : forall S H bld cap (rd : reader S) (wt : writer S) etext (hd : handler H) bufsz fuel before acc after hs cs hs' ss,
  0 < cap ->
  (exists e, acc = Err e)
  \/ (exists s xs, acc = Ok s /\ delivers rd s xs /\ length xs < fuel
      /\ forall m u h ys, request_on bld xs m u h ys -> (m = Put \/ m = Post) /\ ~ sized h) ->
  serve_forever bld cap rd wt etext hd bufsz fuel hs (before ++ acc :: after) = (true, cs, hs', ss) ->
  exists ss', serve_forever bld cap rd wt etext hd bufsz fuel hs (before ++ after) = (true, cs, hs', ss').
Proof.
  intros S H bld cap rd wt etext hd bufsz fuel before acc after hs cs hs' ss Hcap Hacc.
  revert hs cs hs' ss. induction before as [|a before IH]; intros hs cs hs' ss E; cbn [app serve_forever] in *.
  - assert (Hn : forall x c h s1, serve_one bld cap rd wt etext hd bufsz fuel hs acc = (x, c, h, s1) -> c = [] /\ h = hs).
    { intros x c h s1 E1. destruct Hacc as [[e ->]|(s & xs & -> & Hs & Hf & Hno)]; cbn [serve_one] in E1; [now inversion E1|].
      unfold serve_stream in E1. destruct (serve_one_inner bld cap rd etext hd fuel hs s) as [[[y c0] h0] s0] eqn:E0.
      pose proof (inner_effect bld cap rd etext hd fuel hs s xs y c0 h0 s0 Hcap Hs Hf E0) as He.
      assert (K : c0 = [] /\ h0 = hs).
      { assert (Ki : c0 <> [] \/ h0 <> hs -> False).
        { intros Hc. destruct (C48_only_requests S H bld cap rd etext hd fuel hs s xs y c0 h0 s0 Hcap Hs Hf E0 Hc) as (m & u & h' & ys & Hr & ->).
          destruct Hr as (first & lines & v & cx & Ex & Hx & Hq).
          unfold serve_one_inner in E0.
          destruct (request_deserialize bld (bufr_read bld cap rd) fuel (bufr_new s)) as [[q|e| |] t] eqn:Eq; try now inversion E0.
          destruct (request_found bld cap rd fuel s xs q t Hcap Hs Hf Eq) as (ys' & Hr' & Hfr & Ht).
          destruct (Hno _ _ _ _ Hr') as [Hm Hz].
          assert (Hz' : require_length (rq_body q) = Err LengthRequired).
          { destruct (sized_dec (rq_headers q)) as [?|[? ?]]; [easy|]. now apply (proj2 (framed_length _ _ _ Hfr)). }
          unfold body_call in E0. rewrite Hz' in E0. destruct Hm as [Hm|Hm]; rewrite Hm in E0; now inversion E0. }
        destruct c0; [|destruct Ki; now left]. split; auto.
        inversion He; subst; auto. }
      destruct K as [-> ->].
      destruct y as [[r|r]|e| |]; [destruct (respond _ _ _ _ _ _ _) as [z s2] in E1|destruct (respond _ _ _ _ _ _ _) as [z s2] in E1| | |];
        now inversion E1. }
    destruct (serve_one bld cap rd wt etext hd bufsz fuel hs acc) as [[[x c] h] s1].
    destruct (Hn _ _ _ _ eq_refl) as [-> ->].
    destruct (serve_forever bld cap rd wt etext hd bufsz fuel hs after) as [[[al cs2] hs2] ss2].
    destruct x; try easy; injection E as -> <- <- <-; eauto.
  - destruct (serve_one bld cap rd wt etext hd bufsz fuel hs a) as [[[x c] h] s1].
    destruct (serve_forever bld cap rd wt etext hd bufsz fuel h (before ++ acc :: after)) as [[[al cs2] hs2] ss2] eqn:E2.
    destruct x; try easy; injection E as -> <- <- <-; destruct (IH _ _ _ _ E2) as [ss' ->]; eauto.
Qed.
Print Assumptions C51_bad_connections_do_not_matter.

(** But a peer whose request makes parsing panic (C16) ends the loop: later connections are not served. *)
Theorem C51_panic_ends_loop : forall S H bld cap (rd : reader S) (wt : writer S) etext (hd : handler H) bufsz fuel hs s first lines oks bad rest hdrs zs m u v after,
  0 < cap -> text_line first -> request_line_says first m u v -> Forall text_line lines -> folded lines (oks ++ bad :: rest) ->
  Forall2 header_of oks hdrs -> bad_colon bad ->
  delivers rd s (map B (head_bytes first lines) ++ zs) -> length (map B (head_bytes first lines) ++ zs) < fuel ->
  exists s', serve_forever bld cap rd wt etext hd bufsz fuel hs (Ok s :: after) = (false, [], hs, [Some s']).
Proof.
  intros S H bld cap rd wt etext hd bufsz fuel hs s first lines oks bad rest hdrs zs m u v after Hcap H1 H2 H3 H4 H5 H6 Hs Hf.
  pose proof (proj1 (C16_peer_can_panic _ bld (bufr_read bld cap rd) fuel (bufr_new s) first lines oks hdrs bad rest zs H1 H3 H4 H5 H6
    (bufr_delivers bld cap rd s _ Hcap Hs) Hf) m u v H2) as Hp.
  cbn [serve_forever serve_one]. unfold serve_stream, serve_one_inner.
  destruct (request_deserialize bld (bufr_read bld cap rd) fuel (bufr_new s)) as [y t]. cbn [fst] in Hp. subst y. eauto.
Qed.
Print Assumptions C51_panic_ends_loop.

(** ** Examples *)
(** A socket: what was written, in portions of at most 3 bytes, and what can be read. *)
Definition wire3 : Type := bytes * list event.
Definition wire3_read : reader wire3 := fun n d => let (x, evs) := seg_read n (snd d) in (x, (fst d, evs)).
Definition wire3_writer : writer wire3 :=
  mkWriter (fun data d => let k := Nat.min 3 (length data) in (Ok k, (fst d ++ firstn k data, snd d))) (fun d => (Ok tt, d)).
Lemma wire3_honest : honest wire3_writer fst.
Proof.
  split.
  - intros data [w evs] r w' [= <- <-]. split; [apply (Nat.le_min_r 3)|reflexivity].
  - now intros [w evs] r w' [= <- <-].
Qed.
Lemma wire3_reliable : reliable wire3_writer.
Proof. split; [|intros w; now exists w]. intros data w Hd. eexists _, _. split; [reflexivity|]. destruct data as [|b [|c [|d t]]]; cbn; lia || easy. Qed.
Lemma wire3_silent : silent wire3_read fst.
Proof. intros n [w evs]. unfold wire3_read. cbn [fst snd]. now destruct (seg_read n evs). Qed.
Lemma wire3_delivers w evs : delivers wire3_read (w, evs) (items_of evs).
Proof.
  exists (fun s xs => xs = items_of (snd s)). split; [|reflexivity]. intros n [w0 evs0] xs Hn Hx. unfold wire3_read. cbn [fst snd] in *.
  pose proof (seg_read_pos n evs0 xs Hn Hx) as H. destruct (seg_read n evs0) as [x evs1]. destruct xs as [|[b|e] xs].
  - destruct H as (s' & [= -> ->] & H). now exists (w0, s').
  - destruct H as (got & xs' & s' & [= -> ->] & H). now exists got, xs', (w0, s').
  - destruct H as (s' & [= -> ->] & H). now exists (w0, s').
Qed.

(** A handler that keeps the uris asked for and the bodies it was sent, and echoes the bodies. *)
Definition echo : handler (list bytes) :=
  let bodyful (u : bytes) (h : list bytes) :=
    slurp 2 (fun d => Ret (Ok (inl (from_string OK d)), h ++ [d])) (fun e => Ret (Ok (inr (from_string BadRequest (bs "?"))), h)) [] in
  let plain (u : bytes) (h : list bytes) := (Ok (inl (from_string OK u)), h ++ [u]) in
  mkHandler plain plain plain plain plain bodyful bodyful.
Definition no_text : error -> wire3 -> bytes := fun _ _ => bs "went wrong".

Definition C46_wire : bytes := bs "put /x HTTP/1.1" ++ CRLF ++ bs "Content-Length: 5" ++ CRLF ++ CRLF ++ bs "hello".
Lemma C46_request : good_request (bs "put /x HTTP/1.1") [bs "Content-Length: 5"] Put (bs "/x") (mkVersion 1 1) [(bs "content-length", bs "5")]
  /\ carries [(bs "content-length", bs "5")] (bs "hello") (bs "hello").
Proof.
  assert (H5 : u64_text (bs "5") 5).
  { split; [reflexivity|]. left. split; [easy|]. exists [5%N]. split; [|reflexivity]. repeat constructor; vm_compute; congruence. }
  assert (TL : forall l, l <> [] -> forallb (fun b => bval b <? 128)%N l = true -> ~ In CR l -> text_line l).
  { intros l A1 A2 A3. split; auto. split; [now apply no_cr_no_crlf|]. now apply utf8_bs_ascii. }
  assert (T1 : text_line (bs "put /x HTTP/1.1")) by (apply TL; try reflexivity; cbn; intuition easy).
  assert (T2 : text_line (bs "Content-Length: 5")) by (apply TL; try reflexivity; cbn; intuition easy).
  split; [|apply carries_length with (bs "5"); easy].
  split; auto. split; auto. split; [apply request_line_meaning; [apply T1|reflexivity]|]. split.
  - exists [bs "Content-Length: 5"], [(bs "content-length", bs "5")]. repeat split.
    + change (folded (bs "Content-Length: 5" :: [] ++ []) [bs "Content-Length: 5" ++ concat []]). constructor; try easy. constructor.
    + constructor; auto. exists (bs "Content-Length"), (bs "5"). repeat split; auto. intros H. vm_compute in H.
      repeat (destruct H as [H|H]; [discriminate|]). destruct H.
  - intros w Hw. vm_compute in Hw. injection Hw as <-. exists 5%N. exact H5.
Qed.

Definition serve_text (hd : handler (list bytes)) (parts : list bytes) :=
  match serve_stream Std 8 wire3_read wire3_writer no_text hd 4 300 [] ([], segs parts) with (x, cs, hs, s) => (x, cs, hs, fst s) end.
Example C46_case :
  serve_text echo [bs "put /x HTTP/1.1" ++ CRLF ++ bs "Content-L"; bs "ength: 5" ++ CRLF ++ CRLF ++ bs "he"; bs "llo..."]
    = (Ok tt, [Called Put (bs "/x")], [bs "hello"], reply (bs "200 OK") (bs "hello"))
  /\ serve_text echo [bs "TRACE /y HTTP/1.1" ++ CRLF ++ CRLF ++ bs "ignored"]
    = (Ok tt, [Called Trace (bs "/y")], [bs "/y"], reply (bs "200 OK") (bs "/y"))
  /\ reads_some (h_put echo (bs "/x") []).
Proof.
  split; [vm_compute; reflexivity|]. split; [vm_compute; reflexivity|].
  apply slurp_reads_some; [lia| |]; intros; constructor.
Qed.

(** A body that is cut off, one that is shorter than announced, and one that ends where it should: the handler answers
    400 if it is told of an error. *)
Example C46_broken_case :
  serve_text echo [bs "POST / HTTP/1.1" ++ CRLF ++ bs "Transfer-encoding: chunked" ++ CRLF ++ CRLF ++ bs "3" ++ CRLF ++ bs "ab"]
    = (Ok tt, [Called Post (bs "/")], [], reply (bs "400 Bad Request") (bs "?"))
  /\ serve_text echo [bs "POST / HTTP/1.1" ++ CRLF ++ bs "Content-length: 3" ++ CRLF ++ CRLF ++ bs "ab"]
    = (Ok tt, [Called Post (bs "/")], [bs "ab"], reply (bs "200 OK") (bs "ab"))
  /\ sees (slurp 2 (fun d => Ret (Some d)) (fun _ => Ret None) []) (map B (bs "ab") ++ [E ParseError]) None.
Proof.
  split; [vm_compute; reflexivity|]. split; [vm_compute; reflexivity|].
  rewrite slurp_eq. apply (sees_read 2 _ (bs "ab")); [easy|auto|]. cbn [app]. change (bs "ab") with (x61 :: [x62]). cbv iota.
  rewrite slurp_eq. constructor. constructor.
Qed.

Example C47_case :
  serve_text echo [bs "POST / HTTP/1.1" ++ CRLF ++ CRLF ++ bs "hello"]
    = (Ok tt, [], [], reply (bs "411 Length Required") (bs "length required"))
  /\ serve_text echo [bs "POST / HTTP/1.1" ++ CRLF ++ bs "Transfer-encoding: chunked" ++ CRLF ++ CRLF ++ bs "1" ++ CRLF ++ bs "a" ++ CRLF ++ bs "0" ++ CRLF ++ CRLF]
    = (Ok tt, [Called Post (bs "/")], [bs "a"], reply (bs "200 OK") (bs "a")).
Proof. split; vm_compute; reflexivity. Qed.

Example C48_case :
  serve_text echo [bs "PUSH / HTTP/1.1" ++ CRLF ++ CRLF] = (Ok tt, [], [], reply (bs "500 Internal Server Error") (bs "went wrong"))
  /\ serve_text echo [bs "GET / HTTP/1.1" ++ CRLF] = (Ok tt, [], [], reply (bs "500 Internal Server Error") (bs "went wrong")).
Proof. split; vm_compute; reflexivity. Qed.

Example C49_case :
  serve_text default_handler [C46_wire] = (Ok tt, [Called Put (bs "/x")], [], reply (bs "405 Method Not Allowed") (bs "PUT not allowed"))
  /\ serve_text default_handler [bs "HEAD / HTTP/1.1" ++ CRLF ++ CRLF]
     = (Ok tt, [Called Head (bs "/")], [], reply (bs "405 Method Not Allowed") (bs "HEAD not allowed")).
Proof. split; vm_compute; reflexivity. Qed.

(** The response that the theorem promises, on a socket that takes 3 bytes at a time and on one that fails midway. *)
Example C50_case :
  (exists s2, serve_stream Std 8 wire3_read wire3_writer no_text echo 4 300 [] ([], segs [C46_wire])
       = (Ok tt, [Called Put (bs "/x")], [bs "hello"], s2)
     /\ fst s2 = response_wire (from_string OK (bs "hello")) (bs "hello"))
  /\ match serve_stream Std 8 duplex_read duplex_writer (fun _ _ => []) echo 4 300 [] (([Accept 5; Accept 4; Refuse (IoError (KOther 1))], []), segs [C46_wire]) with
     | (x, cs, hs, s) => (x, cs, hs, snd (fst s)) = (Err (IoError (KOther 0)), [Called Put (bs "/x")], [bs "hello"], bs "HTTP/1")
     end.
Proof. split; [eexists; split|]; vm_compute; reflexivity. Qed.

Definition serve_texts (accs : list (res wire3)) :=
  match serve_forever Std 8 wire3_read wire3_writer no_text echo 4 300 [] accs with (alive, cs, hs, ss) => (alive, cs, hs, length ss) end.
Definition conn (b : bytes) : res wire3 := Ok ([], segs [b]).
Definition C51_get (u : bytes) : bytes := bs "GET " ++ u ++ bs " HTTP/1.1" ++ CRLF ++ CRLF.
Definition C51_crash : bytes := bs "GET / HTTP/1.1" ++ CRLF ++ bs "a:" ++ [xc3; xa9] ++ CRLF ++ CRLF.
Example C51_case :
  serve_texts [conn (C51_get (bs "/1")); Err (IoError (KOther 1)); conn (bs "junk"); conn C46_wire; conn (C51_get (bs "/2"))]
    = (true, [Called Get (bs "/1"); Called Put (bs "/x"); Called Get (bs "/2")], [bs "/1"; bs "hello"; bs "/2"], 5)
  /\ serve_texts [conn (C51_get (bs "/1")); conn C51_crash; conn (C51_get (bs "/2"))]
    = (false, [Called Get (bs "/1")], [bs "/1"], 2).
Proof. split; vm_compute; reflexivity. Qed.

(** So the claim that the server survives every peer is false. *)
Theorem C51_survives_refuted :
  ~ (forall accs alive cs hs ss,
       serve_forever Std 8 wire3_read wire3_writer no_text echo 4 300 [] accs = (alive, cs, hs, ss) -> alive = true).
Proof.
  intros H. specialize (H [conn C51_crash]). vm_compute in H. now specialize (H _ _ _ _ eq_refl).
Qed.
Print Assumptions C51_survives_refuted.
