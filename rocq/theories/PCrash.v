(** Exactly which connections end the server's loop: C85. *)
From Verif Require Import Base Utf8 Case Num Io Parser Types Message Outgoing Server Transport.
From Verif Require Import Lemmas ReadLemmas NumLemmas ChunkSpec ChunkLemmas BodyLemmas WriteLemmas ParserLemmas CaseLemmas
  TypesLemmas HeadLemmas BlockLemmas MsgLemmas SimLemmas KeepLemmas ErrLemmas PBody PIo PParse PHead PPanic POut PReuse PServer PAgnostic.

(** ** What is assumed of sockets and handlers *)
(** A socket that takes some of what is written, or none, or fails in any way except that the write is interrupted. *)
Definition steady {W} (wt : writer W) : Prop :=
  forall data w, (exists k w', wr wt data w = (Ok k, w') /\ k <= length data) \/ (exists e w', wr wt data w = (Err e, w') /\ e <> IoError Interrupted).

Definition ends_well {A} (r : res A) : Prop := r <> Panic /\ r <> Fuel.

Lemma retry_only e bld : e <> IoError Interrupted -> is_retry bld e = false.
Proof. intros H. destruct bld; auto. destruct e; auto. now destruct k. Qed.

Lemma write_all_steady {W} bld (wt : writer W) : steady wt -> forall fuel data w, length data <= fuel -> ends_well (fst (write_all bld wt fuel data w)).
Proof.
  intros Hs. induction fuel as [|f IH]; intros data w Hl; destruct data as [|b data]; cbn [write_all fst]; try (split; discriminate); [cbn in Hl; lia|].
  destruct (Hs (b :: data) w) as [(k & w' & E & Hk)|(e & w' & E & He)]; rewrite E; clear E.
  - destruct k as [|k]; [split; discriminate|]. apply Nat.leb_le in Hk as Hk'. rewrite Hk'. apply IH.
    rewrite skipn_length. cbn [length] in *. lia.
  - rewrite (retry_only e bld He). split; discriminate.
Qed.
Lemma write_pieces_steady {W} bld (wt : writer W) fuel : steady wt -> forall ps w, length (concat ps) <= fuel ->
  ends_well (fst (write_pieces bld wt fuel ps w)).
Proof.
  intros Hs. induction ps as [|p ps IH]; intros w Hl; cbn [write_pieces]; [split; discriminate|]. cbn [concat] in Hl. rewrite app_length in Hl.
  pose proof (write_all_steady bld wt Hs fuel p w ltac:(lia)) as [H1 H2]. destruct (write_all bld wt fuel p w) as [[u|e| |] w1]; cbn [sbind fst] in *;
    try easy. apply IH. lia.
Qed.
Lemma copy_steady {St W} bld (rd : reader St) R (wall : bytes -> W -> res unit * W) bufsz : reader_pos rd R -> 0 < bufsz ->
  (forall d w, length d <= bufsz -> ends_well (fst (wall d w))) ->
  forall fuel written s w xs, R s xs -> length xs < fuel -> ends_well (fst (copy_with bld rd wall bufsz fuel written s w)).
Proof.
  intros HR Hb Hw. induction fuel as [|f IH]; intros written s w xs Hs Hl; [lia|]. cbn [copy_with].
  pose proof (HR bufsz s xs Hb Hs) as H. destruct xs as [|[b|e] xs].
  - destruct H as (s' & -> & _). split; discriminate.
  - destruct H as (got & xs' & s' & -> & Hg & Hgl & Ex & Hs').
    assert (Hlen : length (B b :: xs) = length got + length xs') by (rewrite Ex, app_length, map_length; reflexivity).
    destruct got as [|g got]; [easy|]. pose proof (Hw (g :: got) w Hgl) as [W1 W2].
    destruct (wall (g :: got) w) as [[u|e| |] w']; cbn [fst] in *; try easy.
    apply IH with xs'; auto. cbn [length] in *. lia.
  - destruct H as (s' & -> & Hs'). destruct (is_retry bld e); [|split; discriminate]. apply IH with xs; auto. cbn [length] in *. lia.
Qed.

(** A response that can be sent: its body ends or fails, and the fuel suffices. *)
Definition presentable (bld : build) (cap fuel : nat) (r : dyn_response) : Prop :=
  exists xs, delivers (body_read bld (bufr_read bld cap dyn_read) fuel) (rs_body r) xs /\ length xs < fuel /\ length (response_wire r []) <= fuel.
(** What a handler may return: such a response or an error, but no panic. *)
Definition fine (bld : build) (cap fuel : nat) (r : hresult) : Prop :=
  match r with Ok (inl q) => presentable bld cap fuel q | Ok (inr q) => presentable bld cap fuel q | Err _ => True | Panic => False | Fuel => False end.

Lemma respond_steady {S} bld cap (wt : writer S) bufsz fuel r s : steady wt -> 0 < bufsz <= fuel -> presentable bld cap fuel r ->
  ends_well (fst (respond bld cap wt bufsz fuel r s)).
Proof.
  intros Hs Hb (xs & (R & HR & Hr) & Hl & Hh). unfold respond.
  assert (Ew : response_wire r [] = concat (response_pieces r)).
  { rewrite response_pieces_wire. unfold response_wire. now rewrite app_nil_r. }
  rewrite Ew in Hh. pose proof (write_pieces_steady bld wt fuel Hs (response_pieces r) s Hh) as [H1 H2].
  destruct (write_pieces bld wt fuel (response_pieces r) s) as [[u|e| |] s1]; cbn [fst] in *; try easy.
  pose proof (copy_steady bld _ R (write_all bld wt fuel) bufsz HR ltac:(lia)
    (fun d w Hd => write_all_steady bld wt Hs fuel d w ltac:(lia)) fuel 0%N (rs_body r) s1 xs Hr Hl) as [H3 H4].
  unfold copy. destruct (copy_with _ _ _ _ _ _ _ _) as [[n|e| |] [b s2]]; cbn [fst] in *; easy.
Qed.

(** On a body that delivers [xs], cut in any way, the program returns something that satisfies [P] within [k] steps, and reads with non-empty
    buffers. *)
Inductive finishes {A} (P : A -> Prop) : nat -> prog A -> list item -> Prop :=
| fin_ret k a xs : P a -> finishes P (S k) (Ret a) xs
| fin_read k n c xs : 0 < n ->
    (forall got rest, xs = map B got ++ rest -> got <> [] -> length got <= n -> finishes P k (c (Got got)) rest) ->
    (xs = [] -> finishes P k (c (Got [])) []) ->
    (forall e rest, xs = Transport.E e :: rest -> finishes P k (c (Failed e)) rest) -> finishes P (S k) (ReadBody n c) xs
| fin_length k c xs : (forall o, finishes P k (c o) xs) -> finishes P (S k) (BodyLength c) xs.

Lemma run_prog_finishes {A T} bld (rd : reader T) bfuel R (P : A -> Prop) : reader_pos (body_read bld rd bfuel) R ->
  forall fuel p xs, finishes P fuel p xs -> forall b, R b xs -> exists a, fst (run_prog bld rd bfuel fuel p b) = Ok a /\ P a.
Proof.
  intros HR fuel p xs H. induction H as [k a xs Ha|k n c xs Hn Hg IHg He IHe Hf IHf|k c xs Hc IH]; intros b Hb; cbn [run_prog].
  - exists a. auto.
  - pose proof (HR n b xs Hn Hb) as Hr. destruct xs as [|[x|e] xs].
    + destruct Hr as (s' & -> & Hs). now apply IHe.
    + destruct Hr as (got & xs' & s' & -> & H1 & H2 & H3 & Hs). now apply (IHg got xs').
    + destruct Hr as (s' & -> & Hs). now apply (IHf e xs).
  - now apply IH.
Qed.

(** A handler that never panics, whatever it is asked in a request of at most [size] bytes. *)
Record careful {H} (bld : build) (cap fuel size : nat) (hd : handler H) : Prop := {
  careful_plain : forall m g u hs, plain_method hd m = Some g -> length u <= size -> fine bld cap fuel (fst (g u hs));
  careful_body : forall m g u hs xs, body_method hd m = Some g -> length u <= size -> length xs <= size + 1 ->
    finishes (fun a => fine bld cap fuel (fst a)) fuel (g u hs) xs }.

(** ** C85 *)
(** The head of a request that makes the parser panic (C16): a character outside ASCII where the version has its slash, digits or dot,
    or after the colon of a header, in a line that arrives whole. *)
Definition crashes (bld : build) (xs : list item) : Prop :=
  exists first lines, arrived bld first lines xs
    /\ (bad_request_line first \/ (exists m u v, request_line_says first m u v) /\ bad_header_block lines).

Lemma request_body {T} bld (rd : reader T) t xs fuel q t' : delivers rd t xs -> length xs + 3 < fuel ->
  request_deserialize bld rd fuel t = (Ok q, t') ->
  exists out, delivers (body_read bld rd fuel) (rq_body q) out /\ length out <= length xs + 1.
Proof.
  intros D Hf E. destruct (request_delivers bld rd t xs fuel D ltac:(lia)) as (u & Du & Eu). rewrite Eu in E. clear Eu.
  assert (Hl : length (snd (req_of bld xs)) <= length xs).
  { rewrite <- (req_fuel bld (S (length xs))) by lia.
    destruct (request_head_sim (il bld) (il bld) (fun a b => a = b /\ length a <= length xs)) with (fuel := S (length xs)) (a := xs) (b := xs)
      as (r & a & b & -> & _ & _ & Ha); auto.
    intros a b [<- Ha]. split; auto. split; auto. pose proof (items_line_length bld [] a). unfold il. lia. }
  destruct (fst (req_of bld xs)) as [h| | |]; cbn [rbind] in E; try discriminate E. injection E as <- <-.
  set (zs := snd (req_of bld xs)) in *. unfold req_with. cbn [rq_body]. unfold body_new.
  destruct (match qh_encoding h with Some e => _ | None => false end).
  - destruct (decodes_total bld None zs) as (out & rest & Hd). exists out.
    destruct (chunked_body_delivers bld rd u zs out rest fuel (qh_length h) Du Hd ltac:(lia)) as (R & HR & HS & _).
    split; [now exists R|]. apply decodes_out in Hd. lia.
  - destruct (qh_length h) as [n|].
    + exists (take_items n zs). split; [now apply limited_delivers|]. pose proof (take_out n zs). lia.
    + exists zs. split; [now apply tilclose_delivers|]. lia.
Qed.

Lemma request_uri {T} bld (rd : reader T) t xs fuel q t' : delivers rd t xs -> length xs < fuel ->
  request_deserialize bld rd fuel t = (Ok q, t') -> length (rq_uri q) <= length xs.
Proof.
  intros D Hf E. destruct (C30_request _ _ _ _ _ _ _ _ D Hf E) as (first & lines & cx & ys & -> & Hn & _ & _ & Hs & _).
  apply Lemmas.noisy_length in Hn. destruct Hs as (t1 & w1 & r1 & w2 & r2 & t3 & w3 & r3 & (-> & _) & (-> & _) & _).
  rewrite !app_length in *. cbn [length] in *. lia.
Qed.

Lemma inner_fine {S H} bld cap (rd : reader S) etext (hd : handler H) fuel size hs s xs : 0 < cap ->
  careful bld cap fuel size hd -> (forall e s, presentable bld cap fuel (error_response etext e s)) ->
  delivers rd s xs -> length xs <= size -> size + 3 < fuel ->
  (crashes bld xs /\ fst (fst (fst (serve_one_inner bld cap rd etext hd fuel hs s))) = Panic)
  \/ (~ crashes bld xs /\ fine bld cap fuel (fst (fst (fst (serve_one_inner bld cap rd etext hd fuel hs s))))).
Proof.
  intros Hc [Hp Hb] He D Hsz Hf. pose proof (bufr_delivers bld cap rd s xs Hc D) as D'.
  pose proof (C16_request_panics_iff _ bld (bufr_read bld cap rd) fuel (bufr_new s) xs D' ltac:(lia)) as Hiff. fold (crashes bld xs) in Hiff.
  assert (Hnf : fst (request_deserialize bld (bufr_read bld cap rd) fuel (bufr_new s)) <> Fuel).
  { destruct (request_delivers bld _ _ xs fuel D' ltac:(lia)) as (u & _ & ->). pose proof (req_not_fuel bld xs). cbn [fst].
    now destruct (fst (req_of bld xs)). }
  pose proof (fun q t' => request_body bld (bufr_read bld cap rd) (bufr_new s) xs fuel q t' D' ltac:(lia)) as Hbody.
  pose proof (fun q t' => request_uri bld (bufr_read bld cap rd) (bufr_new s) xs fuel q t' D' ltac:(lia)) as Huri.
  unfold serve_one_inner. destruct (request_deserialize bld (bufr_read bld cap rd) fuel (bufr_new s)) as [r t]. cbn [fst] in Hiff, Hnf.
  destruct r as [q|e| |]; [right|right|left|easy].
  - split; [intros X; apply Hiff in X; discriminate X|]. destruct (Hbody q t eq_refl) as (out & (R & HR & Hr) & Hl). pose proof (Nat.le_trans _ _ _ (Huri q t eq_refl) Hsz) as Hu.
    assert (K : forall m g, body_method hd m = Some g ->
      fine bld cap fuel (fst (fst (fst (body_call bld cap rd etext m (rq_uri q) (g (rq_uri q) hs) (rq_body q) hs fuel s))))).
    { intros m g Hm. unfold body_call. destruct (require_length (rq_body q)) as [u|e| |] eqn:Er.
      - destruct (run_prog_finishes bld _ fuel R _ HR fuel _ out (Hb m g (rq_uri q) hs out Hm ltac:(lia) ltac:(lia)) (rq_body q) Hr) as ([r0 h0] & E1 & E2).
        destruct (run_prog bld _ fuel fuel _ (rq_body q)) as [y b']. cbn [fst] in E1. subst y. exact E2.
      - apply He.
      - destruct (rq_body q); discriminate Er.
      - destruct (rq_body q); discriminate Er. }
    destruct (rq_method q); unfold plain_call; cbn [fst];
      first [apply (Hp Delete _ _ _ eq_refl Hu)|apply (Hp Get _ _ _ eq_refl Hu)|apply (Hp Head _ _ _ eq_refl Hu)|apply (Hp Options _ _ _ eq_refl Hu)
            |apply (Hp Trace _ _ _ eq_refl Hu)|apply (K Post _ eq_refl)|apply (K Put _ eq_refl)].
  - split; [intros X; apply Hiff in X; discriminate X|]. apply He.
  - split; [now apply Hiff|reflexivity].
Qed.

Section Crash.
  Context {S H : Type} (bld : build) (cap : nat) (rd : reader S) (wt : writer S) (etext : error -> S -> bytes) (hd : handler H) (bufsz fuel size : nat).
  Hypothesis Hcap : 0 < cap.
  Hypothesis Hwt : steady wt.
  Hypothesis Hbuf : 0 < bufsz <= fuel.
  Hypothesis Hsize : size + 3 < fuel.
  Hypothesis Hhd : careful bld cap fuel size hd.
  Hypothesis Htext : forall e s, presentable bld cap fuel (error_response etext e s).

  (** One connection: the server panics exactly if the head is such a one. Otherwise it returns, with an error at worst. *)
  Theorem C85_one : forall hs s xs, delivers rd s xs -> length xs <= size ->
    let x := fst (fst (fst (serve_one bld cap rd wt etext hd bufsz fuel hs (Ok s)))) in
    x <> Fuel /\ (x = Panic <-> crashes bld xs).
  Proof.
    intros hs s xs D Hf x. subst x. cbn [serve_one]. unfold serve_stream.
    pose proof (inner_fine bld cap rd etext hd fuel size hs s xs Hcap Hhd Htext D Hf Hsize) as Hi.
    destruct (serve_one_inner bld cap rd etext hd fuel hs s) as [[[r cs] hs1] s1]. cbn [fst] in Hi.
    destruct Hi as [[Hx ->]|[Hx Hi]].
    - split; [discriminate|]. split; auto.
    - assert (K : forall q, presentable bld cap fuel q -> ends_well (fst (respond bld cap wt bufsz fuel q s1))) by (intros; now apply respond_steady).
      destruct r as [[q|q]|e| |]; cbn [fine] in Hi; try easy.
      + destruct (K q Hi). destruct (respond bld cap wt bufsz fuel q s1) as [y s2]. cbn [fst] in *. split; auto. split; [easy|]. now intros.
      + destruct (K q Hi). destruct (respond bld cap wt bufsz fuel q s1) as [y s2]. cbn [fst] in *. split; auto. split; [easy|]. now intros.
  Qed.

  (** The connections that are accepted before the loop ends, if it does: [Err] stands for a failed accept. *)
  Definition harmless (a : res S) : Prop :=
    match a with Ok s => exists xs, delivers rd s xs /\ length xs <= size /\ ~ crashes bld xs | Err _ => True | _ => False end.

  (** The loop goes on for as long as no client sends such a head, whatever else they send and however their connections fail; it ends at
      the first one that does, and those after it are not served. *)
  Theorem C85_survives : forall accs hs, Forall harmless accs ->
    exists cs hs' ss, serve_forever bld cap rd wt etext hd bufsz fuel hs accs = (true, cs, hs', ss) /\ length ss = length accs.
  Proof.
    induction accs as [|a accs IH]; intros hs Ha; cbn [serve_forever]; [eauto|]. inversion Ha as [|? ? H1 H2]; subst.
    assert (Hx : ends_well (fst (fst (fst (serve_one bld cap rd wt etext hd bufsz fuel hs a))))).
    { destruct a as [s|e| |]; cbn [harmless] in H1; try easy.
      destruct H1 as (xs & D & Hf & Hn). destruct (C85_one hs s xs D Hf) as [H3 H4]. split; auto. intros X. now apply H4 in X. }
    destruct (serve_one bld cap rd wt etext hd bufsz fuel hs a) as [[[x cs] hs1] s1]. cbn [fst] in Hx.
    destruct (IH hs1 H2) as (cs2 & hs2 & ss & -> & Hl). destruct Hx. destruct x; try easy; do 3 eexists; (split; [reflexivity|]); cbn; lia.
  Qed.

  Theorem C85_ends : forall before s xs after hs, Forall harmless before -> delivers rd s xs -> length xs <= size -> crashes bld xs ->
    exists cs hs' ss, serve_forever bld cap rd wt etext hd bufsz fuel hs (before ++ Ok s :: after) = (false, cs, hs', ss)
      /\ length ss = length before + 1.
  Proof.
    induction before as [|a before IH]; intros s xs after hs Ha D Hf Hc.
    - cbn [app serve_forever]. destruct (C85_one hs s xs D Hf) as [H3 H4]. apply H4 in Hc.
      destruct (serve_one bld cap rd wt etext hd bufsz fuel hs (Ok s)) as [[[x cs] hs1] s1]. cbn [fst] in Hc. subst x. do 3 eexists. split; reflexivity.
    - cbn [app serve_forever]. inversion Ha as [|? ? H1 H2]; subst.
      assert (Hx : ends_well (fst (fst (fst (serve_one bld cap rd wt etext hd bufsz fuel hs a))))).
      { destruct a as [s0|e| |]; cbn [harmless] in H1; try easy.
        destruct H1 as (xs0 & D0 & Hf0 & Hn). destruct (C85_one hs s0 xs0 D0 Hf0) as [H3 H4]. split; auto. intros X. now apply H4 in X. }
      destruct (serve_one bld cap rd wt etext hd bufsz fuel hs a) as [[[x cs] hs1] s1]. cbn [fst] in Hx.
      destruct (IH s xs after hs1 H2 D Hf Hc) as (cs2 & hs2 & ss & -> & Hl). destruct Hx. destruct x; try easy; do 3 eexists; (split; [reflexivity|]); cbn; lia.
  Qed.
End Crash.
Print Assumptions C85_one.
Print Assumptions C85_survives.
Print Assumptions C85_ends.

(** ** Example: two clients, one that does it, and one that is not served any more *)
Lemma slurp_finishes {A} (P : A -> Prop) n (done : bytes -> A) failed : 0 < n -> (forall d, P (done d)) -> (forall e, P (failed e)) ->
  forall k xs acc, length xs + 1 < k -> finishes P k (slurp n (fun d => Ret (done d)) (fun e => Ret (failed e)) acc) xs.
Proof.
  intros Hn Hd He. induction k as [|k IH]; intros xs acc Hl; [lia|]. rewrite slurp_eq. constructor; auto.
  - intros got rest -> Hg _. rewrite app_length, map_length in Hl. destruct got as [|g got]; [easy|]. cbn [length] in Hl. apply IH. lia.
  - intros _. destruct k; [lia|]. now constructor.
  - intros e rest ->. cbn [length] in Hl. destruct k; [lia|]. now constructor.
Qed.
Lemma string_presentable bld cap fuel st d : 0 < cap -> length (response_wire (from_string st []) []) <= fuel -> length d < fuel ->
  presentable bld cap fuel (from_string st d).
Proof. intros Hc Hw Hl. exists (map B d). split; [now apply from_string_delivers|]. rewrite map_length. split; [exact Hl|exact Hw]. Qed.

(** Answers with the path, or with a fixed text after an upload. *)
Definition greeter : handler (list bytes) :=
  let bodyful (u : bytes) (h : list bytes) :=
    slurp 2 (fun d => Ret (Ok (inl (from_string OK (bs "stored"))), h ++ [d])) (fun e => Ret (Ok (inr (from_string BadRequest (bs "?"))), h)) [] in
  let plain (u : bytes) (h : list bytes) := (Ok (inl (from_string OK u)), h ++ [u]) in
  mkHandler plain plain plain plain plain bodyful bodyful.
Lemma greeter_careful : careful Std 8 300 200 greeter.
Proof.
  assert (P : forall st d, (st = OK \/ st = BadRequest) -> length d <= 200 -> presentable Std 8 300 (from_string st d)).
  { intros st d [-> | ->] Hd; apply string_presentable; try lia; vm_compute; lia. }
  split.
  - intros m g u hs Hm Hu. assert (g = fun u h => (Ok (inl (from_string OK u)), h ++ [u])) by (destruct m; try discriminate Hm; cbn in Hm; congruence). subst g.
    cbn. now apply P; [left|].
  - intros m g u hs xs Hm Hu Hx.
    assert (Hg : g = h_post greeter \/ g = h_put greeter) by (destruct m; try discriminate Hm; injection Hm as <-; auto).
    assert (Hp : g u hs = slurp 2 (fun d => Ret (Ok (inl (from_string OK (bs "stored"))), hs ++ [d]))
      (fun e => Ret (Ok (inr (from_string BadRequest (bs "?"))), hs)) []) by (destruct Hg as [-> | ->]; reflexivity).
    rewrite Hp. clear Hp.
    apply (slurp_finishes _ 2 (fun d => (Ok (inl (from_string OK (bs "stored"))), hs ++ [d])) (fun _ => (Ok (inr (from_string BadRequest (bs "?"))), hs)));
      [lia| | |lia]; intros; cbn; apply P; auto; cbn; lia.
Qed.

Lemma wire3_steady : steady wire3_writer.
Proof. intros data w. left. eexists _, _. split; [reflexivity|]. apply Nat.le_min_r. Qed.
Lemma no_text_presentable e s : presentable Std 8 300 (error_response no_text e s).
Proof.
  unfold error_response, no_text. destruct e; apply string_presentable; try lia; vm_compute; lia.
Qed.

Lemma C85_crash : crashes Std (items_of (segs [C51_crash])).
Proof.
  apply (C16_request_panics_iff _ Std seg_read 300 (segs [C51_crash])); [apply seg_delivers|vm_compute; lia|vm_compute; reflexivity].
Qed.
Lemma C85_harmless b : fst (request_deserialize Std seg_read 300 (segs [b])) <> Panic -> length (items_of (segs [b])) <= 200 ->
  harmless Std wire3_read 200 (conn b).
Proof.
  intros Hp Hl. exists (items_of (segs [b])). split; [apply wire3_delivers|]. split; [exact Hl|].
  intros Hc. apply Hp, (C16_request_panics_iff _ Std seg_read 300 (segs [b]) _ (seg_delivers _)); [lia|exact Hc].
Qed.

Example C85_case :
  exists cs hs' ss, serve_forever Std 8 wire3_read wire3_writer no_text greeter 4 300 []
      ([conn (C51_get (bs "/1")); Err (IoError (KOther 1)); conn (bs "junk")] ++ conn C51_crash :: [conn (C51_get (bs "/2"))]) = (false, cs, hs', ss)
    /\ length ss = 4.
Proof.
  apply (C85_ends Std 8 wire3_read wire3_writer no_text greeter 4 300 200 ltac:(lia) wire3_steady ltac:(lia) ltac:(lia) greeter_careful no_text_presentable
    [conn (C51_get (bs "/1")); Err (IoError (KOther 1)); conn (bs "junk")] ([], segs [C51_crash]) (items_of (segs [C51_crash]))).
  - constructor; [apply C85_harmless; [vm_compute; discriminate|vm_compute; lia]|]. constructor; [exact I|].
    constructor; [apply C85_harmless; [vm_compute; discriminate|vm_compute; lia]|constructor].
  - apply wire3_delivers.
  - vm_compute. lia.
  - exact C85_crash.
Qed.
