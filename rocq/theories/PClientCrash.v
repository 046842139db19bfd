(** Exactly which answers make the client panic: C89. *)
From Verif Require Import Base Utf8 Case Num Io Parser Types Message Outgoing Client Server Transport.
From Verif Require Import Lemmas ReadLemmas NumLemmas ChunkSpec ChunkLemmas BodyLemmas WriteLemmas ParserLemmas CaseLemmas
  TypesLemmas HeadLemmas BlockLemmas MsgLemmas SimLemmas KeepLemmas OutLemmas PBody PIo PParse PHead PPanic POut PUrl PReuse PServer PAgnostic PCrash.

(** ** What is assumed of the stream *)
(** Writes fail in any way but are not interrupted for ever (C85), and flushing returns. *)
Definition calm {W} (wt : writer W) : Prop := steady wt /\ forall w, ends_well (fst (fl wt w)).
(** Whatever is written, the peer sends [xs]. *)
Definition peer_sends {S} (rd : reader S) (wt : writer S) (s : S) (xs : list item) : Prop :=
  exists P : S -> Prop, P s /\ (forall d t, P t -> P (snd (wr wt d t))) /\ (forall t, P t -> P (snd (fl wt t))) /\ forall t, P t -> delivers rd t xs.
(** The head of an answer that makes the parser panic (C16). *)
Definition answer_crashes (bld : build) (xs : list item) : Prop :=
  exists first lines, arrived bld first lines xs
    /\ (bad_status_line first \/ (exists v st, status_line_says first v st) /\ bad_header_block lines).

Section Steady.
  Context {S : Type} (bld : build) (cap fuel : nat) (rd : reader S) (wt : writer S) (Hc : calm wt) (Hcap : cap <= fuel).

  Lemma flush_buf_steady : forall f (b : bufw S), length (bw_buf b) <= f ->
    let (r, b') := flush_buf wt f b in ends_well r /\ length (bw_buf b') <= length (bw_buf b).
  Proof using Hc Hcap.
    induction f as [|f IH]; intros [w buf] Hl; destruct buf as [|d data]; cbn [flush_buf bw_buf bw_inner] in *; try (split; [split; discriminate|lia]); [cbn in Hl; lia|].
    destruct (proj1 Hc (d :: data) w) as [(k & w' & E & Hk)|(e & w' & E & He)]; rewrite E; clear E.
    - destruct k as [|k]; [split; [split; discriminate|cbn; lia]|].
      specialize (IH (mkBufw w' (skipn (Datatypes.S k) (d :: data)))). cbn [bw_buf] in IH. rewrite skipn_length in IH. cbn [length] in *.
      specialize (IH ltac:(lia)). destruct (flush_buf wt f _) as [r b']. destruct IH as [I1 I2]. split; [exact I1|lia].
    - rewrite (retry_only e Std He). split; [split; discriminate|cbn; lia].
  Qed.
  Lemma flush_inv (b : bufw S) : bufw_inv Std cap b -> let (r, b') := flush_buf wt fuel b in ends_well r /\ bufw_inv Std cap b'.
  Proof using Hc Hcap.
    unfold bufw_inv. intros H. pose proof (flush_buf_steady fuel b ltac:(lia)) as K. destruct (flush_buf wt fuel b) as [r b']. destruct K. split; [auto|lia].
  Qed.
  Lemma flush_empties : forall f (b b' : bufw S) u, flush_buf wt f b = (Ok u, b') -> bw_buf b' = [].
  Proof using Type.
    induction f as [|f IH]; intros [w buf] b' u; destruct buf as [|d data]; cbn [flush_buf bw_buf bw_inner]; try discriminate; try (intros [= _ <-]; reflexivity).
    destruct (wr wt (d :: data) w) as [[[|k]|e| |] w1]; try discriminate; [apply IH|]. destruct (is_retry Std e); [apply IH|discriminate].
  Qed.
  Lemma bufw_write_steady data (b : bufw S) : bufw_inv bld cap b -> length data <= fuel ->
    let (r, b') := bufw_write_all bld cap wt fuel data b in ends_well r /\ bufw_inv bld cap b'.
  Proof using Hc Hcap.
    intros Hi Hl. unfold bufw_write_all. destruct bld.
    - cbn [bufw_inv] in *. destruct (length data <? cap - length (bw_buf b)) eqn:E1.
      { apply Nat.ltb_lt in E1. split; [split; discriminate|]. cbn [bw_buf]. rewrite app_length. lia. }
      apply Nat.ltb_ge in E1. destruct (cap - length (bw_buf b) <? length data) eqn:E2.
      + pose proof (flush_inv b Hi) as Hf. destruct (flush_buf wt fuel b) as [[u|e| |] b1] eqn:Ef; destruct Hf as [Hf1 Hf2]; cbn [sbind];
          [|split; [split; discriminate|exact Hf2]|now destruct Hf1|now destruct Hf1].
        apply flush_empties in Ef. destruct (cap <=? length data) eqn:E3.
        * pose proof (write_all_steady Std wt (proj1 Hc) fuel data (bw_inner b1) Hl) as Hw. destruct (write_all Std wt fuel data (bw_inner b1)) as [x w'].
          split; [exact Hw|exact Hf2].
        * apply Nat.leb_gt in E3. split; [split; discriminate|]. cbn [bw_buf]. rewrite Ef. cbn [app]. lia.
      + apply Nat.ltb_ge in E2. cbn [sbind]. destruct (cap <=? length data) eqn:E3.
        * pose proof (write_all_steady Std wt (proj1 Hc) fuel data (bw_inner b) Hl) as Hw. destruct (write_all Std wt fuel data (bw_inner b)) as [x w'].
          split; [exact Hw|exact Hi].
        * split; [split; discriminate|]. cbn [bw_buf]. rewrite app_length. lia.
    - pose proof (write_all_steady NoStd wt (proj1 Hc) fuel data (bw_inner b) Hl) as Hw. destruct (write_all NoStd wt fuel data (bw_inner b)) as [x w'].
      split; [exact Hw|exact Hi].
  Qed.
  Lemma bufw_pieces_steady : forall ps (b : bufw S), bufw_inv bld cap b -> length (concat ps) <= fuel ->
    let (r, b') := bufw_pieces bld cap wt fuel ps b in ends_well r /\ bufw_inv bld cap b'.
  Proof using Hc Hcap.
    induction ps as [|p ps IH]; intros b Hi Hl; cbn [bufw_pieces]; [split; [split; discriminate|exact Hi]|]. cbn [concat] in Hl. rewrite app_length in Hl.
    pose proof (bufw_write_steady p b Hi ltac:(lia)) as H. destruct (bufw_write_all bld cap wt fuel p b) as [[u|e| |] b1]; destruct H as [H1 H2]; cbn [sbind];
      [apply IH; [exact H2|lia]|split; [split; discriminate|exact H2]|now destruct H1|now destruct H1].
  Qed.
  Lemma into_inner_steady (b : bufw S) : bufw_inv bld cap b -> ends_well (fst (bufw_into_inner bld wt fuel b)).
  Proof using Hc Hcap.
    intros Hi. unfold bufw_into_inner. destruct bld; [|split; discriminate]. pose proof (flush_inv b Hi) as H.
    destruct (flush_buf wt fuel b) as [[u|e| |] b1]; destruct H as [H _]; try (split; discriminate); exact H.
  Qed.
  Lemma fail_drop_steady {A} r (b : bufw S) : ends_well r -> (forall u, r <> Ok u) -> ends_well (fst (@fail_drop S bld wt A fuel r b)).
  Proof using Type. intros [H1 H2] H3. destruct r as [u|e| |]; cbn [fail_drop fst]; [now elim (H3 u)|split; discriminate|easy|easy]. Qed.

  Lemma send_steady r s : length (concat (request_pieces r)) <= fuel ->
    let (x, _) := send bld cap wt fuel r s in ends_well x /\ forall o, x = Ok o -> oinv bld cap o.
  Proof using Hc Hcap.
    intros Hl. unfold send, request_serialize. pose proof (bufw_pieces_steady (request_pieces r) (bufw_new s) (bufw_new_inv bld cap s) Hl) as H.
    destruct (bufw_pieces bld cap wt fuel (request_pieces r) (bufw_new s)) as [[u|e| |] b1]; destruct H as [H1 H2];
      [|cbn; split; [split; discriminate|discriminate]|now destruct H1|now destruct H1].
    destruct (has_body (rq_method r)).
    - split; [split; discriminate|]. intros o [= <-]. exact H2.
    - pose proof (into_inner_steady b1 H2) as H. destruct (bufw_into_inner bld wt fuel b1) as [[u2|e| |] b2]; cbn [fst] in H;
        [|cbn; split; [split; discriminate|discriminate]|now destruct H|now destruct H].
      split; [split; discriminate|]. intros o [= <-]. exact I.
  Qed.
  Lemma outgoing_write_steady data o : oinv bld cap o -> length (chunk_of data) <= fuel ->
    let (r, o') := outgoing_write bld cap wt fuel data o in ends_well r /\ oinv bld cap o'.
  Proof using Hc Hcap.
    intros Hi Hl. destruct o as [s|b]; cbn [outgoing_write]; [split; [split; discriminate|exact I]|]. change (bufw_inv bld cap b) in Hi. unfold outbody_write.
    destruct data as [|d data]; [split; [split; discriminate|exact Hi]|]. set (dd := d :: data) in *.
    change (chunk_of dd) with (show_hex (N.of_nat (length dd)) ++ CRLF ++ dd ++ CRLF) in Hl. rewrite !app_length in Hl.
    pose proof (bufw_pieces_steady [show_hex (N.of_nat (length dd)); CRLF] b Hi ltac:(cbn [concat]; rewrite app_nil_r, app_length; lia)) as H1.
    destruct (bufw_pieces bld cap wt fuel [show_hex (N.of_nat (length dd)); CRLF] b) as [[u|e| |] b1]; destruct H1 as [H1 I1]; cbn [sbind];
      [|split; [split; discriminate|exact I1]|now destruct H1|now destruct H1].
    pose proof (bufw_write_steady dd b1 I1 ltac:(lia)) as H2.
    destruct (bufw_write_all bld cap wt fuel dd b1) as [[u2|e| |] b2]; destruct H2 as [H2 I2]; cbn [sbind];
      [|split; [split; discriminate|exact I2]|now destruct H2|now destruct H2].
    pose proof (bufw_pieces_steady [CRLF] b2 I2 ltac:(cbn [concat]; rewrite app_nil_r; lia)) as H3.
    destruct (bufw_pieces bld cap wt fuel [CRLF] b2) as [[u3|e| |] b3]; destruct H3 as [H3 I3]; cbn [sbind];
      [split; [split; discriminate|exact I3]|split; [split; discriminate|exact I3]|now destruct H3|now destruct H3].
  Qed.
  Lemma finish_send_steady o : oinv bld cap o -> 5 <= fuel -> ends_well (fst (finish_send bld cap wt fuel o)).
  Proof using Hc Hcap.
    intros Hi Hf. destruct o as [s|b]; cbn [finish_send]; [apply (proj2 Hc)|]. change (bufw_inv bld cap b) in Hi.
    pose proof (bufw_pieces_steady [bs "0" ++ CRLF ++ CRLF] b Hi ltac:(cbn; lia)) as H1.
    destruct (bufw_pieces bld cap wt fuel [bs "0" ++ CRLF ++ CRLF] b) as [[u|e| |] b1]; destruct H1 as [H1 I1];
      [|apply fail_drop_steady; [exact H1|discriminate]|now destruct H1|now destruct H1].
    assert (H2 : let (r, b') := bufw_flush bld wt fuel b1 in ends_well r /\ bufw_inv bld cap b').
    { unfold bufw_flush. pose proof (proj2 Hc) as Hfl. destruct bld.
      - pose proof (flush_inv b1 I1) as K. destruct (flush_buf wt fuel b1) as [[u2|e| |] b2]; destruct K as [K1 K2]; cbn [sbind];
          [|split; [split; discriminate|exact K2]|now destruct K1|now destruct K1].
        specialize (Hfl (bw_inner b2)). destruct (fl wt (bw_inner b2)) as [x w']. split; [exact Hfl|exact K2].
      - cbn [sbind]. specialize (Hfl (bw_inner b1)). destruct (fl wt (bw_inner b1)) as [x w']. split; [exact Hfl|exact I1]. }
    destruct (bufw_flush bld wt fuel b1) as [[u2|e| |] b2]; destruct H2 as [H2 I2];
      [|apply fail_drop_steady; [exact H2|discriminate]|now destruct H2|now destruct H2].
    pose proof (into_inner_steady b2 I2) as H3. destruct (bufw_into_inner bld wt fuel b2) as [[u3|e| |] b3]; cbn [fst] in H3;
      [split; discriminate|apply fail_drop_steady; [exact H3|discriminate]|now destruct H3|now destruct H3].
  Qed.

  Context {Bd : Type} (rdb : reader Bd) (bufsz : nat) (Hb : 0 < bufsz) (Hchunk : forall data, length data <= bufsz -> length (chunk_of data) <= fuel) (H5 : 5 <= fuel).

  Lemma copy_steady_out : forall f written body o bxs, delivers rdb body bxs -> length bxs < f -> oinv bld cap o ->
    let '(r, (_, o')) := copy_with bld rdb (write_all bld (outgoing_writer bld cap wt fuel) fuel) bufsz f written body o in ends_well r /\ oinv bld cap o'.
  Proof using Hc Hcap Hb Hchunk H5.
    induction f as [|f IH]; intros written body o bxs D Hl Hi; [lia|]. cbn [copy_with].
    specialize (delivers_pos rdb bufsz body bxs Hb D) as Hr. destruct bxs as [|[b|e] bxs].
    - destruct Hr as (s1 & -> & _). split; [split; discriminate|exact Hi].
    - destruct Hr as (got & xs' & s1 & -> & E2 & E3 & E4 & E5). destruct got as [|g got]; [easy|]. set (gg := g :: got) in *.
      rewrite (wall_once bld cap wt fuel ltac:(lia)) by easy.
      pose proof (outgoing_write_steady gg o Hi (Hchunk gg E3)) as Hw.
      destruct (outgoing_write bld cap wt fuel gg o) as [[n|e| |] o1]; destruct Hw as [W1 W2];
        [|split; [split; discriminate|exact W2]|now destruct W1|now destruct W1].
      apply (IH _ s1 o1 xs' E5); [|exact W2]. assert (Hx : length (B b :: bxs) = length (map B gg ++ xs')) by congruence.
      rewrite app_length, map_length in Hx. subst gg. cbn [length] in *. lia.
    - destruct Hr as (s1 & -> & E5). destruct (is_retry bld e); [|split; [split; discriminate|exact Hi]].
      apply (IH _ s1 o bxs E5); [cbn in Hl; lia|exact Hi].
  Qed.
End Steady.

Lemma copy_keep {S Bd} bld cap (wt : writer S) (rdb : reader Bd) bufsz wfuel P : kept (fun _ s => (Ok [], s)) wt P -> 0 < wfuel ->
  forall f written body o bxs, 0 < bufsz -> delivers rdb body bxs -> okeep P o ->
  okeep P (snd (snd (copy_with bld rdb (write_all bld (outgoing_writer bld cap wt wfuel) wfuel) bufsz f written body o))).
Proof.
  intros HP Hw. induction f as [|f IH]; intros written body o bxs Hb D Hk; cbn [copy_with]; [exact Hk|].
  specialize (delivers_pos rdb bufsz body bxs Hb D) as Hr. destruct bxs as [|[b|e] bxs].
  - destruct Hr as (s1 & -> & _). exact Hk.
  - destruct Hr as (got & xs' & s1 & -> & E2 & E3 & E4 & E5). destruct got as [|g got]; [easy|]. set (gg := g :: got) in *.
    rewrite (wall_once bld cap wt wfuel ltac:(lia)) by easy.
    pose proof (outgoing_write_keep bld cap _ wt P HP wfuel gg o Hk) as K.
    destruct (outgoing_write bld cap wt wfuel gg o) as [[n|e| |] o1]; cbn [snd] in *; auto. now apply (IH _ s1 o1 xs').
  - destruct Hr as (s1 & -> & E5). destruct (is_retry bld e); [|exact Hk]. now apply (IH _ s1 o bxs).
Qed.

(** ** The theorems *)
(** The request does not get out: sending fails, the same way whatever the peer would have sent. *)
Definition unsent {S Bd} bld cap (wt : writer S) bufsz (rdb : reader Bd) fuel r body s : Prop :=
  exists e, forall rd : reader S, fst (exchange bld cap rd wt bufsz rdb fuel r body s) = Err e.

(** Sending either fails, or leaves the stream to the reading of the answer. *)
Lemma exchange_splits {S Bd} bld cap (wt : writer S) bufsz (rdb : reader Bd) fuel r body bxs s (P : S -> Prop) :
  calm wt -> cap <= fuel -> 0 < bufsz -> (forall data, length data <= bufsz -> length (chunk_of data) <= fuel) -> 5 <= fuel ->
  length (concat (request_pieces r)) <= fuel -> delivers rdb body bxs -> length bxs < fuel -> P s ->
  (forall d t, P t -> P (snd (wr wt d t))) -> (forall t, P t -> P (snd (fl wt t))) ->
  (exists e, forall rd' : reader S, fst (exchange bld cap rd' wt bufsz rdb fuel r body s) = Err e)
    \/ exists s1, P s1 /\ forall rd' : reader S, exchange bld cap rd' wt bufsz rdb fuel r body s =
         (dos resp, s2 <- response_deserialize bld rd' fuel s1;
          match rs_status resp with
          | OK => (Ok (rs_body resp), s2)
          | st => (Err (UnexpectedStatus st), s2) end).
Proof.
  intros Hc Hcap Hb Hch H5 Hr D Hbx Ps Pw Pf.
  assert (HP : kept (fun _ s => (Ok [], s)) wt P) by (constructor; auto).
  unfold exchange. pose proof (send_steady bld cap fuel wt Hc Hcap r s Hr) as H1.
    pose proof (send_keep bld cap _ wt P HP fuel r s Ps) as [_ H2].
    destruct (send bld cap wt fuel r s) as [[o|e| |] s0]; destruct H1 as [H1 I1];
      [|left; exists e; reflexivity|now destruct H1|now destruct H1].
    cbn [sbind]. specialize (I1 o eq_refl). specialize (H2 o eq_refl).
    pose proof (copy_steady_out bld cap fuel wt Hc Hcap rdb bufsz Hb Hch H5 fuel 0%N body o bxs D Hbx I1) as H3.
    pose proof (copy_keep bld cap wt rdb bufsz fuel P HP ltac:(lia) fuel 0%N body o bxs Hb D H2) as H4. unfold copy.
    destruct (copy_with bld rdb _ bufsz fuel 0%N body o) as [[n|e| |] [b1 o1]]; cbn [snd] in H4; destruct H3 as [H3 I3];
      [|left; exists e; reflexivity|now destruct H3|now destruct H3].
    unfold finish. pose proof (finish_send_steady bld cap fuel wt Hc Hcap o1 I3 H5) as H6.
    pose proof (finish_send_keep bld cap _ wt P HP fuel o1 H4) as H7.
    destruct (finish_send bld cap wt fuel o1) as [[u|e| |] s1]; cbn [fst snd] in *;
      [|left; exists e; reflexivity|now destruct H6|now destruct H6].
    right. exists s1. split; [exact H7|]. intros rd'. cbn [sbind]. destruct (response_deserialize bld rd' fuel s1) as [[resp|e| |] s2]; cbn [sbind]; reflexivity.
Qed.

(** A client's exchange always returns, and it panics exactly if the request gets out and the head of the answer is such a one. *)
Theorem C89_one : forall S Bd bld cap (rd : reader S) (wt : writer S) bufsz (rdb : reader Bd) fuel r body bxs s xs,
  calm wt -> cap <= fuel -> 0 < bufsz -> (forall data, length data <= bufsz -> length (chunk_of data) <= fuel) -> 5 <= fuel ->
  length (concat (request_pieces r)) <= fuel -> delivers rdb body bxs -> length bxs < fuel -> peer_sends rd wt s xs -> length xs < fuel ->
  let x := fst (exchange bld cap rd wt bufsz rdb fuel r body s) in
  x <> Fuel /\ (x = Panic <-> answer_crashes bld xs /\ ~ unsent bld cap wt bufsz rdb fuel r body s).
Proof.
  intros S Bd bld cap rd wt bufsz rdb fuel r body bxs s xs Hc Hcap Hb Hch H5 Hr D Hbx (P & Ps & Pw & Pf & Pd) Hxs x.
  pose proof (exchange_splits bld cap wt bufsz rdb fuel r body bxs s P Hc Hcap Hb Hch H5 Hr D Hbx Ps Pw Pf) as K.
  destruct K as [[e K]|(s1 & P1 & K)].
  - subst x. rewrite (K rd). split; [discriminate|]. split; [discriminate|]. intros [_ X]. elim X. now exists e.
  - specialize (Pd s1 P1). pose proof (C16_response_panics_iff _ bld rd fuel s1 xs Pd Hxs) as Hiff. fold (answer_crashes bld xs) in Hiff.
    assert (Hnf : fst (response_deserialize bld rd fuel s1) <> Fuel).
    { destruct (response_delivers bld rd s1 xs fuel Pd Hxs) as (t' & _ & ->). pose proof (resp_not_fuel bld xs). cbn [fst]. now destruct (fst (resp_of bld xs)). }
    assert (Hns : ~ unsent bld cap wt bufsz rdb fuel r body s).
    { intros [e X]. pose proof (X (fun _ s => (Panic, s))) as X1. pose proof (X (fun _ s => (Fuel, s))) as X2. rewrite K in X1. revert X1.
      unfold response_deserialize. destruct fuel as [|f]; [lia|]. cbn. discriminate. }
    subst x. rewrite K. destruct (response_deserialize bld rd fuel s1) as [[resp|e| |] s2]; cbn [fst sbind] in *.
    + assert (Hx : ~ answer_crashes bld xs) by (intros X; apply Hiff in X; discriminate X).
      destruct (rs_status resp); cbn [fst]; (split; [discriminate|]); (split; [discriminate|]); now intros [? _].
    + split; [discriminate|]. split; [discriminate|]. intros [X _]. apply Hiff in X. discriminate X.
    + split; [discriminate|]. split; [|reflexivity]. intros _. split; [now apply Hiff|exact Hns].
    + easy.
Qed.
Print Assumptions C89_one.

(** A peer that reacts to what it is sent: what the stream delivers may be different after every write. If it is finite whenever the client
    stops writing, the exchange returns, and it panics only on such an answer. *)
Inductive reachable {S} (wt : writer S) (s : S) : S -> Prop :=
| reach_start : reachable wt s s
| reach_write d t : reachable wt s t -> reachable wt s (snd (wr wt d t))
| reach_flush t : reachable wt s t -> reachable wt s (snd (fl wt t)).
Theorem C89_reactive : forall S Bd bld cap (rd : reader S) (wt : writer S) bufsz (rdb : reader Bd) fuel r body bxs s,
  calm wt -> cap <= fuel -> 0 < bufsz -> (forall data, length data <= bufsz -> length (chunk_of data) <= fuel) -> 5 <= fuel ->
  length (concat (request_pieces r)) <= fuel -> delivers rdb body bxs -> length bxs < fuel ->
  (forall t, reachable wt s t -> exists xs, delivers rd t xs /\ length xs < fuel) ->
  let x := fst (exchange bld cap rd wt bufsz rdb fuel r body s) in
  x <> Fuel /\ (x = Panic -> exists t xs, reachable wt s t /\ delivers rd t xs /\ answer_crashes bld xs).
Proof.
  intros S Bd bld cap rd wt bufsz rdb fuel r body bxs s Hc Hcap Hb Hch H5 Hr D Hbx Hp x. subst x.
  destruct (exchange_splits bld cap wt bufsz rdb fuel r body bxs s (reachable wt s) Hc Hcap Hb Hch H5 Hr D Hbx (reach_start wt s)
    (reach_write wt s) (reach_flush wt s)) as [[e K]|(s1 & P1 & K)]; rewrite K; clear K; [now split|].
  destruct (Hp s1 P1) as (xs & Dx & Hx). pose proof (C16_response_panics_iff _ bld rd fuel s1 xs Dx Hx) as Hiff.
  assert (Hnf : fst (response_deserialize bld rd fuel s1) <> Fuel).
  { destruct (response_delivers bld rd s1 xs fuel Dx Hx) as (t' & _ & ->). pose proof (resp_not_fuel bld xs). cbn [fst]. now destruct (fst (resp_of bld xs)). }
  destruct (response_deserialize bld rd fuel s1) as [[q|e| |] s2]; cbn [sbind fst] in *; [now destruct (rs_status q)|now split| |easy].
  split; [easy|]. intros _. exists s1, xs. split; [exact P1|]. split; [exact Dx|]. now apply Hiff.
Qed.
Print Assumptions C89_reactive.

(** The body that the caller gets: every read of it returns, with bytes or an error of which [out] is the list. *)
Lemma response_body {T} bld cap (rd : reader T) t xs fuel q t' : 0 < cap -> delivers rd t xs -> length xs + 3 < fuel ->
  response_deserialize bld rd fuel t = (Ok q, t') ->
  exists out, delivers (body_read bld (bufr_read bld cap rd) fuel) (rs_body q) out /\ length out <= length xs + 1.
Proof.
  intros Hcap D Hf E. assert (Hf' : length xs < fuel) by lia. pose proof (C30_response _ _ _ _ _ _ _ _ D Hf' E) as (first & lines & cx & ys & Hx & _ & _ & _ & _ & _ & _ & Dy).
  destruct (response_delivers bld rd t xs fuel D ltac:(lia)) as (u & _ & Eu). rewrite Eu in E. clear Eu.
  assert (Hl : length ys <= length xs) by (rewrite Hx, app_length; cbn; lia). clear Hx.
  destruct (fst (resp_of bld xs)) as [h| | |]; cbn [rbind] in E; try discriminate E. injection E as <- <-.
  apply (bufr_delivers bld cap rd u ys Hcap) in Dy. unfold resp_with. cbn [rs_body]. unfold body_new.
  destruct (match sh_encoding h with Some e => _ | None => false end).
  - destruct (decodes_total bld None ys) as (out & rest & Hd). exists out.
    destruct (chunked_body_delivers bld (bufr_read bld cap rd) (bufr_new u) ys out rest fuel (sh_length h) Dy Hd ltac:(lia)) as (R & HR & HS & _).
    split; [now exists R|]. apply decodes_out in Hd. lia.
  - destruct (sh_length h) as [n|].
    + exists (take_items n ys). split; [now apply limited_delivers|]. pose proof (take_out n ys). lia.
    + exists ys. split; [now apply tilclose_delivers|]. lia.
Qed.
Theorem C89_body : forall S Bd bld cap (rd : reader S) (wt : writer S) bufsz (rdb : reader Bd) fuel r body bxs s xs b,
  0 < cap ->
  calm wt -> cap <= fuel -> 0 < bufsz -> (forall data, length data <= bufsz -> length (chunk_of data) <= fuel) -> 5 <= fuel ->
  length (concat (request_pieces r)) <= fuel -> delivers rdb body bxs -> length bxs < fuel -> peer_sends rd wt s xs -> length xs + 3 < fuel ->
  fst (exchange bld cap rd wt bufsz rdb fuel r body s) = Ok b ->
  exists out, delivers (body_read bld (bufr_read bld cap rd) fuel) b out /\ length out <= length xs + 1.
Proof.
  intros S Bd bld cap rd wt bufsz rdb fuel r body bxs s xs b H0 Hc Hcap Hb Hch H5 Hr D Hbx (P & Ps & Pw & Pf & Pd) Hxs E.
  destruct (exchange_splits bld cap wt bufsz rdb fuel r body bxs s P Hc Hcap Hb Hch H5 Hr D Hbx Ps Pw Pf) as [[e K]|(s1 & P1 & K)].
  - rewrite K in E. discriminate E.
  - rewrite K in E. clear K. destruct (response_deserialize bld rd fuel s1) as [[q|e| |] s2] eqn:Er; cbn [sbind fst] in E; try discriminate E.
    assert (rs_body q = b) as <- by (destruct (rs_status q); cbn [fst] in E; try discriminate E; now injection E). now apply (response_body bld cap rd s1 xs fuel q s2 H0 (Pd s1 P1)).
Qed.
Print Assumptions C89_body.

(** Over a stream that takes everything, a request with its body gets out, so the answer alone decides. *)
Theorem C89_reliable : forall S Bd bld cap (rd : reader S) (wt : writer S) log bufsz (rdb : reader Bd) fuel r body bxs data s xs,
  honest wt log -> reliable wt -> calm wt -> cap <= fuel -> 0 < bufsz -> (forall d, length d <= bufsz -> length (chunk_of d) <= fuel) -> 5 <= fuel ->
  length (concat (request_pieces r)) <= fuel -> delivers rdb body bxs -> length bxs < fuel ->
  has_body (rq_method r) = true /\ noisy bld data bxs \/ bxs = [] ->
  peer_sends rd wt s xs -> length xs < fuel ->
  (fst (exchange bld cap rd wt bufsz rdb fuel r body s) = Panic <-> answer_crashes bld xs).
Proof.
  intros S Bd bld cap rd wt log bufsz rdb fuel r body bxs data s xs Hh Hrel Hc Hcap Hb Hch H5 Hr D Hbx Hor Hp Hxs.
  destruct (C89_one S Bd bld cap rd wt bufsz rdb fuel r body bxs s xs Hc Hcap Hb Hch H5 Hr D Hbx Hp Hxs) as [_ Hiff]. rewrite Hiff. clear Hiff.
  split; [now intros [? _]|]. intros Hx. split; [exact Hx|]. clear Hx. intros [e X]. specialize (X (fun _ s => (Panic, s))). revert X. unfold exchange.
  pose proof (send_steady bld cap fuel wt Hc Hcap r s Hr) as H1.
  destruct (send_reliable bld cap wt log fuel r s Hh Hrel Hcap Hr) as (o & sa & E). rewrite E in *. destruct H1 as [_ H1]. specialize (H1 o eq_refl).
  cbn [sbind]. unfold copy.
  assert (Hcp : exists b' o' n, copy_with bld rdb (write_all bld (outgoing_writer bld cap wt fuel) fuel) bufsz fuel 0%N body o = (Ok n, (b', o')) /\ oinv bld cap o').
  { pose proof (copy_steady_out bld cap fuel wt Hc Hcap rdb bufsz Hb Hch H5 fuel 0%N body o bxs D Hbx H1) as H3.
    assert (H4 : exists b' o' n, copy_with bld rdb (write_all bld (outgoing_writer bld cap wt fuel) fuel) bufsz fuel 0%N body o = (Ok n, (b', o'))).
    { destruct Hor as [[Hm Hn]| ->].
      - apply (copy_out_reliable bld cap wt log Hh rdb bufsz Hb fuel ltac:(lia) Hrel Hcap Hch fuel 0%N body o bxs data D Hn Hbx H1). revert E. unfold send, request_serialize. rewrite Hm.
        destruct (bufw_pieces bld cap wt fuel (request_pieces r) (bufw_new s)) as [[u|e'| |] b1]; cbn [fail_drop]; try discriminate. now intros [= <- _].
      - destruct fuel as [|f]; [lia|]. cbn [copy_with]. specialize (delivers_pos rdb bufsz body [] Hb D) as Hr0. cbn in Hr0. destruct Hr0 as (s1 & -> & _). eauto. }
    destruct H4 as (b' & o' & n & H4). rewrite H4 in *. exists b', o', n. split; [reflexivity|apply H3]. }
  destruct Hcp as (b' & o' & n & -> & Hi). unfold finish.
  destruct (finish_send_reliable bld cap wt log fuel o' Hh Hrel Hcap H5 Hi) as (s1 & ->). cbn [sbind].
  unfold response_deserialize. destruct fuel as [|f]; [lia|]. cbn. discriminate.
Qed.
Print Assumptions C89_reliable.

(** ** Example: a PUT over a stream that takes 3 bytes at a time; and over one that refuses to take any *)
Definition C89_request : request unit := mkRequest Put (bs "/x") v11 [] tt.
Definition C89_crash : bytes := bs "HTT" ++ [xe2; x82; xac] ++ CRLF.
Definition C89_odd : bytes := bs "HTTP/1.1 200 " ++ [xe2; x82; xac] ++ CRLF ++ bs "a:1" ++ CRLF ++ CRLF.
Definition deaf_writer : writer (bytes * list event) := mkWriter (fun _ w => (Err (IoError (KOther 9)), w)) (fun w => (Ok tt, w)).

Lemma wire3_calm : calm wire3_writer.
Proof. split; [exact wire3_steady|]. intros w. split; discriminate. Qed.
Lemma deaf_calm : calm deaf_writer.
Proof. split; [|intros w; split; discriminate]. intros data w. right. eexists _, _. split; [reflexivity|discriminate]. Qed.
Lemma wire3_peer evs : peer_sends wire3_read wire3_writer ([], evs) (items_of evs).
Proof.
  exists (fun s => snd s = evs). split; [reflexivity|]. split; [intros d t <-; reflexivity|]. split; [intros t <-; reflexivity|].
  intros [a b] Hs. cbn in Hs. subst b. apply wire3_delivers.
Qed.
Lemma small_chunks d : length d <= 4 -> length (chunk_of d) <= 300.
Proof. destruct d as [|a [|b [|c [|e [|f d]]]]]; intros H; try (cbn in H; lia); vm_compute; lia. Qed.

Example C89_case :
  let go b := fst (exchange Std 8 wire3_read wire3_writer 4 seg_read 300 C89_request (segs [bs "hello"; bs "world"]) ([], segs [b])) in
  go C89_crash = Panic
  /\ (exists f l, arrived Std f l (items_of (segs [C89_crash])) /\ bad_status_line f)
  /\ go C89_odd <> Panic /\ go C89_odd <> Fuel
  /\ fst (exchange Std 8 wire3_read deaf_writer 4 seg_read 300 C89_request (segs [bs "hello"]) ([], segs [C89_crash])) = Err (IoError (KOther 9)).
Proof.
  cbv zeta.
  assert (K : forall b, length (items_of (segs [b])) < 300 ->
    fst (exchange Std 8 wire3_read wire3_writer 4 seg_read 300 C89_request (segs [bs "hello"; bs "world"]) ([], segs [b])) = Panic
      <-> answer_crashes Std (items_of (segs [b]))).
  { intros b Hb. apply (C89_reliable _ _ Std 8 wire3_read wire3_writer fst 4 seg_read 300 C89_request _ (items_of (segs [bs "hello"; bs "world"])) (bs "helloworld"));
      try lia; try exact small_chunks; try apply wire3_reliable; try apply wire3_honest; try apply wire3_calm; try apply wire3_peer; try apply seg_delivers; try assumption;
      try (vm_compute; lia). left. split; [reflexivity|]. vm_compute. repeat constructor. }
  assert (Hbad : exists f l, arrived Std f l (items_of (segs [C89_crash])) /\ bad_status_line f).
  { exists (bs "HTT" ++ [xe2; x82; xac]), []. split.
    - exists (map B C89_crash), []. split; [reflexivity|]. split; [apply noisy_map|].
      repeat constructor; try easy; try (apply no_cr_no_crlf; intros H; repeat (destruct H as [H|H]; [easy|]); easy); apply is_utf8_valid; reflexivity.
    - exists (bs "HTT" ++ [xe2; x82; xac]), [], []. split; [apply token_end|].
      + now repeat constructor; intros [H|H].
      + exists (bs "HTT"), 8364%N, []. repeat (split; [easy|]). left. cbn. lia. }
  split.
  - apply K; [vm_compute; lia|]. destruct Hbad as (f & l & H1 & H2). exists f, l. auto.
  - split; [exact Hbad|]. split; [|split; vm_compute; [discriminate|reflexivity]].
    intros X. vm_compute in X. discriminate X.
Qed.

(** The head is fine and the body is not: the caller gets the body, and reading it returns. *)
Definition C89_bad_chunk : bytes := bs "HTTP/1.1 200 OK" ++ CRLF ++ bs "Transfer-Encoding: chunked" ++ CRLF ++ CRLF ++ bs "2" ++ CRLF ++ bs "ab" ++ CRLF ++ [xc3; xa9] ++ CRLF.
Example C89_body_case :
  exists b, fst (exchange Std 8 wire3_read wire3_writer 4 seg_read 300 C89_request (segs [bs "hello"; bs "world"]) ([], segs [C89_bad_chunk])) = Ok b
    /\ (exists out, delivers (body_read Std (bufr_read Std 8 wire3_read) 300) b out /\ length out <= 100)
    /\ exists b1, body_read Std (bufr_read Std 8 wire3_read) 300 5 b = (Ok (bs "ab"), b1)
    /\ exists e, fst (body_read Std (bufr_read Std 8 wire3_read) 300 5 b1) = Err e.
Proof.
  assert (K : forall b, fst (exchange Std 8 wire3_read wire3_writer 4 seg_read 300 C89_request (segs [bs "hello"; bs "world"]) ([], segs [C89_bad_chunk])) = Ok b ->
    exists out, delivers (body_read Std (bufr_read Std 8 wire3_read) 300) b out /\ length out <= length (items_of (segs [C89_bad_chunk])) + 1).
  { intros b. apply (C89_body _ _ Std 8 wire3_read wire3_writer 4 seg_read 300 C89_request _ (items_of (segs [bs "hello"; bs "world"])));
      try lia; try exact small_chunks; try apply wire3_calm; try apply wire3_peer; try apply seg_delivers; vm_compute; lia. }
  remember (fst (exchange Std 8 wire3_read wire3_writer 4 seg_read 300 C89_request (segs [bs "hello"; bs "world"]) ([], segs [C89_bad_chunk]))) as x eqn:E.
  vm_compute in E. subst x. eexists. split; [reflexivity|]. split.
  - destruct (K _ eq_refl) as (out & H1 & H2). exists out. split; [exact H1|]. eapply Nat.le_trans; [exact H2|]. vm_compute. lia.
  - eexists. split; [vm_compute; reflexivity|]. eexists. vm_compute. reflexivity.
Qed.

(** A peer that answers only once it has seen the end of the request. *)
Definition shy_read : reader (bytes * list event) := fun n s =>
  if is_prefix (rev (bs "0" ++ CRLF ++ CRLF)) (rev (fst s)) then wire3_read n s else (Ok [], s).
Example C89_reactive_case :
  (forall t, reachable wire3_writer ([], segs [C89_crash]) t -> exists xs, delivers shy_read t xs /\ length xs < 300)
  /\ fst (exchange Std 8 shy_read wire3_writer 4 seg_read 300 C89_request (segs [bs "hello"]) ([], segs [C89_crash])) = Panic
  /\ fst (shy_read 5 ([], segs [C89_crash])) = Ok [].
Proof.
  split; [|split; vm_compute; reflexivity].
  assert (K : forall t, reachable wire3_writer ([], segs [C89_crash]) t -> snd t = segs [C89_crash]) by (induction 1; auto).
  intros [w evs] Ht. apply K in Ht. cbn [snd] in Ht. subst evs.
  destruct (is_prefix (rev (bs "0" ++ CRLF ++ CRLF)) (rev w)) eqn:E.
  - exists (items_of (segs [C89_crash])). split; [|vm_compute; lia].
    exists (fun s xs => xs = items_of (snd s) /\ fst s = w). split; [|auto]. intros n [w0 evs0] xs Hn [Hx Hw]. cbn [fst snd] in *. subst w0.
    unfold shy_read. cbn [fst]. rewrite E. unfold wire3_read. cbn [fst snd].
    pose proof (seg_read_pos n evs0 xs Hn Hx) as H. destruct (seg_read n evs0) as [x evs1]. destruct xs as [|[c|e] xs].
    + destruct H as (s' & [= -> ->] & H). now exists (w, s').
    + destruct H as (got & xs' & s' & [= -> ->] & H1 & H2 & H3 & H). exists got, xs', (w, s'). auto 8.
    + destruct H as (s' & [= -> ->] & H). now exists (w, s').
  - exists []. split; [|cbn; lia]. exists (fun s xs => xs = [] /\ s = (w, segs [C89_crash])). split; [|auto]. intros n s xs Hn [-> ->].
    unfold shy_read. cbn [fst]. rewrite E. eauto.
Qed.
