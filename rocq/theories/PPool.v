(** Properties C42 and C43: the connection pool. *)
From Verif Require Import Base Utf8 Case Num Io Parser Types Message Outgoing Client Transport.
From Verif Require Import Lemmas ReadLemmas HeadLemmas SimLemmas KeepLemmas OutLemmas POut PUrl.

(** ** What a caller may do with a pooled request *)
Section Uses.
  Context {S : Type} (bld : build) (cap : nat) (rd : reader S) (wt : writer S).

  (** Reading a response body any number of times, then letting go of it. *)
  Inductive body_uses : hbody (bufr S) -> S -> Prop :=
  | bu_stop b : body_uses b (br_inner (body_reader b))
  | bu_read b fuel n r b' s :
      body_read bld (bufr_read bld cap rd) fuel n b = (r, b') -> body_uses b' s -> body_uses b s.

  (** [uses o s]: the caller wrote and flushed any number of times, whatever the results, then dropped
      the request, leaked it, or finished it and used the response; the stream ended up as [s]. *)
  Inductive uses : outgoing S -> S -> Prop :=
  | us_drop fuel o : uses o (outgoing_drop bld wt fuel o)
  | us_forget o : uses o (out_sock o)
  | us_write fuel d o r o' s : outgoing_write bld cap wt fuel d o = (r, o') -> uses o' s -> uses o s
  | us_flush fuel o r o' s : outgoing_flush bld wt fuel o = (r, o') -> uses o' s -> uses o s
  | us_failed fuel o r s : finish bld cap rd wt fuel o = (r, s) -> (forall x, r <> Ok x) -> uses o s
  | us_body fuel o resp s0 s :
      finish bld cap rd wt fuel o = (Ok resp, s0) -> body_uses (rs_body resp) s -> uses o s.

  (** [answered o resp]: some such use obtains the response [resp]. *)
  Inductive answered : outgoing S -> response (hbody (bufr S)) -> Prop :=
  | an_write fuel d o r o' resp : outgoing_write bld cap wt fuel d o = (r, o') -> answered o' resp -> answered o resp
  | an_flush fuel o r o' resp : outgoing_flush bld wt fuel o = (r, o') -> answered o' resp -> answered o resp
  | an_finish fuel o resp s : finish bld cap rd wt fuel o = (Ok resp, s) -> answered o resp.

  Lemma body_uses_keep P : kept rd wt P -> forall b s, body_uses b s -> P (br_inner (body_reader b)) -> P s.
  Proof.
    intros HP b s H. induction H as [b|b fuel n r b' s E _ IH]; auto. intros Hb. apply IH.
    pose proof (body_read_keep bld cap rd wt P HP fuel n b Hb) as Hk. now rewrite E in Hk.
  Qed.
  Lemma uses_keep P : kept rd wt P -> forall o s, uses o s -> P (out_sock o) -> P s.
  Proof.
    intros HP o s H. induction H as [fuel o|o|fuel d o r o' s E _ IH|fuel o r o' s E _ IH|fuel o r s E _|fuel o resp s0 s E Hb]; intros Ho; auto.
    - now apply (outgoing_drop_keep bld rd wt P HP).
    - apply IH. pose proof (outgoing_write_keep bld cap rd wt P HP fuel d o Ho) as Hk. now rewrite E in Hk.
    - apply IH. pose proof (outgoing_flush_keep bld rd wt P HP fuel o Ho) as Hk. now rewrite E in Hk.
    - pose proof (finish_keep bld cap rd wt P HP fuel o Ho) as [Hk _]. now rewrite E in Hk.
    - pose proof (finish_keep bld cap rd wt P HP fuel o Ho) as [_ Hk]. rewrite E in Hk. specialize (Hk resp eq_refl).
      now apply (body_uses_keep P HP _ _ Hb).
  Qed.
End Uses.

Definition not_ok {A} (r : res A) : Prop := forall x, r <> Ok x.

Section Pool.
  Context {Addr S Wd : Type} (aeq : forall x y : Addr, {x = y} + {x <> y})
    (conn : connector Addr S Wd) (bld : build) (cap : nat) (rd : reader S) (wt : writer S).

  Lemma pool_get_set a b (s : S) p : pool_get aeq a (pool_set aeq b s p) = if aeq a b then Some s else pool_get aeq a p.
  Proof.
    induction p as [|[c t] p IH]; cbn [pool_set pool_get]; [now destruct (aeq a b)|].
    destruct (aeq b c) as [->|Hb]; cbn [pool_get].
    - now destruct (aeq a c).
    - destruct (aeq a c) as [->|Ha]; [|exact IH]. destruct (aeq c b); [congruence|auto].
  Qed.

  Lemma pool_get_update a b (s : S) p : pool_get aeq b p <> None ->
    pool_get aeq a (pool_update aeq b s p) = if aeq a b then Some s else pool_get aeq a p.
  Proof.
    induction p as [|[c t] p IH]; cbn [pool_update pool_get]; [easy|]. intros Hp.
    destruct (aeq b c) as [->|Hb]; cbn [pool_get].
    - now destruct (aeq a c).
    - destruct (aeq a c) as [->|Ha]; [|now apply IH]. destruct (aeq c b); [congruence|auto].
  Qed.
  (** [p1] is [p] with the stream [s] at [a]. *)
  Definition now_at (a : Addr) (s : S) (p p1 : pool) : Prop :=
    forall b, pool_get aeq b p1 = if aeq b a then Some s else pool_get aeq b p.

  Definition with_addr (a : Addr) (x : res (outgoing S)) : res (Addr * outgoing S) :=
    match x with Ok o => Ok (a, o) | Err e => Err e | Panic => Panic | Fuel => Fuel end.

  (** The ways a call of [HttpClient::get] or [put] can go. *)
  Inductive started (m : method) (fuel : nat) (u : url) (p : pool) (w : Wd)
    : res (Addr * outgoing S) -> pool -> Wd -> Prop :=
  | sd_url r : not_ok r -> started m fuel u p w r p w
  | sd_addr r x w1 : c_addr conn u w = (x, w1) -> not_ok x -> not_ok r -> started m fuel u p w r p w1
  | sd_have a w1 s req x s1 p1 : c_addr conn u w = (Ok a, w1) -> pool_get aeq a p = Some s ->
      builder_new u m = Ok req -> send bld cap wt fuel req s = (x, s1) -> now_at a s1 p p1 ->
      started m fuel u p w (with_addr a x) p1 w1
  | sd_conn a w1 w2 s req x s1 p1 : c_addr conn u w = (Ok a, w1) -> pool_get aeq a p = None ->
      builder_new u m = Ok req -> c_connect conn a w1 = (Ok s, w2) -> send bld cap wt fuel req s = (x, s1) -> now_at a s1 p p1 ->
      started m fuel u p w (with_addr a x) p1 w2
  | sd_fail a w1 x w2 r : c_addr conn u w = (Ok a, w1) -> pool_get aeq a p = None ->
      c_connect conn a w1 = (x, w2) -> not_ok x -> not_ok r -> started m fuel u p w r p w2.

  Lemma now_at_had a s s1 p : pool_get aeq a p = Some s -> now_at a s1 p (pool_update aeq a s1 p).
  Proof. intros E b. apply pool_get_update. congruence. Qed.
  Lemma now_at_new a s s1 p : now_at a s1 p (pool_update aeq a s1 (pool_set aeq a s p)).
  Proof.
    intros b. rewrite pool_get_update; rewrite pool_get_set.
    - now destruct (aeq b a).
    - now destruct (aeq a a).
  Qed.

  Lemma client_start_started m fuel u p w r p1 w1 :
    client_start aeq conn bld cap wt m fuel u p w = (r, (p1, w1)) -> started m fuel u p w r p1 w1.
  Proof.
    unfold client_start. destruct (builder_new u m) as [req|e| |] eqn:Eb; intros H.
    2-4: injection H as <- <- <-; now apply sd_url.
    unfold get_stream in H. destruct (c_addr conn u w) as [[a|e| |] w'] eqn:Ea.
    2-4: injection H as <- <- <-; eapply sd_addr; eauto; easy.
    destruct (pool_get aeq a p) as [s|] eqn:Eg.
    - destruct (send bld cap wt fuel req s) as [x s1] eqn:Es. 
      pose proof (sd_have m fuel u p w a w' s req x s1 _ Ea Eg Eb Es (now_at_had a s s1 p Eg)).
      destruct x; injection H as <- <- <-; auto.
    - destruct (c_connect conn a w') as [[s|e| |] w2] eqn:Ec.
      2-4: injection H as <- <- <-; eapply sd_fail; eauto; easy.
      destruct (send bld cap wt fuel req s) as [x s1] eqn:Es. 
      pose proof (sd_conn m fuel u p w a w' w2 s req x s1 _ Ea Eg Eb Ec Es (now_at_new a s s1 p)).
      destruct x; injection H as <- <- <-; auto.
  Qed.

  Lemma start_has m fuel u p w a o p1 w1 :
    client_start aeq conn bld cap wt m fuel u p w = (Ok (a, o), (p1, w1)) -> pool_get aeq a p1 <> None.
  Proof.
    intros H. apply client_start_started in H. remember (Ok (a, o)) as r eqn:Er.
    destruct H as [r H|r x w1 Ea H1 H2|b w1 s req x s1 p1 Ea Eg Eb Es Hn|b w1 w2 s req x s1 p1 Ea Eg Eb Ec Es Hn|b w1 x w2 r Ea Eg Ec H1 H2].
    1, 2, 5: subst; now elim (H (a, o)) || now elim (H2 (a, o)).
    all: rewrite Hn; destruct x; cbn in Er; try easy; injection Er as <- <-; now destruct (aeq b b).
  Qed.

  (** One call and everything the caller then does with the request; the label is the address looked
      up, if any. *)
  Definition looked_up (u : url) (w : Wd) : option Addr :=
    match fst (c_addr conn u w) with Ok a => Some a | _ => None end.
  Inductive step : option Addr -> pool -> Wd -> pool -> Wd -> Prop :=
  | st_sent m fuel u p w a o p1 w1 s :
      client_start aeq conn bld cap wt m fuel u p w = (Ok (a, o), (p1, w1)) -> uses bld cap rd wt o s ->
      step (looked_up u w) p w (pool_update aeq a s p1) w1
  | st_failed m fuel u p w r p1 w1 :
      client_start aeq conn bld cap wt m fuel u p w = (r, (p1, w1)) -> not_ok r -> step (looked_up u w) p w p1 w1.
  Inductive history : list (option Addr) -> pool -> Wd -> pool -> Wd -> Prop :=
  | hi_nil p w : history [] p w p w
  | hi_cons l ls p w p1 w1 p2 w2 : step l p w p1 w1 -> history ls p1 w1 p2 w2 -> history (l :: ls) p w p2 w2.

  (** The streams of other addresses are not touched. *)
  Theorem C42_isolation : forall ls p w p' w' a,
    history ls p w p' w' -> ~ In (Some a) ls -> pool_get aeq a p' = pool_get aeq a p.
  Proof.
    intros ls p w p' w' a H. induction H as [|l ls p w p1 w1 p2 w2 Hs _ IH]; auto. cbn [In]. intros Hn.
    rewrite IH by tauto. assert (Hl : l <> Some a) by (intros ->; tauto). clear - Hs Hl.
    assert (Hstart : forall m fuel u p w r p1 w1, client_start aeq conn bld cap wt m fuel u p w = (r, (p1, w1)) ->
      looked_up u w <> Some a -> pool_get aeq a p1 = pool_get aeq a p /\ forall b o, r = Ok (b, o) -> looked_up u w = Some b).
    { clear. intros m fuel u p w r p1 w1 H Hl. apply client_start_started in H. unfold looked_up in *.
      destruct H as [r H|r x w1 Ea H1 H2|b w1 s req x s1 p1 Ea Eg Eb Es Hn|b w1 w2 s req x s1 p1 Ea Eg Eb Ec Es Hn|b w1 x w2 r Ea Eg Ec H1 H2];
        try rewrite Ea in *; cbn [fst] in *; try rewrite Hn.
      1, 2: split; auto; intros b o ->; now elim (H (b, o)) || now elim (H2 (b, o)).
      1, 2: destruct (aeq a b) as [->|]; [congruence|]; split; auto; intros b' o; destruct x; cbn; congruence.
      split; auto. intros b' o ->. now elim (H2 (b', o)). }
    destruct Hs as [m fuel u p w b o p1 w1 s Hc Hu|m fuel u p w r p1 w1 Hc Hr].
    - rewrite pool_get_update by eauto using start_has. apply Hstart in Hc as [H1 H2]; auto. specialize (H2 b o eq_refl).
      destruct (aeq a b) as [->|]; [congruence|auto].
    - now apply Hstart in Hc as [H1 _].
  Qed.

  (** An invariant of one stored stream that reads, writes and flushes keep. *)
  Lemma stored_keep P ls p w p' w' a s : kept rd wt P -> history ls p w p' w' ->
    pool_get aeq a p = Some s -> P s -> exists s', pool_get aeq a p' = Some s' /\ P s'.
  Proof.
    intros HP H. revert s. induction H as [|l ls p w p1 w1 p2 w2 Hs _ IH]; eauto. intros s Hg Hp.
    enough (Hx : exists s', pool_get aeq a p1 = Some s' /\ P s') by (destruct Hx as (s' & A & B0); eauto). clear IH.
    assert (Hstart : forall m fuel u p w r p1 w1, client_start aeq conn bld cap wt m fuel u p w = (r, (p1, w1)) ->
      pool_get aeq a p = Some s ->
      (exists s', pool_get aeq a p1 = Some s' /\ P s') /\ forall o, r = Ok (a, o) -> P (out_sock o)).
    { clear - HP Hp. intros m fuel u p w r p1 w1 H Hg. apply client_start_started in H.
      destruct H as [r H|r x w1 Ea H1 H2|b w1 s0 req x s1 p1 Ea Eg Eb Es Hn|b w1 w2 s0 req x s1 p1 Ea Eg Eb Ec Es Hn|b w1 x w2 r Ea Eg Ec H1 H2];
        try rewrite Hn.
      1, 2, 5: split; eauto; intros o ->; now elim (H (a, o)) || now elim (H2 (a, o)).
      - destruct (aeq a b) as [->|Hab].
        + rewrite Hg in Eg. injection Eg as <-. pose proof (send_keep bld cap rd wt P HP fuel req s Hp) as [K1 K2].
          rewrite Es in K1, K2. cbn in *. split; eauto. intros o Ho. apply K2. destruct x; cbn in Ho; congruence.
        + split; eauto. intros o Ho. destruct x; cbn in Ho; congruence.
      - destruct (aeq a b) as [->|Hab]; [congruence|]. split; eauto. intros o Ho. destruct x; cbn in Ho; congruence. }
    destruct Hs as [m fuel u p w b o p1 w1 s1 Hc Hu|m fuel u p w r p1 w1 Hc Hr].
    - rewrite pool_get_update by eauto using start_has. apply Hstart in Hc as [H1 H2]; auto. destruct (aeq a b) as [->|]; [|exact H1].
      exists s1. split; auto. apply (uses_keep bld cap rd wt P HP o); auto.
    - now apply Hstart in Hc as [H1 _].
  Qed.

  (** A stored stream is never evicted. *)
  Theorem C42_never_evicted : forall ls p w p' w' a,
    history ls p w p' w' -> pool_get aeq a p <> None -> pool_get aeq a p' <> None.
  Proof.
    intros ls p w p' w' a H Hg. destruct (pool_get aeq a p) as [s|] eqn:E; [|easy].
    destruct (stored_keep (fun _ => True) ls p w p' w' a s) as (s' & -> & _); auto; easy.
  Qed.

  (** What is known of every newly connected stream and kept by using it, is known of every stored
      stream and of the stream under every request. *)
  Lemma pool_inv (G : Addr -> S -> Prop) : (forall a, kept rd wt (G a)) ->
    (forall a w s w', c_connect conn a w = (Ok s, w') -> G a s) ->
    forall ls p w p' w', history ls p w p' w' ->
    (forall a s, pool_get aeq a p = Some s -> G a s) ->
    (forall a s, pool_get aeq a p' = Some s -> G a s).
  Proof.
    intros HK HC ls p w p' w' H. induction H as [|l ls p w p1 w1 p2 w2 Hs _ IH]; auto. intros Hp. apply IH. clear IH.
    assert (Hstart : forall m fuel u w r p1 w1, client_start aeq conn bld cap wt m fuel u p w = (r, (p1, w1)) ->
      (forall a s, pool_get aeq a p1 = Some s -> G a s) /\ forall a o, r = Ok (a, o) -> G a (out_sock o)).
    { clear - HK HC Hp. intros m fuel u w r p1 w1 H. apply client_start_started in H.
      assert (Hsend : forall b s0 req x s1, G b s0 -> send bld cap wt fuel req s0 = (x, s1) ->
        G b s1 /\ forall a o, with_addr b x = Ok (a, o) -> G a (out_sock o)).
      { clear - HK. intros b s0 req x s1 Hg Es. pose proof (send_keep bld cap rd wt (G b) (HK b) fuel req s0 Hg) as [K1 K2].
        rewrite Es in K1, K2. cbn in *. split; auto. intros a o Ho. destruct x; cbn in Ho; try easy. injection Ho as <- <-. now apply K2. }
      destruct H as [r H|r x w1 Ea H1 H2|b w1 s0 req x s1 p1 Ea Eg Eb Es Hn|b w1 w2 s0 req x s1 p1 Ea Eg Eb Ec Es Hn|b w1 x w2 r Ea Eg Ec H1 H2].
      1, 2, 5: split; auto; intros a o ->; now elim (H (a, o)) || now elim (H2 (a, o)).
      - destruct (Hsend b s0 req x s1 (Hp b s0 Eg) Es) as [K1 K2]. split; auto. intros a s. rewrite Hn. destruct (aeq a b) as [->|]; auto. now intros [= <-].
      - destruct (Hsend b s0 req x s1 (HC _ _ _ _ Ec) Es) as [K1 K2]. split; auto. intros a s. rewrite Hn. destruct (aeq a b) as [->|]; auto. now intros [= <-]. }
    destruct Hs as [m fuel u p w b o p1 w1 s1 Hc Hu|m fuel u p w r p1 w1 Hc Hr].
    - pose proof (start_has _ _ _ _ _ _ _ _ _ Hc). apply Hstart in Hc as [H1 H2]. intros a s. rewrite pool_get_update by auto. destruct (aeq a b) as [->|]; auto. intros [= <-].
      apply (uses_keep bld cap rd wt (G b) (HK b) o); eauto.
    - now apply Hstart in Hc as [H1 _].
  Qed.

  (** A request to an address with a stored stream goes over that stream, without connecting. *)
  Theorem C42_stored_stream_used : forall m fuel u p w a w1 s req,
    builder_new u m = Ok req -> c_addr conn u w = (Ok a, w1) -> pool_get aeq a p = Some s ->
    exists x s1 p1, request_serialize bld cap wt fuel req (bufw_new s) = (x, s1)
      /\ client_start aeq conn bld cap wt m fuel u p w = (with_addr a x, (p1, w1))
      /\ pool_get aeq a p1 = Some s1 /\ forall b, b <> a -> pool_get aeq b p1 = pool_get aeq b p.
  Proof.
    intros m fuel u p w a w1 s req Eb Ea Eg. unfold client_start, get_stream. rewrite Eb, Ea, Eg. unfold send.
    destruct (request_serialize bld cap wt fuel req (bufw_new s)) as [x s1] eqn:Es.
    exists x, s1, (pool_update aeq a s1 p). split; auto. split; [now destruct x|]. split.
    - rewrite (now_at_had a s s1 p Eg). now destruct (aeq a a).
    - intros b Hb. rewrite (now_at_had a s s1 p Eg). now destruct (aeq b a).
  Qed.

  (** A failed connect leaves the pool alone; the next request to that address connects again. *)
  Theorem C42_connect_fails : forall m fuel u p w a w1 e w2 req,
    builder_new u m = Ok req -> c_addr conn u w = (Ok a, w1) -> pool_get aeq a p = None ->
    c_connect conn a w1 = (Err e, w2) ->
    client_start aeq conn bld cap wt m fuel u p w = (Err e, (p, w2))
    /\ forall m' fuel' u' w' w3 s w4 req', builder_new u' m' = Ok req' -> c_addr conn u' w' = (Ok a, w3) ->
       c_connect conn a w3 = (Ok s, w4) ->
       exists x s1 p1, request_serialize bld cap wt fuel' req' (bufw_new s) = (x, s1)
         /\ client_start aeq conn bld cap wt m' fuel' u' p w' = (with_addr a x, (p1, w4))
         /\ pool_get aeq a p1 = Some s1 /\ forall b, b <> a -> pool_get aeq b p1 = pool_get aeq b p.
  Proof.
    intros m fuel u p w a w1 e w2 req Eb Ea Eg Ec. split.
    - unfold client_start, get_stream. now rewrite Eb, Ea, Eg, Ec.
    - intros m' fuel' u' w' w3 s w4 req' Eb' Ea' Ec'. unfold client_start, get_stream. rewrite Eb', Ea', Eg, Ec'. unfold send.
      destruct (request_serialize bld cap wt fuel' req' (bufw_new s)) as [x s1] eqn:Es.
      exists x, s1, (pool_update aeq a s1 (pool_set aeq a s p)). split; auto. split; [now destruct x|]. split.
      + rewrite now_at_new. now destruct (aeq a a).
      + intros b Hb. rewrite now_at_new. now destruct (aeq b a).
  Qed.

  (** Once the peer of a stored stream is gone (no read yields a byte any more, whatever is done), no
      later request to its address is ever answered. *)
  Theorem C42_dead_stream : forall (dead : S -> Prop) ls p w p' w' a s,
    kept rd wt dead -> (forall n s b t, dead s -> fst (rd n s) <> Ok (b :: t)) ->
    pool_get aeq a p = Some s -> dead s -> history ls p w p' w' ->
    forall m fuel u b o pw, fst (c_addr conn u w') = Ok a ->
    client_start aeq conn bld cap wt m fuel u p' w' = (Ok (b, o), pw) ->
    b = a /\ forall resp, ~ answered bld cap rd wt o resp.
  Proof.
    intros dead ls p w p' w' a s HK HD Hg Hs H m fuel u b o [p1 w1] Ha Hc.
    destruct (stored_keep dead ls p w p' w' a s HK H Hg Hs) as (s' & Hg' & Hs').
    apply client_start_started in Hc. remember (Ok (b, o)) as r eqn:Er.
    destruct Hc as [r Hr|r x w1 Ea H1 H2|c w1 s0 req x s1 p1 Ea Eg Eb Es Hn|c w1 w2 s0 req x s1 p1 Ea Eg Eb Ec Es Hn|c w1 x w2 r Ea Eg Ec H1 H2].
    - now elim (Hr (b, o)).
    - now elim (H2 (b, o)).
    - rewrite Ea in Ha. injection Ha as ->. destruct x as [o'| | |]; cbn in Er; try easy. injection Er as <- <-. split; auto.
      rewrite Hg' in Eg. injection Eg as <-. pose proof (send_keep bld cap rd wt dead HK fuel req s' Hs') as [_ K].
      rewrite Es in K. specialize (K o' eq_refl). clear - K HK HD. intros resp Hr.
      induction Hr as [fuel d o r o' resp E _ IH|fuel o r o' resp E _ IH|fuel o resp s E]; auto.
      + apply IH. pose proof (outgoing_write_keep bld cap rd wt dead HK fuel d o K) as K'. now rewrite E in K'.
      + apply IH. pose proof (outgoing_flush_keep bld rd wt dead HK fuel o K) as K'. now rewrite E in K'.
      + unfold finish in E. pose proof (finish_send_keep bld cap rd wt dead HK fuel o K) as K'.
        destruct (finish_send bld cap wt fuel o) as [[[]|e| |] s1]; cbn [sbind snd] in *; try easy.
        clear - E K' HK HD. unfold response_deserialize, response_head, expect_next, crlf_next in E.
        assert (Hb : forall fuel s, dead s -> dead (snd (bytes_next bld rd fuel s)) /\ forall b, fst (bytes_next bld rd fuel s) <> Ok (Some b)).
        { clear - HK HD. induction fuel as [|f IH]; intros s H; cbn [bytes_next]; [easy|].
          pose proof (kept_read _ _ _ HK 1 s H) as K. specialize (HD 1 s).
          destruct (rd 1 s) as [[[|b l]|e| |] s1]; cbn [fst snd] in *; auto; try easy.
          - now elim (HD b l H).
          - destruct (is_retry bld e); auto. easy. }
        destruct fuel as [|f]; [easy|]. cbn [crlf_loop] in E. destruct (Hb (Datatypes.S f) s1 K') as [_ Hn].
        destruct (bytes_next bld rd (Datatypes.S f) s1) as [[[x|]|e| |] s2]; try easy. now elim (Hn x).
    - rewrite Ea in Ha. injection Ha as ->. congruence.
    - now elim (H2 (b, o)).
  Qed.
End Pool.
Print Assumptions C42_isolation.
Print Assumptions C42_never_evicted.
Print Assumptions C42_stored_stream_used.
Print Assumptions C42_connect_fails.
Print Assumptions C42_dead_stream.

(** *** Connecting at most once *)
(** The same connector, recording every connect, newest first, and whether it succeeded. *)
Definition logged {Addr S Wd} (c : connector Addr S Wd) : connector Addr S (Wd * list (Addr * bool)) :=
  mkConnector
    (fun a w => let (r, w') := c_connect c a (fst w) in
                (r, (w', (a, match r with Ok _ => true | _ => false end) :: snd w)))
    (fun u w => let (r, w') := c_addr c u (fst w) in (r, (w', snd w))).

(** After a successful connect to an address there is no other connect to it; and the addresses with
    a stored stream are exactly those connected to. *)
Theorem C42_connect_once : forall Addr S Wd aeq (c : connector Addr S Wd) bld cap rd wt ls w0 p w log,
  history aeq (logged c) bld cap rd wt ls [] (w0, []) p (w, log) ->
  (forall later a ok earlier, log = later ++ (a, ok) :: earlier -> ~ In (a, true) earlier)
  /\ (forall a, pool_get aeq a p <> None <-> In (a, true) log).
Proof.
  intros Addr S Wd aeq c bld cap rd wt ls w0 p w log H.
  set (I := fun (p : @pool Addr S) (log : list (Addr * bool)) =>
    (forall later a ok earlier, log = later ++ (a, ok) :: earlier -> ~ In (a, true) earlier)
    /\ (forall a, pool_get aeq a p <> None <-> In (a, true) log)).
  change (I p log). assert (H0 : I [] []).
  { split; [intros [|? ?] ? ? ?; easy|]. intros a. cbn. tauto. }
  remember (w0, []) as W0 eqn:E0. assert (Hi : I [] (snd W0)) by now subst. clear E0 H0.
  change log with (snd (w, log)). revert H Hi. generalize (w, log). intros W1 H.
  generalize dependent (@nil (Addr * S)). intros q H Hi.
  induction H as [|l ls p0 w1 p1 w2 p2 w3 Hs _ IH]; auto. apply IH. clear IH.
  assert (Hstart : forall m fuel u w r p1 w1, client_start aeq (logged c) bld cap wt m fuel u p0 w = (r, (p1, w1)) ->
    I p0 (snd w) -> I p1 (snd w1) /\ forall a o, r = Ok (a, o) -> pool_get aeq a p1 <> None).
  { clear. intros m fuel u w r p1 w1 H [I1 I2]. apply client_start_started in H.
    assert (Hsame : forall w' : Wd * list (Addr * bool), snd w' = snd w -> I p0 (snd w')) by (intros w' ->; now split).
    assert (Ha : forall x w', c_addr (logged c) u w = (x, w') -> snd w' = snd w).
    { cbn. intros x w' E. destruct (c_addr c u (fst w)) as [y v]. now injection E as <- <-. }
    assert (Hnew : forall a w1 x w', snd w1 = snd w -> pool_get aeq a p0 = None -> c_connect (logged c) a w1 = (x, w') ->
      exists ok, snd w' = (a, ok) :: snd w /\ (ok = true <-> exists s, x = Ok s)
        /\ forall later b k earlier, snd w' = later ++ (b, k) :: earlier -> ~ In (b, true) earlier).
    { cbn. intros a w1' x w' E1 Eg E. destruct (c_connect c a (fst w1')) as [y v]. injection E as <- <-. rewrite E1.
      eexists. split; [reflexivity|]. split; [split; [destruct y; try easy; eauto|now intros [s ->]]|].
      cbn [snd]. intros [|? later] b k earlier E; injection E.
      - intros <- _ <- Hin. now apply I2 in Hin.
      - intros E2 _. eapply I1; eauto. }
    destruct H as [r H|r x w1 Ea H1 H2|b w1 s0 req x s1 p1 Ea Eg Eb Es Hn|b w1 w2 s0 req x s1 p1 Ea Eg Eb Ec Es Hn|b w1 x w2 r Ea Eg Ec H1 H2].
    - split; auto. intros a o ->. now elim (H (a, o)).
    - split; eauto. intros a o ->. now elim (H2 (a, o)).
    - rewrite (Ha _ _ Ea). split.
      + split; auto. intros a. rewrite Hn. destruct (aeq a b) as [->|]; auto. rewrite <- I2, Eg. split; easy.
      + intros a o Ho. destruct x; cbn in Ho; try easy. injection Ho as <- <-. rewrite Hn. now destruct (aeq b b).
    - destruct (Hnew b w1 _ _ (Ha _ _ Ea) Eg Ec) as (ok & E1 & E2 & E3). assert (ok = true) by (apply E2; eauto). subst ok. split.
      + split; auto. intros a. rewrite Hn, E1. cbn [In]. destruct (aeq a b) as [->|Hab].
        * split; auto. easy.
        * rewrite I2. split; auto. intros [E|E]; auto. congruence.
      + intros a o Ho. destruct x; cbn in Ho; try easy. injection Ho as <- <-. rewrite Hn. now destruct (aeq b b).
    - destruct (Hnew b w1 _ _ (Ha _ _ Ea) Eg Ec) as (ok & E1 & E2 & E3). split.
      + split; auto. intros a. rewrite E1. cbn [In]. rewrite I2. split; auto. intros [E|E]; auto. injection E as <- ->.
        destruct (proj1 E2 eq_refl) as [s ->]. now elim (H1 s).
      + intros a o ->. now elim (H2 (a, o)). }
  destruct Hs as [m fuel u p' w' b o p1 w1 s1 Hc Hu|m fuel u p' w' r p1 w1 Hc Hr].
  - assert (Hh : pool_get aeq b p1 <> None) by (eapply start_has; exact Hc). apply Hstart in Hc as [[H1 H2] H3]; auto. split; auto. intros a. rewrite pool_get_update by auto. destruct (aeq a b) as [->|]; auto.
    rewrite <- H2. specialize (H3 b o eq_refl). split; easy.
  - now apply Hstart in Hc as [H1 _].
Qed.
Print Assumptions C42_connect_once.

(** Two requests over one connection, then the peer is gone. *)
Definition C42_conn : connector nat duplex nat :=
  mkConnector
    (fun a n => (Ok (([], []), segs [bs "HTTP/1.1 200 OK" ++ CRLF ++ bs "content-length: 1" ++ CRLF ++ CRLF ++ bs "x";
                                     bs "HTTP/1.1 404 Not Found" ++ CRLF ++ CRLF]), S n))
    (fun u n => (Ok (match u_host u with Some h => length h | None => 0 end), n)).
Definition C42_url : url := mkUrl (bs "http") (Some (bs "host")) None (bs "/") None.
Definition C42_start := client_start Nat.eq_dec (logged C42_conn) Std 64 duplex_writer.
Example C42_case :
  (exists p w log, history Nat.eq_dec (logged C42_conn) Std 64 duplex_read duplex_writer [Some 4; Some 4] [] (0, []) p (w, log)
     /\ log = [(4, true)] /\ w = 1)
  /\ (let (r1, pw1) := C42_start Get 99 C42_url [] (0, []) in
      match r1 with
      | Ok (a, o) =>
          let (f1, s1) := finish Std 64 duplex_read duplex_writer 99 o in
          match f1 with
          | Ok resp =>
              let (x, b) := body_read Std (bufr_read Std 64 duplex_read) 99 9 (rs_body resp) in
              let (r2, pw2) := C42_start Get 99 C42_url (pool_update Nat.eq_dec a (br_inner (body_reader b)) (fst pw1)) (snd pw1) in
              match r2 with
              | Ok (a2, o2) => (a, x, a2, match fst (finish Std 64 duplex_read duplex_writer 99 o2) with Ok resp2 => Some (rs_status resp2) | _ => None end)
              | _ => (0, x, 0, None)
              end
          | _ => (0, Panic, 0, None)
          end
      | _ => (0, Panic, 0, None)
      end) = (4, Ok (bs "x"), 4, Some NotFound)
  /\ kept duplex_read duplex_writer (fun d => snd d = [])
  /\ (forall n s b t, snd s = [] -> fst (duplex_read n s) <> Ok (b :: t)).
Proof.
  split; [|split; [vm_compute; reflexivity|split]].
  - do 3 eexists. split; [|split].
    + eapply (hi_cons _ _ _ _ _ _ (Some 4)).
      * refine (st_failed Nat.eq_dec (logged C42_conn) Std 64 duplex_read duplex_writer Get 0 C42_url [] _ Fuel _ _ _ _); [vm_compute; reflexivity|easy].
      * eapply (hi_cons _ _ _ _ _ _ (Some 4)); [|apply hi_nil].
        refine (st_sent Nat.eq_dec (logged C42_conn) Std 64 duplex_read duplex_writer Get 99 C42_url _ _ 4 _ _ _ _ _ (us_drop _ _ _ _ 5 _)).
        vm_compute; reflexivity.
    + reflexivity.
    + reflexivity.
  - split.
    + intros n [x evs] H. cbn in *. now subst.
    + intros d [x evs] H. cbn [snd] in H. subst. unfold duplex_writer. cbn [wr snd fst script_writer]. destruct (script_write d x) as [r y]. reflexivity.
    + intros [x evs] H. cbn in *. now subst.
  - intros n [x evs] b t H. cbn in *. now subst.
Qed.

(** ** C43. HTTPS *)
Section Https.
  Context {Addr Tcp Tls Wd : Type} (aeq : forall x y : stream_id Addr, {x = y} + {x <> y})
    (tcp_connect : Addr -> Wd -> res Tcp * Wd) (resolve : bytes -> N -> Wd -> res (list Addr) * Wd)
    (tls_new : bytes -> Tcp -> Wd -> res Tls * Wd)
    (bld : build) (cap : nat) (rdP : reader Tcp) (rdS : reader Tls) (wtP : writer Tcp) (wtS : writer Tls).
  Let conn := ssl_connector tcp_connect resolve tls_new.
  Let rd := either_read rdP rdS.
  Let wt := either_writer wtP wtS.

  (** [vouched h t]: the TLS stream [t] is one on which the handshake for host [h] succeeded. All that
      is asked of it is that a successful handshake establishes it and that using the stream keeps it. *)
  Context (vouched : bytes -> Tls -> Prop)
    (handshake : forall h t w x w', tls_new h t w = (Ok x, w') -> vouched h x)
    (used : forall h, kept rdS wtS (vouched h)).

  (** The right kind of stream for a URL. *)
  Definition right_stream (u : url) (s : Tcp + Tls) : Prop :=
    exists h, http_url_of u = Ok h /\
      ((u_scheme u = bs "https" -> exists t, s = inr t /\ vouched (hu_host h) t)
       /\ (u_scheme u = bs "http" -> exists t, s = inl t)
       /\ ((exists t, s = inr t /\ vouched (hu_host h) t) \/ exists t, s = inl t)).

  Let good (id : stream_id Addr) (s : Tcp + Tls) : Prop :=
    if si_secure id then exists t, s = inr t /\ vouched (si_host id) t else exists t, s = inl t.

  Lemma good_kept id : kept rd wt (good id).
  Proof using used.
    unfold good, rd, wt. destruct (si_secure id).
    - split.
      + intros n s (t & -> & H). cbn. apply (kept_read _ _ _ (used _) n) in H. destruct (rdS n t). cbn in *. eauto.
      + intros d s (t & -> & H). cbn. apply (kept_write _ _ _ (used _) d) in H. destruct (wr wtS d t). cbn in *. eauto.
      + intros s (t & -> & H). cbn. apply (kept_flush _ _ _ (used _)) in H. destruct (fl wtS t). cbn in *. eauto.
    - split.
      + intros n s (t & ->). cbn. destruct (rdP n t). cbn. eauto.
      + intros d s (t & ->). cbn. destruct (wr wtP d t). cbn. eauto.
      + intros s (t & ->). cbn. destruct (fl wtP t). cbn. eauto.
  Qed.
  Lemma good_connect a w s w' : c_connect conn a w = (Ok s, w') -> good a s.
  Proof using handshake.
    unfold conn, good. cbn. unfold connect_ssl. destruct (tcp_connect (si_addr a) w) as [[t|e| |] w1]; cbn [sbind]; try easy.
    destruct (si_secure a).
    - destruct (tls_new (si_host a) t w1) as [[x|e| |] w2] eqn:E; cbn [sbind]; try easy. intros [= <- <-]. eauto.
    - intros [= <- <-]. eauto.
  Qed.
  Lemma addr_good u w id w1 s : c_addr conn u w = (Ok id, w1) -> good id s -> right_stream u s.
  Proof using Type.
    unfold conn. cbn. unfold tcp_stream_addr. destruct (http_url_of u) as [h|e| |] eqn:Eu; try easy.
    destruct (hu_port h) as [port|e| |]; try easy.
    destruct (resolve (hu_host h) port w) as [[[|a l]|e| |] w2]; try easy. intros [= <- <-]. unfold good. cbn [si_secure si_host].
    intros H. exists h. split; auto. destruct (C45_conversion u) as (C & _). pose proof (proj1 (C h) Eu) as (_ & _ & _ & Hs & Hc).
    destruct Hc as [Hc|Hc]; rewrite Hc in *; cbn in Hs.
    - split; [|split; auto]. intros E. rewrite E in Hs. vm_compute in Hs. easy.
    - split; [|split]; auto. intros E. rewrite E in Hs. vm_compute in Hs. easy.
  Qed.

  (** In every history, the stream a request is written to is the right one: the one returned for the
      URL (to which [get] and [put] write), and the one under the request afterwards. *)
  Theorem C43_right_stream : forall ls w0 p w, history aeq conn bld cap rd wt ls [] w0 p w ->
    (forall u id s pw, get_stream aeq conn u p w = (Ok (id, s), pw) -> right_stream u s)
    /\ (forall m fuel u id o pw, client_start aeq conn bld cap wt m fuel u p w = (Ok (id, o), pw) -> right_stream u (out_sock o)).
  Proof using handshake used.
    intros ls w0 p w H.
    pose proof (pool_inv aeq conn bld cap rd wt good good_kept good_connect ls [] w0 p w H ltac:(easy)) as Hg.
    assert (Hget : forall u id s pw, get_stream aeq conn u p w = (Ok (id, s), pw) ->
      good id s /\ exists w1, c_addr conn u w = (Ok id, w1)).
    { unfold get_stream. intros u id s pw E. destruct (c_addr conn u w) as [[a|e| |] w1] eqn:Ea; try easy.
      destruct (pool_get aeq a p) as [s0|] eqn:Eg; [injection E as <- <- <-; eauto|].
      destruct (c_connect conn a w1) as [[s0|e| |] w2] eqn:Ec; try easy. injection E as <- <- <-. split; [exact (good_connect _ _ _ _ Ec)|now exists w1]. }
    split.
    - intros u id s pw E. apply Hget in E as (H1 & w1 & H2). exact (addr_good _ _ _ _ _ H2 H1).
    - intros m fuel u id o pw E. unfold client_start in E. destruct (builder_new u m) as [req|e| |]; try easy.
      destruct (get_stream aeq conn u p w) as [[[a s]|e| |] [p1 w1]] eqn:Eg; try easy.
      apply Hget in Eg as (H1 & w2 & H2). pose proof (send_keep bld cap rd wt (good a) (good_kept a) fuel req s H1) as [_ K].
      destruct (send bld cap wt fuel req s) as [[o'|e| |] s1]; try easy. injection E as <- <- <-. exact (addr_good _ _ _ _ _ H2 (K o' eq_refl)).
  Qed.

  (** The same for the one-shot functions [client::get] and [client::put]. *)
  Theorem C43_one_shot : forall u w s, reached conn u w s -> right_stream u s.
  Proof using handshake. intros u w s (a & w1 & w2 & E1 & E2). exact (addr_good _ _ _ _ _ E1 (good_connect _ _ _ _ E2)). Qed.

  (** URLs with another host or another scheme have another stream address. *)
  Theorem C43_separate : forall u1 u2 w1 w2 w1' w2' id,
    c_addr conn u1 w1 = (Ok id, w1') -> c_addr conn u2 w2 = (Ok id, w2') ->
    u_host u1 = u_host u2 /\ to_lowercase (u_scheme u1) = to_lowercase (u_scheme u2).
  Proof using Type.
    assert (Hid : forall u w w' id, c_addr conn u w = (Ok id, w') ->
      u_host u = Some (si_host id) /\ to_lowercase (u_scheme u) = if si_secure id then bs "https" else bs "http").
    { unfold conn. cbn. unfold tcp_stream_addr. intros u w w' id. destruct (http_url_of u) as [h|e| |] eqn:Eu; try easy.
      destruct (hu_port h) as [port|e| |]; try easy. destruct (resolve (hu_host h) port w) as [[[|a l]|e| |] w2]; try easy.
      intros [= <- <-]. destruct (C45_conversion u) as (C & _). pose proof (proj1 (C h) Eu) as (_ & _ & Hh & Hs & Hc). cbn. split; auto.
      rewrite <- Hs. now destruct Hc as [-> | ->]. }
    intros u1 u2 w1 w2 w1' w2' id H1 H2. apply Hid in H1 as [A1 A2], H2 as [B1 B2]. rewrite A1, A2, B1, B2. auto.
  Qed.
End Https.
Print Assumptions C43_right_stream.
Print Assumptions C43_one_shot.
Print Assumptions C43_separate.

(** Without the ssl feature the claim is false for every https URL: the TCP stream itself is given
    the request head, in clear. *)
Theorem C43_plain_build_refuted : forall Addr Tcp Wd aeq (tcp_connect : Addr -> Wd -> res Tcp * Wd) resolve
    bld cap (wt : writer Tcp) log m fuel u h w id o pw,
  honest wt log -> http_url_of u = Ok h -> u_scheme u = bs "https" ->
  client_start aeq (plain_connector tcp_connect resolve) bld cap wt m fuel u [] w = (Ok (id, o), pw) ->
  exists s w1 w2, tcp_connect (si_addr id) w1 = (Ok s, w2)
    /\ olog log o = log s ++ client_head m (u_path u) (hu_host h).
Proof.
  intros Addr Tcp Wd aeq tcp_connect resolve bld cap wt log m fuel u h w id o [p1 w1] Hh Eu Es H.
  apply client_start_started in H. remember (Ok (id, o)) as r eqn:Er.
  destruct H as [r Hr|r x w1 Ea H1 H2|c w1 s0 req x s1 p1 Ea Eg Eb Esd Hn|c w1 w2 s0 req x s1 p1 Ea Eg Eb Ec Esd Hn|c w1 x w2 r Ea Eg Ec H1 H2].
  - now elim (Hr (id, o)).
  - now elim (H2 (id, o)).
  - easy.
  - destruct x as [o'|e| |]; cbn in Er; try easy. injection Er as -> ->. exists s0, w1, w2. split; [exact Ec|].
    apply (request_serialize_log bld cap wt log Hh) in Esd as [_ K]. destruct (K o eq_refl) as (-> & _). f_equal.
    destruct (C37_head u m) as [C _]. destruct (C h Eu) as (r' & E1 & E2). rewrite Eb in E1. injection E1 as <-. exact E2.
  - now elim (H2 (id, o)).
Qed.
Print Assumptions C43_plain_build_refuted.

(** A TLS library that succeeds for every host, over duplex sockets; the stream remembers the host. *)
Definition C43_tls (h : bytes) (t : duplex) (w : unit) : res (bytes * duplex) * unit := (Ok (h, t), w).
Definition C43_sock (a : nat) (w : unit) : res duplex * unit := (Ok (([], []), []), w).
Definition C43_lookup (h : bytes) (p : N) (w : unit) : res (list nat) * unit := (Ok [length h], w).
Definition C43_read : reader (bytes * duplex) := fun n s => let (r, d) := duplex_read n (snd s) in (r, (fst s, d)).
Definition C43_writer : writer (bytes * duplex) :=
  mkWriter (fun d s => let (r, x) := wr duplex_writer d (snd s) in (r, (fst s, x)))
           (fun s => let (r, x) := fl duplex_writer (snd s) in (r, (fst s, x))).
Definition C43_eq (x y : stream_id nat) : {x = y} + {x <> y}.
Proof.
  decide equality; first [apply (list_eq_dec Byte.byte_eq_dec)|apply Nat.eq_dec|apply N.eq_dec|apply Bool.bool_dec].
Defined.
Example C43_case :
  (forall h t w x w', C43_tls h t w = (Ok x, w') -> fst x = h)
  /\ (forall h, kept C43_read C43_writer (fun t => fst t = h))
  /\ (match client_start C43_eq (ssl_connector C43_sock C43_lookup C43_tls) Std 64
              (either_writer duplex_writer C43_writer) Get 99 C45_url [] tt with
      | (Ok (id, ONoBody (inr t)), _) => (si_secure id, fst t, snd (fst (snd t)))
      | _ => (false, [], [])
      end) = (true, bs "example.com", client_head Get (bs "/a/b") (bs "example.com"))
  /\ (match client_start C43_eq (plain_connector C43_sock C43_lookup) Std 64 duplex_writer Get 99 C45_url [] tt with
      | (Ok (id, ONoBody t), _) => (si_secure id, snd (fst t))
      | _ => (false, [])
      end) = (true, client_head Get (bs "/a/b") (bs "example.com")).
Proof.
  split; [now intros h t w x w' [= <- _]|]. split.
  - intros h. split.
    + intros n [a d] H. unfold C43_read. cbn [fst snd] in *. destruct (duplex_read n d). exact H.
    + intros x [a d] H. unfold C43_writer. cbn [wr fst snd] in *. destruct (wr duplex_writer x d). exact H.
    + intros [a d] H. exact H.
  - split; vm_compute; reflexivity.
Qed.
