(** Property C57: serving and connecting through TLS. *)
From Verif Require Import Base Io Types Message Outgoing Client Server Ssl Transport PServer PSsl.

(** ** C57. Nothing is served or sent before the handshake is over *)
(** A connection is handed to the server only after a completed handshake; otherwise [accept] fails, with the inner
    listener's error or the ssl error. *)
Theorem C57_accept : forall C S A (g : engine C S) acc_read (acc_accept : A -> res (option C)) fuel a0 acc,
  match rustls_accept g acc_read acc_accept fuel a0 acc with
  | Ok (c, s') => is_handshaking g c = false
      /\ exists s n a1 s1 c1, acc = Ok s /\ acc_read a0 s = (Ok n, (a1, s1)) /\ acc_accept a1 = Ok (Some c1) /\ handshake g (c1, s1) (Ok c) s'
  | Err e => acc = Err e \/ (e = SslError /\ exists s, acc = Ok s)
  | _ => True
  end.
Proof.
  intros C S A g acc_read acc_accept fuel a0 acc. unfold rustls_accept, listener_accept. destruct acc as [s|e| |]; auto.
  destruct (get_conn_from_stream g acc_read acc_accept fuel a0 s) as [r s'] eqn:E. destruct r as [c|e| |]; auto; [|right; eauto].
  destruct (C53_server _ _ _ _ _ _ _ _ _ _ _ E) as [H1 H2]. split; [now apply H1|].
  pose proof E as E'. unfold get_conn_from_stream in E'.
  destruct (acc_read a0 s) as [[n|e| |] [a1 s1]] eqn:Er; try discriminate E'.
  destruct (acc_accept a1) as [[c1|]|e| |] eqn:Ea; try discriminate E'.
  destruct (H2 n a1 s1 eq_refl) as [H3 _]. exists s, n, a1, s1, c1. auto.
Qed.
Print Assumptions C57_accept.

(** A server over TLS that is still running did what it would have done on the connections with a completed handshake
    alone: every other connection attempt is invisible to the handler. *)
Definition established {A} (accs : list (res A)) : list A := flat_map (fun a => match a with Ok x => [x] | _ => [] end) accs.
Definition present {A} (o : option A) : bool := match o with Some _ => true | None => false end.

Lemma serve_established {S H} bld cap (rd : reader S) (wt : writer S) etext (hd : handler H) bufsz fuel accs : forall hs cs hs' ss,
  serve_forever bld cap rd wt etext hd bufsz fuel hs accs = (true, cs, hs', ss) ->
  serve_forever bld cap rd wt etext hd bufsz fuel hs (map Ok (established accs)) = (true, cs, hs', filter present ss).
Proof.
  induction accs as [|acc accs IH]; intros hs cs hs' ss E.
  - cbn in *. now injection E as <- <- <-.
  - destruct acc as [s|e| |]; cbn [serve_forever serve_one established flat_map app map] in E |- *; try discriminate; change (flat_map _ accs) with (established accs).
    + destruct (serve_stream bld cap rd wt etext hd bufsz fuel hs s) as [[[x cs1] hs1] s1].
      destruct x as [[]|e| |]; try discriminate;
        destruct (serve_forever bld cap rd wt etext hd bufsz fuel hs1 accs) as [[[al cs2] hs2] ss2] eqn:E2;
        injection E as -> <- <- <-; rewrite (IH _ _ _ _ E2); reflexivity.
    + destruct (serve_forever bld cap rd wt etext hd bufsz fuel hs accs) as [[[al cs2] hs2] ss2] eqn:E2.
      injection E as -> <- <- <-. cbn [filter present app]. now apply IH.
Qed.

Theorem C57_failed_handshakes_invisible : forall C S A H bld cap (rd : reader (C * S)) (wt : writer (C * S)) etext (hd : handler H) bufsz fuel
    (g : engine C S) acc_read (acc_accept : A -> res (option C)) hfuel a0 hs accs cs hs' ss,
  let conns := established (map (rustls_accept g acc_read acc_accept hfuel a0) accs) in
  serve_forever bld cap rd wt etext hd bufsz fuel hs (map (rustls_accept g acc_read acc_accept hfuel a0) accs) = (true, cs, hs', ss) ->
  serve_forever bld cap rd wt etext hd bufsz fuel hs (map Ok conns) = (true, cs, hs', filter present ss)
  /\ Forall (fun x => is_handshaking g (fst x) = false) conns.
Proof.
  intros C S A H bld cap rd wt etext hd bufsz fuel g acc_read acc_accept hfuel a0 hs accs cs hs' ss conns E. split.
  - now apply serve_established.
  - subst conns. clear E. induction accs as [|acc accs IH]; cbn [map established flat_map]; [constructor|].
    apply Forall_app. split; auto. pose proof (C57_accept C S A g acc_read acc_accept hfuel a0 acc) as K.
    destruct (rustls_accept g acc_read acc_accept hfuel a0 acc) as [[c s]|e| |]; constructor; [|constructor]. now destruct K.
Qed.
Print Assumptions C57_failed_handshakes_invisible.

(** ... but a transport that accepts no byte of a handshake record ends the server: the assertion in the handshake runs
    inside [accept]. *)
Theorem C57_zero_write_ends_the_server : forall C S A H bld cap (rd : reader (C * S)) (wt : writer (C * S)) etext (hd : handler H) bufsz fuel
    (g : engine C S) acc_read (acc_accept : A -> res (option C)) hfuel a0 hs s n a1 s1 c1 x after,
  acc_read a0 s = (Ok n, (a1, s1)) -> acc_accept a1 = Ok (Some c1) ->
  is_handshaking g c1 = true -> wants_read g c1 = false -> wants_write g c1 = true -> write_tls g c1 s1 = (Ok O, x) ->
  serve_forever bld cap rd wt etext hd bufsz fuel hs (map (rustls_accept g acc_read acc_accept (Datatypes.S hfuel) a0) (Ok s :: after))
    = (false, [], hs, [None]).
Proof.
  intros C S A H bld cap rd wt etext hd bufsz fuel g acc_read acc_accept hfuel a0 hs s n a1 s1 c1 [c2 s2] after E1 E2 E3 E4 E5 E6.
  cbn [map]. unfold rustls_accept at 1. cbn [listener_accept]. unfold get_conn_from_stream. rewrite E1, E2. cbn [server_loop]. rewrite E3.
  cbn [read_loop]. rewrite E3, E4. cbn [andb write_loop]. rewrite E5, E6. reflexivity.
Qed.
Print Assumptions C57_zero_write_ends_the_server.

(** Making the listener: panics on a key file without a private key (and only if the libraries do, otherwise); succeeds
    exactly when there is a key, every certificate parses and the library accepts that chain with that key. *)
Theorem C57_listener_new : forall Key Cert Cfg (key : res (option Key)) (certs : list (res Cert)) (single : list Cert -> Key -> res Cfg),
  (forall cfg, listener_new key certs single = Ok cfg <->
     exists k cs, key = Ok (Some k) /\ certs = map Ok cs /\ single cs k = Ok cfg)
  /\ (forall e, listener_new key certs single = Err e -> e = SslError)
  /\ (key = Ok None -> listener_new key certs single = Panic)
  /\ (listener_new key certs single = Panic ->
      key = Ok None \/ key = Panic \/ In Panic certs \/ exists k cs, key = Ok (Some k) /\ certs = map Ok cs /\ single cs k = Panic).
Proof.
  intros Key Cert Cfg key certs single.
  assert (K : (exists cs, certs = map Ok cs /\ all_certs certs = Ok cs)
    \/ (~ (exists cs, certs = map Ok cs) /\ (all_certs certs = Err SslError \/ (all_certs certs = Panic /\ In Panic certs) \/ all_certs certs = Fuel))).
  { induction certs as [|[c|e| |] certs IH]; cbn [all_certs].
    - left. now exists [].
    - destruct IH as [(cs & -> & ->)|[N IH]].
      + left. now exists (c :: cs).
      + right. split.
        * intros ([|c' cs] & [=]). subst. eauto.
        * destruct IH as [->|[[-> Hp]| ->]]; auto. right. left. split; auto. now right.
    - right. split; auto. intros ([|c' cs] & [=]).
    - right. split; [intros ([|c' cs] & [=])|]. right. left. split; auto. now left.
    - right. split; auto. intros ([|c' cs] & [=]). }
  unfold listener_new. destruct key as [[k|]|e| |].
  - destruct K as [(cs & -> & ->)|[N K]]; cbn [rbind].
    + destruct (single cs k) as [cfg|e| |] eqn:Es; (split; [|split; [|split]]); try easy; try (intros; congruence).
      * intros cfg'. split; [intros [= <-]; eauto|]. intros (k' & cs' & [= <-] & Hm & Hs).
        assert (cs' = cs) as -> by (clear - Hm; revert cs' Hm; induction cs; intros [|] [=]; subst; f_equal; auto). congruence.
      * intros cfg'. split; [easy|]. intros (k' & cs' & [= <-] & Hm & Hs).
        assert (cs' = cs) as -> by (clear - Hm; revert cs' Hm; induction cs; intros [|] [=]; subst; f_equal; auto). congruence.
      * intros cfg'. split; [easy|]. intros (k' & cs' & [= <-] & Hm & Hs).
        assert (cs' = cs) as -> by (clear - Hm; revert cs' Hm; induction cs; intros [|] [=]; subst; f_equal; auto). congruence.
      * intros _. right. right. right. eauto.
      * intros cfg'. split; [easy|]. intros (k' & cs' & [= <-] & Hm & Hs).
        assert (cs' = cs) as -> by (clear - Hm; revert cs' Hm; induction cs; intros [|] [=]; subst; f_equal; auto). congruence.
    + destruct K as [->|[[-> Hp]| ->]]; cbn [rbind]; (split; [|split; [|split]]); try easy; try (intros; congruence); auto;
        intros cfg'; (split; [easy|]); intros (k' & cs' & _ & Hm & _); exfalso; apply N; eauto.
  - split; [|split; [|split]]; try easy; auto. intros cfg. split; [easy|]. intros (k' & cs' & [=] & _).
  - split; [|split; [|split]]; try easy; try (intros; congruence). intros cfg. split; [easy|]. intros (k' & cs' & [=] & _).
  - split; [|split; [|split]]; try easy; auto. intros cfg. split; [easy|]. intros (k' & cs' & [=] & _).
  - split; [|split; [|split]]; try easy. intros cfg. split; [easy|]. intros (k' & cs' & [=] & _).
Qed.
Print Assumptions C57_listener_new.

(** A client's secure connection is a TLS stream whose handshake is over; it is never the bare TCP stream. *)
Theorem C57_client : forall Addr C S Wd (g : engine C S) tcp_connect (config : bytes -> res C) fuel (id : stream_id Addr) (w w' : Wd) x,
  connect_ssl tcp_connect (fun host s w1 => match ssl_client_new g fuel (config host) s with
                                            | (Ok c, s') => (Ok (c, s'), w1)
                                            | (Err e, _) => (Err e, w1)
                                            | (Panic, _) => (Panic, w1)
                                            | (Fuel, _) => (Fuel, w1)
                                            end) id w = (Ok x, w') ->
  (si_secure id = true -> exists s c0 c s', tcp_connect (si_addr id) w = (Ok s, w') /\ config (si_host id) = Ok c0
     /\ x = inr (c, s') /\ is_handshaking g c = false /\ handshake g (c0, s) (Ok c) s')
  /\ (si_secure id = false -> exists s, x = inl s).
Proof.
  intros Addr C S Wd g tcp_connect config fuel id w w' x E. unfold connect_ssl in E.
  destruct (tcp_connect (si_addr id) w) as [[s|e| |] w1] eqn:Et; cbn [sbind] in E; try discriminate.
  destruct (si_secure id); (split; [|easy]) || (split; [easy|]); intros _.
  - destruct (config (si_host id)) as [c0|e| |] eqn:Ec; try discriminate E.
    destruct (ssl_client_new g fuel (Ok c0) s) as [[c|e| |] s'] eqn:Es; try discriminate E. cbn [sbind] in E. injection E as <- <-.
    apply C53_client in Es. exists s, c0, c, s'. repeat (split; [easy|]). split; auto. destruct Es as (l & c1 & s1 & _ & H & _). exact H.
  - injection E as <- <-. eauto.
Qed.
Print Assumptions C57_client.

Section C57_case.
  Let accept := rustls_accept toy (fun a s => (Ok 1, (a, s))) (fun a : nat => Ok (Some a)) 9 3.
  (** The records left over after the handshake are the bytes of the request; responses are not kept. *)
  Let rd : reader (nat * list nat) := fun n x =>
    (Ok (map (fun k => match Byte.of_nat k with Some b => b | None => Byte.x00 end) (firstn n (snd x))), (fst x, skipn n (snd x))).
  Let wt : writer (nat * list nat) := mkWriter (fun b x => (Ok (length b), x)) (fun x => (Ok tt, x)).
  Let good : list nat := [7; 8] ++ map Byte.to_nat (bs "GET /a HTTP/1.1" ++ CRLF ++ CRLF).
  Let mute : engine nat (list nat) :=
    mkEngine _ _ (is_handshaking toy) (wants_write toy) (wants_read toy) (fun c s => (Ok 0, (c, s))) (read_tls toy) (process toy).
  Let connect : stream_id unit -> unit -> res (list nat + nat * list nat) * unit := fun id =>
    connect_ssl (fun _ w => (Ok [7; 8; 9], w))
      (fun (host : bytes) s w1 => match ssl_client_new toy 9 (Ok 4) s with
                        | (Ok c, s') => (Ok (c, s'), w1)
                        | (Err e, _) => (Err e, w1)
                        | (Panic, _) => (Panic, w1)
                        | (Fuel, _) => (Fuel, w1)
                        end) id.
  Example C57_case :
    accept (Ok [7; 8; 9]) = Ok (0, [9]) /\ accept (Ok [7]) = Err SslError /\ accept (Err (IoError (KOther 5))) = Err (IoError (KOther 5))
    /\ (match serve_forever Std 8 rd wt (fun _ _ => bs "no") echo 4 300 [] (map accept [Ok [7]; Ok good; Err (IoError (KOther 5))]) with
        | (alive, cs, hs, ss) => (alive, length cs, length ss) end) = (true, 1, 3)
    /\ listener_new (Ok (Some 1)) [Ok 2; Ok 3] (fun cs k => Ok (k :: cs)) = Ok [1; 2; 3]
    /\ listener_new (Ok (Some 1)) [Ok 2; Err SslError] (fun cs k => Ok (k :: cs)) = Err SslError
    /\ listener_new (Ok (@None nat)) [Ok 2] (fun cs k => Ok (k :: cs)) = Panic
    (* [mute]: toy, on a transport that accepts no byte; the handshake starts with a record to send *)
    /\ serve_forever Std 8 rd wt (fun _ _ => bs "no") echo 4 300 []
         (map (rustls_accept mute (fun a s => (Ok 1, (a, s))) (fun a : nat => Ok (Some a)) 9 4) [Ok good; Ok good]) = (false, [], [], [None])
    (* a secure and a plain connection *)
    /\ connect (mkStreamId tt (bs "h") true) tt = (Ok (inr (0, [9])), tt) /\ connect (mkStreamId tt (bs "h") false) tt = (Ok (inl [7; 8; 9]), tt).
  Proof. vm_compute. repeat split; reflexivity. Qed.
End C57_case.
