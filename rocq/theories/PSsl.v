(** Property C53: the TLS handshake loops (rustls backend). *)
From Verif Require Import Base Ssl.

Section Handshakes.
  Context {C S : Type} (g : engine C S).

  (** A handshake as the peer sees it: TLS records are sent, or received and accepted. *)
  Inductive step : C * S -> C * S -> Prop :=
  | step_write c s k c1 s1 : wants_write g c = true -> write_tls g c s = (Ok (Datatypes.S k), (c1, s1)) -> step (c, s) (c1, s1)
  | step_read c s k c1 s1 c2 : is_handshaking g c = true -> wants_read g c = true ->
      read_tls g c s = (Ok (Datatypes.S k), (c1, s1)) -> process g c1 = (Ok tt, c2) -> step (c, s) (c2, s1).

  (** Steps from the first to the last state; the list holds the states passed on the way. *)
  Inductive trace : C * S -> list (C * S) -> C * S -> Prop :=
  | trace_nil x : trace x [] x
  | trace_cons x y l z : step x y -> trace y l z -> trace x (x :: l) z.

  (** What goes wrong: writing, reading, a record that is refused, or a peer that closes. *)
  Inductive fails (c : C) (s : S) : S -> Prop :=
  | fails_write e c1 s1 : wants_write g c = true -> write_tls g c s = (Err e, (c1, s1)) -> fails c s s1
  | fails_read e c1 s1 : is_handshaking g c = true -> wants_read g c = true -> read_tls g c s = (Err e, (c1, s1)) -> fails c s s1
  | fails_record k e c1 s1 c2 : is_handshaking g c = true -> wants_read g c = true ->
      read_tls g c s = (Ok (Datatypes.S k), (c1, s1)) -> process g c1 = (Err e, c2) -> fails c s s1
  | fails_closed c1 s1 : is_handshaking g c = true -> wants_read g c = true ->
      read_tls g c s = (Ok O, (c1, s1)) -> is_handshaking g c1 = true -> fails c s s1.

  (** Panics: the assertion that writing makes progress, and panics of the engine itself. *)
  Inductive panics (c : C) (s : S) : Prop :=
  | panics_assert c1 s1 : wants_write g c = true -> write_tls g c s = (Ok O, (c1, s1)) -> panics c s
  | panics_write : wants_write g c = true -> fst (write_tls g c s) = Panic -> panics c s
  | panics_read : fst (read_tls g c s) = Panic -> panics c s
  | panics_record k c1 s1 : read_tls g c s = (Ok (Datatypes.S k), (c1, s1)) -> fst (process g c1) = Panic -> panics c s.

  Lemma trace_app x l y l' z : trace x l y -> trace y l' z -> trace x (l ++ l') z.
  Proof. induction 1; cbn [app]; auto. intros H'. econstructor; eauto. Qed.

  Definition ended (start : C * S) (r : res unit) (last : C * S) : Prop :=
    exists l c s, trace start l (c, s)
      /\ match r with
         | Ok _ => last = (c, s)
         | Err e => e = SslError /\ fails c s (snd last)
         | Panic => panics c s
         | Fuel => True
         end.

  Lemma ended_later x l y r z : trace x l y -> ended y r z -> ended x r z.
  Proof. intros Ht (l' & c & s & H & K). exists (l ++ l'), c, s. split; auto. eapply trace_app; eauto. Qed.

  Lemma write_loop_ended fuel c s r z : write_loop g fuel c s = (r, z) -> ended (c, s) r z.
  Proof.
    revert c s. induction fuel as [|fuel IH]; intros c s E; cbn [write_loop] in E; destruct (wants_write g c) eqn:Hw.
    - injection E as <- <-. exists [], c, s. split; [constructor|easy].
    - injection E as <- <-. exists [], c, s. split; [constructor|easy].
    - destruct (write_tls g c s) as [[[|k]|e| |] [c1 s1]] eqn:Et.
      + injection E as <- <-. exists [], c, s. split; [constructor|]. eapply panics_assert; eauto.
      + apply IH in E. eapply ended_later; [|exact E]. eapply trace_cons; [|constructor]. eapply step_write; eauto.
      + injection E as <- <-. exists [], c, s. split; [constructor|]. split; auto. eapply fails_write; eauto.
      + injection E as <- <-. exists [], c, s. split; [constructor|]. apply panics_write; auto. now rewrite Et.
      + injection E as <- <-. exists [], c, s. split; [constructor|easy].
    - injection E as <- <-. exists [], c, s. split; [constructor|easy].
  Qed.

  (** The read loop: additionally a 0-byte read leaves it, with the handshake open or not. *)
  Definition closed_in (start last : C * S) : Prop :=
    exists l c s, trace start l (c, s) /\ is_handshaking g c = true /\ wants_read g c = true /\ read_tls g c s = (Ok O, last).

  Lemma read_loop_ended fuel c s r z : read_loop g fuel c s = (r, z) ->
    match r with
    | Ok true => ended (c, s) (Ok tt) z
    | Ok false => closed_in (c, s) z
    | Err e => ended (c, s) (Err e) z
    | Panic => ended (c, s) Panic z
    | Fuel => True
    end.
  Proof.
    revert c s. induction fuel as [|fuel IH]; intros c s E; cbn [read_loop] in E;
      destruct (is_handshaking g c && wants_read g c) eqn:Hw; try (injection E as <- <-; first [exact I | exists [], c, s; split; [constructor|easy]]).
    apply andb_true_iff in Hw as [Hh Hw].
    destruct (read_tls g c s) as [[[|k]|e| |] [c1 s1]] eqn:Et.
    - injection E as <- <-; cbv beta iota. exists [], c, s. split; [constructor|auto].
    - destruct (process g c1) as [[[]|e| |] c2] eqn:Ep.
      + assert (Hs : trace (c, s) [(c, s)] (c2, s1)) by (eapply trace_cons; [|constructor]; eapply step_read; eauto).
        apply IH in E. destruct r as [[|]|e| |]; auto; try (eapply ended_later; eauto; fail).
        destruct E as (l & c3 & s3 & Ht & K). exists ([(c, s)] ++ l), c3, s3. split; auto. eapply trace_app; eauto.
      + injection E as <- <-; cbv beta iota. exists [], c, s. split; [constructor|]. split; auto. eapply fails_record; eauto.
      + injection E as <- <-; cbv beta iota. exists [], c, s. split; [constructor|]. eapply panics_record; eauto. now rewrite Ep.
      + injection E as <- <-. exact I.
    - injection E as <- <-; cbv beta iota. exists [], c, s. split; [constructor|]. split; auto. eapply fails_read; eauto.
    - injection E as <- <-; cbv beta iota. exists [], c, s. split; [constructor|]. apply panics_read. now rewrite Et.
    - injection E as <- <-. exact I.
  Qed.

  Definition over (start : C * S) (r : res unit) (last : C * S) : Prop :=
    match r with
    | Ok _ => (ended start (Ok tt) last /\ is_handshaking g (fst last) = false) \/ closed_in start last
    | Err e => ended start (Err e) last
    | Panic => ended start Panic last
    | Fuel => True
    end.
  Lemma over_later x l y r z : trace x l y -> over y r z -> over x r z.
  Proof.
    intros Ht. destruct r as [[]|e| |]; cbn [over]; try (intros; eapply ended_later; eauto; fail); auto.
    intros [[H K]|(l' & c & s & H & K)].
    - left. split; auto. eapply ended_later; eauto.
    - right. exists (l ++ l'), c, s. split; auto. eapply trace_app; eauto.
  Qed.
  Lemma ended_ok x z : ended x (Ok tt) z -> exists l, trace x l z.
  Proof. intros (l & c & s & H & ->). eauto. Qed.

  Lemma client_loop_over fuel c s r z : client_loop g fuel c s = (r, z) -> over (c, s) r z.
  Proof.
    revert c s. induction fuel as [|fuel IH]; intros c s E; cbn [client_loop] in E; destruct (is_handshaking g c) eqn:Hh.
    - now injection E as <- <-.
    - injection E as <- <-. left. split; auto. exists [], c, s. split; [constructor|easy].
    - destruct (write_loop g (Datatypes.S fuel) c s) as [x [c1 s1]] eqn:Ew. apply write_loop_ended in Ew.
      destruct x as [[]|e| |]; try (injection E as <- <-; exact Ew); [|now injection E as <- <-].
      apply ended_ok in Ew as [l Hl].
      destruct (read_loop g (Datatypes.S fuel) c1 s1) as [x [c2 s2]] eqn:Er. apply read_loop_ended in Er.
      destruct x as [[|]|e| |].
      + apply ended_ok in Er as [l' Hl']. apply IH in E. eapply over_later; [eapply trace_app; eauto|exact E].
      + injection E as <- <-. eapply over_later; eauto. right. exact Er.
      + injection E as <- <-. eapply over_later; eauto.
      + injection E as <- <-. eapply over_later; eauto.
      + now injection E as <- <-.
    - injection E as <- <-. left. split; auto. exists [], c, s. split; [constructor|easy].
  Qed.

  Lemma server_loop_over fuel c s r z : server_loop g fuel c s = (r, z) -> over (c, s) r z.
  Proof.
    revert c s. induction fuel as [|fuel IH]; intros c s E; cbn [server_loop] in E; destruct (is_handshaking g c) eqn:Hh.
    - now injection E as <- <-.
    - injection E as <- <-. left. split; auto. exists [], c, s. split; [constructor|easy].
    - destruct (read_loop g (Datatypes.S fuel) c s) as [x [c1 s1]] eqn:Er. apply read_loop_ended in Er.
      destruct x as [[|]|e| |].
      + apply ended_ok in Er as [l Hl].
        destruct (write_loop g (Datatypes.S fuel) c1 s1) as [x [c2 s2]] eqn:Ew. apply write_loop_ended in Ew.
        destruct x as [[]|e| |].
        * apply ended_ok in Ew as [l' Hl']. apply IH in E. eapply over_later; [eapply trace_app; eauto|exact E].
        * injection E as <- <-. eapply over_later; eauto.
        * injection E as <- <-. eapply over_later; eauto.
        * now injection E as <- <-.
      + injection E as <- <-. right. exact Er.
      + injection E as <- <-. exact Er.
      + injection E as <- <-. exact Er.
      + now injection E as <- <-.
    - injection E as <- <-. left. split; auto. exists [], c, s. split; [constructor|easy].
  Qed.

  (** A handshake that started in [start] and left the stream in [s']. *)
  Definition handshake (start : C * S) (r : res C) (s' : S) : Prop :=
    exists l c s, trace start l (c, s)
      /\ match r with
         | Ok c' => is_handshaking g c' = false
             /\ ((c', s') = (c, s) \/ (is_handshaking g c = true /\ read_tls g c s = (Ok O, (c', s'))))
         | Err e => e = SslError /\ fails c s s'
         | Panic => panics c s
         | Fuel => True
         end.
  Lemma check_done_handshake start r z r' s' : over start r z -> check_done g (r, z) = (r', s') -> handshake start r' s'.
  Proof.
    destruct z as [c1 s1]. destruct r as [[]|e| |]; cbn [over check_done]; intros H E.
    - destruct (is_handshaking g c1) eqn:Hh; injection E as <- <-.
      + destruct H as [[_ H]|(l & c & s & Ht & H1 & H2 & H3)]; [cbn [fst] in H; congruence|].
        exists l, c, s. split; auto. split; auto. eapply fails_closed; eauto.
      + destruct H as [[H _]|(l & c & s & Ht & H1 & H2 & H3)].
        * apply ended_ok in H as [l Hl]. exists l, c1, s1. auto.
        * exists l, c, s. auto.
    - injection E as <- <-. destruct H as (l & c & s & H). exists l, c, s. exact H.
    - injection E as <- <-. destruct H as (l & c & s & H). exists l, c, s. exact H.
    - injection E as <- <-. destruct start as [a b]. exists [], a, b. split; [constructor|easy].
  Qed.

  (** *** Termination *)
  Hypothesis answers_write : forall c s, fst (write_tls g c s) <> Fuel.
  Hypothesis answers_read : forall c s, fst (read_tls g c s) <> Fuel.
  Hypothesis answers_process : forall c, fst (process g c) <> Fuel.
  Hypothesis never_idle : forall c, is_handshaking g c = true -> wants_write g c = true \/ wants_read g c = true.

  Lemma write_loop_long fuel c s r z : write_loop g fuel c s = (r, z) ->
    (r = Fuel -> exists l y, trace (c, s) l y /\ fuel <= length l)
    /\ (r = Ok tt -> exists l, trace (c, s) l z /\ (wants_write g c = true -> 0 < length l) /\ (wants_write g c = false -> z = (c, s))).
  Proof.
    revert c s. induction fuel as [|fuel IH]; intros c s E; cbn [write_loop] in E; destruct (wants_write g c) eqn:Hw.
    - injection E as <- <-. split; [|easy]. intros _. exists [], (c, s). split; [constructor|cbn; lia].
    - injection E as <- <-. split; [easy|]. intros _. exists []. split; [constructor|easy].
    - destruct (write_tls g c s) as [[[|k]|e| |] [c1 s1]] eqn:Et; try (injection E as <- <-; easy).
      + assert (Hs : step (c, s) (c1, s1)) by (eapply step_write; eauto). apply IH in E as [E1 E2]. split.
        * intros Hr. destruct (E1 Hr) as (l & y & Hl & Hn). exists ((c, s) :: l), y. split; [econstructor; eauto|cbn [length]; lia].
        * intros Hr. destruct (E2 Hr) as (l & Hl & _). exists ((c, s) :: l). split; [econstructor; eauto|]. split; [cbn [length]; lia|easy].
      + exfalso. apply (answers_write c s). now rewrite Et.
    - injection E as <- <-. split; [easy|]. intros _. exists []. split; [constructor|easy].
  Qed.

  Lemma read_loop_long fuel c s r z : read_loop g fuel c s = (r, z) ->
    (r = Fuel -> exists l y, trace (c, s) l y /\ fuel <= length l)
    /\ (r = Ok true -> exists l, trace (c, s) l z /\ (is_handshaking g c = true -> wants_read g c = true -> 0 < length l)).
  Proof.
    revert c s. induction fuel as [|fuel IH]; intros c s E; cbn [read_loop] in E; destruct (is_handshaking g c && wants_read g c) eqn:Hw.
    - injection E as <- <-. split; [|easy]. intros _. exists [], (c, s). split; [constructor|cbn; lia].
    - injection E as <- <-. split; [easy|]. intros _. exists []. split; [constructor|]. intros H1 H2. rewrite H1, H2 in Hw. easy.
    - apply andb_true_iff in Hw as [Hh Hw].
      destruct (read_tls g c s) as [[[|k]|e| |] [c1 s1]] eqn:Et; try (injection E as <- <-; easy).
      + destruct (process g c1) as [[[]|e| |] c2] eqn:Ep; try (injection E as <- <-; easy).
        * assert (Hs : step (c, s) (c2, s1)) by (eapply step_read; eauto). apply IH in E as [E1 E2]. split.
          -- intros Hr. destruct (E1 Hr) as (l & y & Hl & Hn). exists ((c, s) :: l), y. split; [econstructor; eauto|cbn [length]; lia].
          -- intros Hr. destruct (E2 Hr) as (l & Hl & _). exists ((c, s) :: l). split; [econstructor; eauto|]. cbn [length]. lia.
        * exfalso. apply (answers_process c1). now rewrite Ep.
      + exfalso. apply (answers_read c s). now rewrite Et.
    - injection E as <- <-. split; [easy|]. intros _. exists []. split; [constructor|]. intros H1 H2. rewrite H1, H2 in Hw. easy.
  Qed.

  Lemma client_loop_long fuel c s z : client_loop g fuel c s = (Fuel, z) -> exists l y, trace (c, s) l y /\ fuel <= length l.
  Proof.
    revert c s. induction fuel as [|fuel IH]; intros c s E; cbn [client_loop] in E; destruct (is_handshaking g c) eqn:Hh; try easy.
    - exists [], (c, s). split; [constructor|cbn; lia].
    - destruct (write_loop g (Datatypes.S fuel) c s) as [x [c1 s1]] eqn:Ew. apply write_loop_long in Ew as [W1 W2].
      destruct x as [[]|e| |]; try easy; [|auto].
      destruct (W2 eq_refl) as (l1 & T1 & N1 & N2).
      destruct (read_loop g (Datatypes.S fuel) c1 s1) as [x [c2 s2]] eqn:Er. apply read_loop_long in Er as [R1 R2].
      destruct x as [[|]|e| |]; try easy.
      + destruct (R2 eq_refl) as (l2 & T2 & N3). apply IH in E as (l3 & y & T3 & N4).
        exists (l1 ++ l2 ++ l3), y. split; [eapply trace_app; eauto; eapply trace_app; eauto|]. rewrite !app_length.
        destruct (wants_write g c) eqn:Hw; [specialize (N1 eq_refl); lia|]. specialize (N2 eq_refl). injection N2 as -> ->.
        destruct (never_idle c Hh) as [|Hr]; [congruence|]. specialize (N3 Hh Hr). lia.
      + destruct (R1 eq_refl) as (l2 & y & T2 & N3). exists (l1 ++ l2), y. split; [eapply trace_app; eauto|]. rewrite app_length. lia.
  Qed.

  Lemma server_loop_long fuel c s z : server_loop g fuel c s = (Fuel, z) -> exists l y, trace (c, s) l y /\ fuel <= length l.
  Proof.
    revert c s. induction fuel as [|fuel IH]; intros c s E; cbn [server_loop] in E; destruct (is_handshaking g c) eqn:Hh; try easy.
    - exists [], (c, s). split; [constructor|cbn; lia].
    - destruct (read_loop g (Datatypes.S fuel) c s) as [x [c1 s1]] eqn:Er. 
      assert (Hr0 : wants_read g c = false -> (c1, s1) = (c, s)).
      { intros Hr. cbn [read_loop] in Er. rewrite Hr, andb_false_r in Er. congruence. }
      apply read_loop_long in Er as [R1 R2].
      destruct x as [[|]|e| |]; try easy; [|auto].
      destruct (R2 eq_refl) as (l1 & T1 & N1).
      destruct (write_loop g (Datatypes.S fuel) c1 s1) as [x [c2 s2]] eqn:Ew. apply write_loop_long in Ew as [W1 W2].
      destruct x as [[]|e| |]; try easy.
      + destruct (W2 eq_refl) as (l2 & T2 & N2 & _). apply IH in E as (l3 & y & T3 & N4).
        exists (l1 ++ l2 ++ l3), y. split; [eapply trace_app; eauto; eapply trace_app; eauto|]. rewrite !app_length.
        destruct (wants_read g c) eqn:Hr; [specialize (N1 Hh eq_refl); lia|]. specialize (Hr0 eq_refl). injection Hr0 as -> ->.
        destruct (never_idle c Hh) as [Hw|]; [|congruence]. specialize (N2 Hw). lia.
      + destruct (W1 eq_refl) as (l2 & y & T2 & N3). exists (l1 ++ l2), y. split; [eapply trace_app; eauto|]. rewrite app_length. lia.
  Qed.
End Handshakes.

(** ** C53. TLS handshake *)
(** How establishing a connection can end. A stream is returned only with the handshake finished: after sending and
    receiving records, without a failure. (The engine could finish it on being told that the peer closed; see below.)
    An error is a failure of the transport, a record the engine refuses, or a peer that closes. *)
Theorem C53_client : forall C S (g : engine C S) fuel c0 s r s', ssl_client_new g fuel (Ok c0) s = (r, s') -> handshake g (c0, s) r s'.
Proof.
  intros C S g fuel c0 s r s' E. cbn [ssl_client_new] in E. destruct (client_loop g fuel c0 s) as [x z] eqn:El.
  apply client_loop_over in El. eapply check_done_handshake; eauto.
Qed.
Print Assumptions C53_client.

Theorem C53_server : forall C S A (g : engine C S) acc_read (acc_accept : A -> res (option C)) fuel a0 s r s',
  get_conn_from_stream g acc_read acc_accept fuel a0 s = (r, s') ->
  (forall c, r = Ok c -> is_handshaking g c = false)
  /\ forall n a1 s1, acc_read a0 s = (Ok n, (a1, s1)) ->
     (forall c, acc_accept a1 = Ok (Some c) -> handshake g (c, s1) r s')
     (* the first read must have brought the whole ClientHello *)
     /\ (acc_accept a1 = Ok None -> r = Err SslError /\ s' = s1).
Proof.
  intros C S A g acc_read acc_accept fuel a0 s r s' E. unfold get_conn_from_stream in E.
  destruct (acc_read a0 s) as [[n|e| |] [a1 s1]]; try (injection E as <- <-; easy).
  assert (K : forall c, acc_accept a1 = Ok (Some c) -> handshake g (c, s1) r s').
  { intros c Ea. rewrite Ea in E. destruct (server_loop g fuel c s1) as [x z] eqn:El.
    apply server_loop_over in El. eapply check_done_handshake; eauto. }
  split.
  - intros c ->. destruct (acc_accept a1) as [[c1|]|e| |]; try easy. destruct (K c1 eq_refl) as (l & c2 & s2 & _ & H & _). exact H.
  - intros n' a1' s1' [= <- <- <-]. split; auto. intros Ea. rewrite Ea in E. now injection E as <- <-.
Qed.
Print Assumptions C53_server.

(** Whatever goes wrong before the first record is an ssl error as well: a connection object that cannot be made (client),
    a ClientHello that cannot be read or is refused (server). A panic is one of the engine's, or of the assertion. *)
Theorem C53_errors : forall C S (g : engine C S),
  (forall fuel c0 s r s', ssl_client_new g fuel c0 s = (r, s') ->
     (forall e, r = Err e -> e = SslError) /\ (forall e, c0 = Err e -> r = Err SslError /\ s' = s)
     /\ (r = Panic -> c0 = Panic \/ exists c l y, c0 = Ok c /\ trace g (c, s) l y /\ panics g (fst y) (snd y)))
  /\ (forall A acc_read (acc_accept : A -> res (option C)) fuel a0 s r s',
     get_conn_from_stream g acc_read acc_accept fuel a0 s = (r, s') ->
     (forall e, r = Err e -> e = SslError)
     /\ (forall e a1 s1, acc_read a0 s = (Err e, (a1, s1)) -> r = Err SslError /\ s' = s1)
     /\ (forall n e a1 s1, acc_read a0 s = (Ok n, (a1, s1)) -> acc_accept a1 = Err e -> r = Err SslError /\ s' = s1)
     /\ (r = Panic -> fst (acc_read a0 s) = Panic \/ exists n a1 s1, acc_read a0 s = (Ok n, (a1, s1))
           /\ (acc_accept a1 = Panic
               \/ exists c l y, acc_accept a1 = Ok (Some c) /\ trace g (c, s1) l y /\ panics g (fst y) (snd y)))).
Proof.
  intros C S g. split.
  - intros fuel c0 s r s' H. destruct c0 as [c|e| |]; cbn [ssl_client_new] in H; try (injection H as <- <-; repeat split; try congruence; auto; easy).
    pose proof (C53_client C S g fuel c s r s' H) as (l & c1 & s1 & Ht & Hr). repeat split; try easy.
    + intros e ->. apply Hr.
    + intros ->. right. exists c, l, (c1, s1). auto.
  - intros A acc_read acc_accept fuel a0 s r s' H. pose proof (C53_server C S A g acc_read acc_accept fuel a0 s r s' H) as [_ Hs].
    unfold get_conn_from_stream in H. destruct (acc_read a0 s) as [[n|e0| |] [a1 s1]] eqn:Ea.
    2-4: injection H as <- <-; repeat split; try congruence; auto; easy.
    destruct (acc_accept a1) as [[c|]|e1| |] eqn:Eb.
    2-5: injection H as <- <-; repeat split; try congruence; auto; try easy; intros; right; eauto 10.
    destruct (Hs n a1 s1 eq_refl) as [Hs1 _]. destruct (Hs1 c Eb) as (l & c1 & s2 & Ht & Hr). repeat split; try congruence.
    + intros e ->. apply Hr.
    + intros ->. right. exists n, a1, s1. split; auto. right. exists c, l, (c1, s2). auto.
Qed.
Print Assumptions C53_errors.

(** An engine as rustls promises it to be: hearing that the peer closed does not finish a handshake, and neither does
    writing. [closed] transports report end of file or an error to every read, for good. *)
Record sane {C S} (g : engine C S) (closed : S -> Prop) : Prop := {
  sane_eof : forall c s c' s', read_tls g c s = (Ok O, (c', s')) -> is_handshaking g c' = is_handshaking g c;
  sane_write : forall c s r c' s', write_tls g c s = (r, (c', s')) -> is_handshaking g c' = is_handshaking g c /\ (closed s -> closed s');
  sane_closed : forall c s n x, closed s -> read_tls g c s <> (Ok (Datatypes.S n), x) }.

Lemma closed_stuck {C S} (g : engine C S) closed x l z : sane g closed -> trace g x l z -> is_handshaking g (fst z) = false ->
  Forall (fun y => is_handshaking g (fst y) = true -> ~ closed (snd y)) l.
Proof.
  intros [H1 H2 H3] Ht Hz. assert (K : is_handshaking g (fst x) = true -> closed (snd x) -> is_handshaking g (fst z) = true).
  { clear Hz. induction Ht as [x|x y l z Hs Ht IH]; auto. intros Hh Hc. apply IH; inversion Hs; subst; cbn [fst snd] in *.
    - destruct (H2 _ _ _ _ _ H0) as [-> _]. auto.
    - now apply H3 in H4.
    - destruct (H2 _ _ _ _ _ H0) as [_ ?]. auto.
    - now apply H3 in H4. }
  induction Ht as [x|x y l z Hs Ht IH]; constructor.
  - intros Hh Hc. specialize (K Hh Hc). congruence.
  - apply IH; auto. intros Hh Hc. exfalso. 
    assert (K' : forall y, trace g y l z -> is_handshaking g (fst y) = true -> closed (snd y) -> is_handshaking g (fst z) = true).
    { clear - H1 H2 H3. intros y Ht. induction Ht as [x|x y l z Hs Ht IH]; auto. intros Hh Hc. apply IH; inversion Hs; subst; cbn [fst snd] in *.
      - destruct (H2 _ _ _ _ _ H0) as [-> _]. auto.
      - now apply H3 in H4.
      - destruct (H2 _ _ _ _ _ H0) as [_ ?]. auto.
      - now apply H3 in H4. }
    rewrite (K' y Ht Hh Hc) in Hz. discriminate.
Qed.

(** Then a stream is only returned if the peer had not closed at any time before the handshake was finished. *)
Theorem C53_closing_is_an_error : forall C S (g : engine C S) closed, sane g closed ->
  (forall fuel c0 s c s', ssl_client_new g fuel (Ok c0) s = (Ok c, s') ->
     exists l, trace g (c0, s) l (c, s') /\ Forall (fun y => is_handshaking g (fst y) = true -> ~ closed (snd y)) l)
  /\ (forall A acc_read (acc_accept : A -> res (option C)) fuel a0 s n a1 s1 c1 c s',
     acc_read a0 s = (Ok n, (a1, s1)) -> acc_accept a1 = Ok (Some c1) ->
     get_conn_from_stream g acc_read acc_accept fuel a0 s = (Ok c, s') ->
     exists l, trace g (c1, s1) l (c, s') /\ Forall (fun y => is_handshaking g (fst y) = true -> ~ closed (snd y)) l).
Proof.
  intros C S g closed Hg.
  assert (K : forall x c s', handshake g x (Ok c) s' ->
    exists l, trace g x l (c, s') /\ Forall (fun y => is_handshaking g (fst y) = true -> ~ closed (snd y)) l).
  { intros x c s' (l & c1 & s1 & Ht & Hh & [He|[H1 H2]]).
    - injection He as <- <-. exists l. split; auto. eapply closed_stuck; eauto.
    - apply (sane_eof _ _ Hg) in H2. congruence. }
  split.
  - intros fuel c0 s c s' E. apply C53_client in E. auto.
  - intros A acc_read acc_accept fuel a0 s n a1 s1 c1 c s' E1 E2 E. apply C53_server in E as [_ E].
    destruct (E n a1 s1 E1) as [E' _]. auto.
Qed.
Print Assumptions C53_closing_is_an_error.

(** A handshake of boundedly many steps comes to an end, provided that the engine always wants to read or to write
    while it is handshaking. *)
Theorem C53_terminates : forall C S (g : engine C S) N,
  (forall c s, fst (write_tls g c s) <> Fuel) -> (forall c s, fst (read_tls g c s) <> Fuel) -> (forall c, fst (process g c) <> Fuel) ->
  (forall c, is_handshaking g c = true -> wants_write g c = true \/ wants_read g c = true) ->
  (forall fuel c s, (forall l y, trace g (c, s) l y -> length l <= N) -> N < fuel -> fst (ssl_client_new g fuel (Ok c) s) <> Fuel)
  /\ (forall A acc_read (acc_accept : A -> res (option C)) fuel a0 s n a1 s1 c1,
     acc_read a0 s = (Ok n, (a1, s1)) -> acc_accept a1 = Ok (Some c1) ->
     (forall l y, trace g (c1, s1) l y -> length l <= N) -> N < fuel ->
     fst (get_conn_from_stream g acc_read acc_accept fuel a0 s) <> Fuel).
Proof.
  intros C S g N A1 A2 A3 A4. split.
  - intros fuel c s Hb Hf. cbn [ssl_client_new]. destruct (client_loop g fuel c s) as [x [c1 s1]] eqn:El.
    destruct x as [[]|e| |]; cbn [check_done]; try easy; [now destruct (is_handshaking g c1)|].
    apply client_loop_long in El as (l & y & Ht & Hl); auto. apply Hb in Ht. lia.
  - intros A acc_read acc_accept fuel a0 s n a1 s1 c1 E1 E2 Hb Hf. unfold get_conn_from_stream. rewrite E1, E2.
    destruct (server_loop g fuel c1 s1) as [x [c2 s2]] eqn:El.
    destruct x as [[]|e| |]; cbn [check_done]; try easy; [now destruct (is_handshaking g c2)|].
    apply server_loop_long in El as (l & y & Ht & Hl); auto. apply Hb in Ht. lia.
Qed.
Print Assumptions C53_terminates.

(** A toy engine: the state counts the records still to be exchanged, sent (even) and received (odd) in turn; the
    transport is the list of the records the peer will send. *)
Definition toy : engine nat (list nat) :=
  mkEngine _ _ (fun c => negb (c =? 0)) (fun c => negb (c =? 0) && Nat.even c) (fun c => Nat.odd c)
    (fun c s => (Ok 1, (if Nat.even c then c - 1 else c, s)))
    (fun c s => match s with [] => (Ok 0, (c, [])) | r :: t => (Ok (S r), (c, t)) end)
    (fun c => (Ok tt, c - 1)).

Lemma toy_sane : sane toy (fun s => s = []).
Proof.
  split.
  - intros c [|r t] c' s' [= <- <-]. reflexivity.
  - intros c s r c' s' [= <- <- <-]. split; auto. destruct c as [|[|c]]; auto. cbn. now destruct (Nat.even c).
  - intros c s n x -> [=].
Qed.
Lemma toy_step x y : step toy x y -> fst y < fst x.
Proof.
  intros [c s k c1 s1 W E|c s k c1 s1 c2 W1 W2 E Ep]; cbn [fst].
  - cbn in W, E. apply andb_true_iff in W as [W1 W2]. rewrite W2 in E. injection E as _ <- <-. destruct c; [easy|]. lia.
  - cbn in W1, E, Ep. injection Ep as <-. destruct s as [|r t]; [easy|]. injection E as _ <- <-. destruct c; [easy|]. lia.
Qed.
Lemma toy_bounded c s l y : trace toy (c, s) l y -> length l <= c.
Proof.
  intros H. remember (c, s) as x eqn:E. revert c s E. induction H as [x|x [c1 s1] l z Hs Ht IH]; intros c s ->; cbn [length]; [lia|].
  apply toy_step in Hs. cbn [fst] in Hs. specialize (IH _ _ eq_refl). lia.
Qed.
Example C53_case :
  ssl_client_new toy 9 (Ok 4) [7; 8; 9] = (Ok 0, [9])
  /\ ssl_client_new toy 9 (Err ParseError) [7] = (Err SslError, [7])
  /\ ssl_client_new toy 9 (Ok 4) [7] = (Err SslError, [])
  /\ get_conn_from_stream toy (fun a s => (Ok 1, (a, s))) (fun a : nat => Ok (Some a)) 9 3 [7; 8; 9] = (Ok 0, [9])
  /\ get_conn_from_stream toy (fun a s => (Ok 1, (a, s))) (fun a : nat => Ok None) 9 3 [7; 8; 9] = (Err SslError, [7; 8; 9])
  /\ sane toy (fun s => s = []) /\ (forall c s l y, trace toy (c, s) l y -> length l <= c)
  /\ forall c, is_handshaking toy c = true -> wants_write toy c = true \/ wants_read toy c = true.
Proof.
  repeat (split; [reflexivity|]). split; [exact toy_sane|]. split; [exact toy_bounded|].
  intros c H. cbn in *. rewrite H. cbn. rewrite <- Nat.negb_even. destruct (Nat.even c); auto.
Qed.
