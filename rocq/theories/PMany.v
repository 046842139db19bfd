(** Property C62: several clients that are connected to one server at the same time. *)
From Verif Require Import Base Utf8 Case Num Io Parser Types Message Outgoing Client Server Transport.
From Verif Require Import Lemmas ReadLemmas NumLemmas ChunkSpec ChunkLemmas BodyLemmas WriteLemmas ParserLemmas CaseLemmas TypesLemmas HeadLemmas
  BlockLemmas MsgLemmas SimLemmas OutLemmas KeepLemmas PBody PIo PParse PHead POut PReuse PServer PEnd NetLemmas Net NetSock NetStep NetFav NetFacts PNet PReset.

(** ** The network *)
Section Network.
  Context {A H : Type} (bld : build) (cap : nat) (etext : error -> bytes) (hd : handler H) (bufsz fuel : nat) (room1 room2 : nat).
  Notation server hs := (server_run bld cap sock_read sock_writer etext hd bufsz fuel hs).

  (** [serve_forever] (src/server.rs 237-247): the server's ends of the connections that it has accepted so far, in the
      order of their acceptance. It accepts the next connection when it is done with the last one, whether that
      succeeded or failed; a panic ends the loop. A state of the network has for each connection the answers given
      to the client and those given to the server. Simplification: [accept] itself does not fail here (see C51). *)
  Fixpoint accepted (hs : H) (cs : list conf) : list sock :=
    match cs with
    | [] => []
    | c :: t =>
        let (x, s) := server hs (fresh (snd c)) in
        s :: match k_stop s, x with
             | None, Ok (Ok _, _, hs') => accepted hs' t
             | None, Ok (Err _, _, hs') => accepted hs' t
             | _, _ => []
             end
    end.

  (** A connection that is not accepted yet: the client is connected to the listener of src/server.rs 93-105 and can
      write into the queue, but there is nothing to read. *)
  Definition waiting : sock := mkSock [] [] false [] [] (Some (ARead 0)).

  (** The bytes on their way (the socket buffers of src/client.rs 204-214 and src/server.rs 99-105). *)
  Definition pending (from to : sock) : bytes := skipn (length (k_taken to)) (k_sent from).

  (** One step: one call of one client, or the call that the server is in, is answered. *)
  Inductive many_step : list sock -> list (sock -> res A * sock) -> list conf -> list conf -> Prop :=
  | many_client ss (p : sock -> res A * sock) cl c t f :
      answer (side1 p c) (pending (List.hd waiting ss) (side1 p c)) (pending (side1 p c) (List.hd waiting ss)) room1 (List.hd waiting ss) f ->
      many_step ss (p :: cl) (c :: t) ((f (fst c), snd c) :: t)
  | many_server s ss (p : sock -> res A * sock) cl c t f :
      answer s (pending (side1 p c) s) (pending s (side1 p c)) room2 (side1 p c) f ->
      many_step (s :: ss) (p :: cl) (c :: t) ((fst c, f (snd c)) :: t)
  | many_later ss p cl c t t' : many_step (tl ss) cl t t' -> many_step ss (p :: cl) (c :: t) (c :: t').

  (** Reachable after [n] steps, when all clients are connected from the beginning. *)
  Inductive many_reach (hs : H) (cl : list (sock -> res A * sock)) : nat -> list conf -> Prop :=
  | many_start : many_reach hs cl 0 (map (fun _ => start) cl)
  | many_next n cs cs' : many_reach hs cl n cs -> many_step (accepted hs cs) cl cs cs' -> many_reach hs cl (S n) cs'.

  (** Everybody is done. *)
  Definition all_ended (hs : H) (cl : list (sock -> res A * sock)) (cs : list conf) : Prop :=
    Forall2 (fun p c => ended (side1 p c)) cl cs /\ Forall ended (accepted hs cs) /\ length (accepted hs cs) = length cs.

  (** ** One connection at a time *)
  Definition unserved (c : conf) : Prop := snd c = mkAnswers [] [] false.

  Lemma answer_same_peer s inq outq room peer peer' f : (ended peer -> ended peer') ->
    answer s inq outq room peer f -> answer s inq outq room peer' f.
  Proof.
    intros Hp [n d rest E1 E2 E3 E4|n E1 E2 E3|d k E1 E2 E3]; [eapply ans_read|eapply ans_end|eapply ans_write]; eauto. destruct E3; auto.
  Qed.

  Lemma accepted_cons hs c t : accepted hs (c :: t) = side2 (server hs) c ::
    match k_stop (side2 (server hs) c), fst (server hs (fresh (snd c))) with
    | None, Ok (Ok _, _, hs') => accepted hs' t
    | None, Ok (Err _, _, hs') => accepted hs' t
    | _, _ => []
    end.
  Proof. cbn [accepted]. unfold side2. now destruct (server hs (fresh (snd c))) as [x s]. Qed.

  Definition idle (hs : H) : Prop := k_stop (snd (server hs (fresh (mkAnswers [] [] false)))) <> None.
  Lemma idle_sock hs : k_sent (snd (server hs (fresh (mkAnswers [] [] false)))) = [] /\ k_taken (snd (server hs (fresh (mkAnswers [] [] false)))) = [].
  Proof.
    destruct (process_keep (server_process bld cap etext hd bufsz fuel hs) sock_read sock_writer _ (fresh (mkAnswers [] [] false))
      (server_process_lax bld cap etext hd bufsz fuel hs) (spent_still_kept [] [])) as (_ & K2 & K3); [now repeat split|]. now split.
  Qed.

  (** Connections that are not accepted. *)
  Lemma idle_step hs cl t t' : idle hs -> Forall unserved t -> many_step [] cl t t' -> many_step (accepted hs t) cl t t' /\ Forall unserved t'.
  Proof.
    intros Hi Ht Hs. remember (@nil sock) as ss eqn:Es. split.
    - destruct Hs as [ss p cl c t f Ha|s ss p cl c t f Ha|ss p cl c t t' Hs]; subst; try discriminate.
      + rewrite Forall_cons_iff in Ht. destruct Ht as [Hc _]. rewrite accepted_cons. apply many_client. cbn [List.hd] in *.
        destruct (idle_sock hs) as [K1 K2]. unfold idle in Hi.
        assert (E : side2 (server hs) c = snd (server hs (fresh (mkAnswers [] [] false)))) by (unfold side2; now rewrite Hc).
        rewrite E. unfold pending in *. rewrite K1, K2. apply (answer_same_peer _ _ _ _ waiting); [discriminate|].
        cbn [waiting k_sent k_taken] in Ha. exact Ha.
      + rewrite Forall_cons_iff in Ht. destruct Ht as [Hc _]. rewrite accepted_cons. apply many_later. cbn [tl] in *.
        assert (E : side2 (server hs) c = snd (server hs (fresh (mkAnswers [] [] false)))) by (unfold side2; now rewrite Hc).
        unfold idle in Hi. rewrite <- E in Hi. destruct (k_stop (side2 (server hs) c)); [exact Hs|easy].
    - clear Hi. revert Es Ht. induction Hs as [ss p cl c t f Ha|s ss p cl c t f Ha|ss p cl c t t' Hs IH]; intros; subst; try discriminate;
        rewrite Forall_cons_iff in *; destruct Ht as [Hc Ht]; split; auto.
  Qed.

  Section Cons.
    Context (p : sock -> res A * sock) (cl : list (sock -> res A * sock)) (hs hs' : H).
    Context (Hres : forall n c, reach p (server hs) room1 room2 n c -> ended (side2 (server hs) c) ->
      exists cs, fst (server hs (fresh (snd c))) = Ok (Ok tt, cs, hs')).
    Context (Hidle : cl = [] \/ idle hs').

    Lemma accepted_first n c t : reach p (server hs) room1 room2 n c ->
      accepted hs (c :: t) = side2 (server hs) c :: match k_stop (side2 (server hs) c) with None => accepted hs' t | Some _ => [] end.
    Proof using Hres.
      intros Hr. rewrite accepted_cons. f_equal. destruct (k_stop (side2 (server hs) c)) eqn:E; auto.
      destruct (Hres n c Hr E) as [cs ->]. reflexivity.
    Qed.

    (** The first connection is a network of its own, and so are the later ones, which wait for the first. *)
    Lemma many_split n cs : many_reach hs (p :: cl) n cs -> exists c t n1 n2, cs = c :: t /\ n = n1 + n2
      /\ reach p (server hs) room1 room2 n1 c /\ many_reach hs' cl n2 t /\ (~ ended (side2 (server hs) c) -> Forall unserved t).
    Proof using Hres Hidle.
      induction 1 as [|n cs cs' Hr (c & t & n1 & n2 & -> & -> & R1 & R2 & Hun) Hst].
      - exists start, (map (fun _ => start) cl), 0, 0. cbn [map]. repeat split; try constructor.
        intros _. apply Forall_forall. intros c Hc. apply in_map_iff in Hc. destruct Hc as (x & <- & _). reflexivity.
      - rewrite (accepted_first n1 c t R1) in Hst. inversion Hst as [ss p0 cl0 c0 t0 f Ha|s ss p0 cl0 c0 t0 f Ha|ss p0 cl0 c0 t0 t' Hl]; subst.
        + cbn [List.hd] in Ha. exists (f (fst c), snd c), t, (S n1), n2. repeat split; auto.
          eapply reach_step; [exact R1|]. apply step1. exact Ha.
        + exists (fst c, f (snd c)), t, (S n1), n2. repeat split; auto.
          * eapply reach_step; [exact R1|]. apply step2. exact Ha.
          * intros _. apply Hun. unfold ended. destruct Ha; congruence.
        + cbn [tl] in Hl. exists c, t', n1, (S n2). split; auto. split; [lia|]. split; auto.
          unfold ended. destruct (k_stop (side2 (server hs) c)) eqn:E.
          * destruct Hidle as [->|Hi]; [inversion Hl|].
            destruct (idle_step hs' cl t t' Hi) as [K1 K2]; auto. { apply Hun. unfold ended. congruence. }
            split; auto. eapply many_next; eauto.
          * split; [|congruence]. eapply many_next; eauto.
    Qed.

    Lemma many_first n c t c' : reach p (server hs) room1 room2 n c -> step p (server hs) room1 room2 c c' ->
      many_step (accepted hs (c :: t)) (p :: cl) (c :: t) (c' :: t).
    Proof using Hres.
      intros Hr Hst. rewrite (accepted_first n c t Hr). destruct Hst as [c f Ha|c f Ha].
      - now apply many_client.
      - now apply many_server.
    Qed.
    Lemma many_rest n c t t' : reach p (server hs) room1 room2 n c -> ended (side2 (server hs) c) -> many_step (accepted hs' t) cl t t' ->
      many_step (accepted hs (c :: t)) (p :: cl) (c :: t) (c :: t').
    Proof using Hres.
      intros Hr He Hst. rewrite (accepted_first n c t Hr). unfold ended in He. rewrite He. now apply many_later.
    Qed.
  End Cons.

  (** ** C62. A first client that is never done *)
  (** As long as the server is not done with its first client, the others get nothing, whatever they are: no byte, not
      even the end of the connection, and no program that waits for one of these returns. *)
  Theorem C62_first_blocks_all : forall hs p cl,
    (forall n c, reach p (server hs) room1 room2 n c -> ~ ended (side2 (server hs) c)) ->
    forall n c t, many_reach hs (p :: cl) n (c :: t) ->
    Forall (fun c => a_reads (fst c) = [] /\ a_end (fst c) = false /\ snd c = mkAnswers [] [] false) t.
  Proof.
    intros hs p cl Hnever.
    assert (Hgo : forall n cs, many_reach hs (p :: cl) n cs -> exists c t n1, cs = c :: t /\ reach p (server hs) room1 room2 n1 c
      /\ Forall (fun c => a_reads (fst c) = [] /\ a_end (fst c) = false /\ snd c = mkAnswers [] [] false) t).
    { induction 1 as [|n cs cs' Hr (c & t & n1 & -> & R1 & Hun) Hst].
      - exists start, (map (fun _ => start) cl), 0. cbn [map]. repeat split; [constructor|].
        apply Forall_forall. intros c Hc. apply in_map_iff in Hc. destruct Hc as (x & <- & _). now repeat split.
      - assert (E : accepted hs (c :: t) = [side2 (server hs) c]).
        { rewrite accepted_cons. specialize (Hnever n1 c R1). unfold ended in Hnever. now destruct (k_stop (side2 (server hs) c)). }
        rewrite E in Hst. inversion Hst as [ss p0 cl0 c0 t0 f Ha|s ss p0 cl0 c0 t0 f Ha|ss p0 cl0 c0 t0 t' Hl]; subst.
        + exists (f (fst c), snd c), t, (S n1). repeat split; auto. eapply reach_step; [exact R1|]. apply step1. exact Ha.
        + exists (fst c, f (snd c)), t, (S n1). repeat split; auto. eapply reach_step; [exact R1|]. apply step2. exact Ha.
        + exists c, t', n1. repeat split; auto. cbn [tl] in Hl. clear - Hl Hun.
          remember (@nil sock) as ss0 eqn:Es. revert Es Hun. induction Hl as [ss1 p1 cl1 c1 t1 f Ha|s ss1 p1 cl1 c1 t1 f Ha|ss1 p1 cl1 c1 t1 t1' Hs IH]; intros; subst; try discriminate;
            rewrite Forall_cons_iff in *; destruct Hun as [(H1 & H2 & H3) Hun]; split; auto.
          cbn [List.hd fst snd] in *. destruct Ha as [m d rest E1 E2 E3 E4|m E1 E2 E3|d k E1 E2 E3].
          * exfalso. unfold pending in E2. change (k_sent waiting) with (@nil byte) in E2. rewrite skipn_nil in E2. now destruct d.
          * discriminate.
          * now repeat split. }
    intros n c t Hr. destruct (Hgo n _ Hr) as (c' & t' & n1 & [= <- <-] & _ & K). exact K.
  Qed.

  (** A client that sends only a part of a request, so short that the handler cannot have what it needs, and then waits
      for the answer, keeps the server from all others. *)
  Theorem C62_partial_request_blocks_all : forall hs (F : process A) r ops room q hs' ys out d rest cl,
    lax_process F ->
    (forall a, prefix (k_sent (snd (F sock sock_read sock_writer (fresh a)))) d) ->
    (forall a, a_reads a = [] -> a_end a = false -> ~ ended (snd (F sock sock_read sock_writer (fresh a)))) ->
    whole_request r ops = d ++ rest -> room < length rest ->
    sendable_uri (rq_uri r) -> small_version (rq_version r) -> sendable (rq_headers r) -> good_length (rq_headers r) ->
    Forall (fun d => (N.of_nat (length d) <= u64_max)%N) (written ops) ->
    handles hd fuel hs r ops room q hs' ->
    0 < cap -> length (whole_request r ops) + 4 < fuel -> 0 < bufsz <= fuel ->
    delivers (body_read bld (bufr_read bld cap dyn_read) fuel) (rs_body q) ys -> noisy bld out ys ->
    length (response_wire q []) <= fuel -> length ys < fuel ->
    forall n c t, many_reach hs (F sock sock_read sock_writer :: cl) n (c :: t) ->
    k_sent (side2 (server hs) c) = []
    /\ Forall (fun c => a_reads (fst c) = [] /\ a_end (fst c) = false /\ snd c = mkAnswers [] [] false) t.
  Proof.
    intros hs F r ops room q hs' ys out d rest cl HF Hd Hnot Hw Hrest Hu Hv Hh Hg Hsz Hha Hcap Hf Hb Hdel Hno Hl1 Hl2.
    pose proof (server_process_lax bld cap etext hd bufsz fuel hs) as HF2. set (F2 := server_process bld cap etext hd bufsz fuel hs) in *.
    assert (Hinv : forall n c, reach (F sock sock_read sock_writer) (server hs) room1 room2 n c ->
      a_reads (fst c) = [] /\ a_end (fst c) = false /\ a_end (snd c) = false /\ k_sent (side2 (server hs) c) = [] /\ ~ ended (side2 (server hs) c)).
    { assert (Hblock : forall n c, reach (F sock sock_read sock_writer) (server hs) room1 room2 n c -> a_end (snd c) = false ->
        k_sent (side2 (server hs) c) = [] /\ ~ ended (side2 (server hs) c)).
      { intros n c Hr He. destruct (reach_half F F2 HF HF2 room1 room2 n c Hr) as (_ & [_ [t2 B2] B3 B4 _] & _).
        destruct (Hd (fst c)) as [t3 Ht3]. change (snd (F sock sock_read sock_writer (fresh (fst c)))) with (side1 (F sock sock_read sock_writer) c) in Ht3.
        rewrite B2, <- B3 in Ht3. rewrite Ht3, <- !app_assoc in Hw.
        destruct (server_facts bld cap etext hd bufsz fuel hs r ops room q hs' ys out Hcap Hu Hv Hh Hg Hsz Hf Hha (proj1 Hb) (proj2 Hb) Hdel Hno Hl1 Hl2
          (snd c) (t2 ++ t3 ++ rest) Hw B4 He) as [(m & K1 & _ & K2)|[K1 _]].
        - split; [exact K2|]. unfold ended, side2. change (server hs) with (F2 sock sock_read sock_writer). unfold F2. congruence.
        - rewrite !app_length in K1. lia. }
      induction 1 as [|n c c' Hr (I1 & I2 & I3 & I4 & I5) Hst].
      - cbn [start fst snd]. repeat split; auto; apply (Hblock 0 start); auto; constructor.
      - assert (Hr' : reach (F sock sock_read sock_writer) (server hs) room1 room2 (S n) c') by (econstructor; eauto).
        assert (Hends : a_reads (fst c') = [] /\ a_end (fst c') = false /\ a_end (snd c') = false).
        { destruct Hst as [c f Ha|c f Ha]; destruct Ha as [m x y E1 E2 E3 E4|m E1 E2 E3|x k E1 E2 E3]; cbn [fst snd got closed took a_reads a_end]; auto.
          - exfalso. unfold queue2 in E2. rewrite I4, skipn_nil in E2. now destruct x.
          - exfalso. exact (I5 E3).
          - exfalso. exact (Hnot (fst c) I1 I2 E3). }
        destruct Hends as (J1 & J2 & J3). destruct (Hblock _ _ Hr' J3). auto. }
    intros n c t Hr.
    pose proof (C62_first_blocks_all hs (F sock sock_read sock_writer) cl (fun n c Hn => proj2 (proj2 (proj2 (proj2 (Hinv n c Hn))))) n c t Hr) as Hall.
    split; auto.
    assert (Hgo : forall n cs, many_reach hs (F sock sock_read sock_writer :: cl) n cs ->
      exists c t n1, cs = c :: t /\ reach (F sock sock_read sock_writer) (server hs) room1 room2 n1 c).
    { clear n c t Hr Hall. induction 1 as [|n cs cs' Hr (c & t & n1 & -> & R1) Hst].
      - exists start, (map (fun _ => start) cl), 0. split; auto. constructor.
      - rewrite accepted_cons in Hst. inversion Hst as [ss p0 cl0 c0 t0 f Ha|s ss p0 cl0 c0 t0 f Ha|ss p0 cl0 c0 t0 t' Hl]; subst.
        + exists (f (fst c), snd c), t, (S n1). split; auto. eapply reach_step; [exact R1|]. apply step1. exact Ha.
        + exists (fst c, f (snd c)), t, (S n1). split; auto. eapply reach_step; [exact R1|]. apply step2. exact Ha.
        + exists c, t', n1. now split. }
    destruct (Hgo n _ Hr) as (c' & t' & n1 & [= <- <-] & R1). apply (Hinv _ _ R1).
  Qed.
End Network.
Print Assumptions C62_first_blocks_all.
Print Assumptions C62_partial_request_blocks_all.

(** ** C62. Clients that behave *)
Section Good.
  Context {A H : Type} (bld : build) (cap : nat) (etext : error -> bytes) (hd : handler H) (bufsz fuel : nat) (room1 room2 : nat).
  Notation server hs := (server_run bld cap sock_read sock_writer etext hd bufsz fuel hs).
  Notation result := (res (status * headers * A)).

  (** What the client gets: the headers and the code of the answer [q], and a run of its program on the body [out]. *)
  Definition gets (q : dyn_response) (out : bytes) (p : status -> headers -> prog A) (x : result) : Prop :=
    exists st v len, x = Ok (st, rs_headers q, v) /\ to_code st = to_code (rs_status q) /\ plain_length (rs_headers q) len
      /\ runs len (p st (rs_headers q)) out v.

  (** The clients [cl], served in this order beginning with the handler state [hs], are all as in C58: the server makes
      the calls [calls] and ends with [hs'], each client gets what the list [gs] says, and all requests and answers
      together are [len] bytes long. *)
  Inductive all_good : H -> list (sock -> result * sock) -> list call -> H -> list (result -> Prop) -> nat -> Prop :=
  | all_good_nil hs : all_good hs [] [] hs [] 0
  | all_good_cons hs bld1 cap1 fuel1 r ops (p : status -> headers -> prog A) q hs1 ys out cl calls hs' gs len :
      good_exchange cap1 fuel1 r ops p bld cap hd bufsz fuel hs room1 room2 q hs1 ys out ->
      all_good hs1 cl calls hs' gs len ->
      all_good hs (client_run bld1 cap1 sock_read sock_writer fuel1 r ops p :: cl) (Called (rq_method r) (rq_uri r) :: calls) hs'
        (gets q out p :: gs) (length (whole_request r ops) + length (response_wire q out) + len).

  (** Each client's result is as the list says. *)
  Fixpoint all_get (gs : list (result -> Prop)) (cl : list (sock -> result * sock)) (cs : list conf) : Prop :=
    match gs, cl, cs with
    | [], [], [] => True
    | g :: gs, p :: cl, c :: cs => g (fst (p (fresh (fst c)))) /\ all_get gs cl cs
    | _, _, _ => False
    end.

  Lemma good_idle {X} cap1 fuel1 r ops (p : status -> headers -> prog X) hs q hs1 ys out :
    good_exchange cap1 fuel1 r ops p bld cap hd bufsz fuel hs room1 room2 q hs1 ys out -> idle bld cap etext hd bufsz fuel hs.
  Proof.
    intros G Hn. destruct (idle_sock bld cap etext hd bufsz fuel hs) as [K1 _].
    pose proof (server_facts bld cap etext hd bufsz fuel hs r ops room1 q hs1 ys out) as F.
    specialize (F ltac:(apply G) ltac:(apply G) ltac:(apply G) ltac:(apply G) ltac:(apply G) ltac:(apply G) ltac:(apply G) ltac:(apply G) ltac:(apply G)
      ltac:(apply G) ltac:(apply G) ltac:(apply G) ltac:(apply G) ltac:(apply G) (mkAnswers [] [] false) (whole_request r ops) eq_refl (Forall_nil _) eq_refl).
    cbv zeta in F. change (server_process bld cap etext hd bufsz fuel hs sock sock_read sock_writer) with (server hs) in F.
    destruct F as [(m & Em & _)|[_ [(d & Em & _)|(_ & Es & _)]]]; try congruence.
    rewrite K1 in Es. now destruct (answer_wire_some q out).
  Qed.

  Lemma good_res {X} bld1 cap1 fuel1 r ops (p : status -> headers -> prog X) hs q hs1 ys out :
    good_exchange cap1 fuel1 r ops p bld cap hd bufsz fuel hs room1 room2 q hs1 ys out ->
    forall n c, reach (client_run bld1 cap1 sock_read sock_writer fuel1 r ops p) (server hs) room1 room2 n c -> ended (side2 (server hs) c) ->
    fst (server hs (fresh (snd c))) = Ok (Ok tt, [Called (rq_method r) (rq_uri r)], hs1).
  Proof.
    intros G n c Hr He.
    destruct (progress_facts bld1 cap1 fuel1 r ops p bld cap etext hd bufsz fuel hs room1 room2 q hs1 ys out G n c Hr)
      as (_ & _ & _ & _ & _ & _ & _ & _ & _ & _ & rest & _ & Hs).
    unfold ended in He. destruct Hs as [(m & Em & _)|[_ [(d & Ed & _)|(_ & _ & Ex)]]]; try congruence.
  Qed.

  (** The pieces for one more client. *)
  Lemma good_cons bld1 cap1 fuel1 r ops (p : status -> headers -> prog A) hs q hs1 ys out cl calls hs' gs len :
    good_exchange cap1 fuel1 r ops p bld cap hd bufsz fuel hs room1 room2 q hs1 ys out -> all_good hs1 cl calls hs' gs len ->
    (forall n c, reach (client_run bld1 cap1 sock_read sock_writer fuel1 r ops p) (server hs) room1 room2 n c -> ended (side2 (server hs) c) ->
       exists cs, fst (server hs (fresh (snd c))) = Ok (Ok tt, cs, hs1))
    /\ (cl = [] \/ idle bld cap etext hd bufsz fuel hs1).
  Proof.
    intros G Hg. split.
    - intros n c Hr He. eexists. eapply good_res; eauto.
    - destruct Hg; auto. right. eapply good_idle; eauto.
  Qed.

  (** There is no deadlock ... *)
  Theorem C62_progress : forall hs cl calls hs' gs len, all_good hs cl calls hs' gs len ->
    forall n cs, many_reach bld cap etext hd bufsz fuel room1 room2 hs cl n cs ->
    all_ended bld cap etext hd bufsz fuel hs cl cs
    \/ exists cs', many_step room1 room2 (accepted bld cap etext hd bufsz fuel hs cs) cl cs cs'.
  Proof.
    induction 1 as [hs|hs bld1 cap1 fuel1 r ops p q hs1 ys out cl calls hs' gs len G Hg IH]; intros n cs Hr.
    - left. assert (cs = []) as ->. { clear -Hr. induction Hr as [|n cs cs' Hr IH Hst]; auto. subst. inversion Hst. }
      repeat split; constructor.
    - destruct (good_cons bld1 _ _ _ _ _ _ _ _ _ _ _ _ _ _ _ G Hg) as [Hres Hidle].
      destruct (many_split bld cap etext hd bufsz fuel room1 room2 _ _ _ _ Hres Hidle n cs Hr) as (c & t & n1 & n2 & -> & -> & R1 & R2 & _).
      destruct (C58_progress bld1 cap1 fuel1 r ops p bld cap etext hd bufsz fuel hs room1 room2 q hs1 ys out G n1 c R1) as [[E1 E2]|[c' Hst]].
      + destruct (IH n2 t R2) as [(J1 & J2 & J3)|[t' Hst]].
        * left. unfold all_ended. rewrite (accepted_first bld cap etext hd bufsz fuel room1 room2 _ _ _ Hres n1 c t R1).
          pose proof E2 as E2'. unfold ended in E2'. rewrite E2'. split; [|split]; [constructor; auto|constructor; auto|cbn [length]; now rewrite J3].
        * right. eexists. eapply many_rest; eauto.
      + right. eexists. eapply many_first; eauto.
  Qed.

  (** ... every run ends ... *)
  Theorem C62_bounded : forall hs cl calls hs' gs len, all_good hs cl calls hs' gs len ->
    forall n cs, many_reach bld cap etext hd bufsz fuel room1 room2 hs cl n cs -> n <= 2 * len + 2 * length cl.
  Proof.
    induction 1 as [hs|hs bld1 cap1 fuel1 r ops p q hs1 ys out cl calls hs' gs len G Hg IH]; intros n cs Hr.
    - destruct Hr as [|n cs cs' Hr Hst]; [lia|]. exfalso.
      assert (cs = []) as ->. { clear -Hr. induction Hr as [|n cs cs' Hr IH Hst]; auto. subst. inversion Hst. } inversion Hst.
    - destruct (good_cons bld1 _ _ _ _ _ _ _ _ _ _ _ _ _ _ _ G Hg) as [Hres Hidle].
      destruct (many_split bld cap etext hd bufsz fuel room1 room2 _ _ _ _ Hres Hidle n cs Hr) as (c & t & n1 & n2 & -> & -> & R1 & R2 & _).
      pose proof (C58_bounded bld1 cap1 fuel1 r ops p bld cap etext hd bufsz fuel hs room1 room2 q hs1 ys out G n1 c R1).
      pose proof (IH n2 t R2). cbn [length]. lia.
  Qed.

  (** ... and when everybody is done, [serve_forever] has made the calls in the order of the connections and is ready for
      the next one, and every client has its answer. *)
  Theorem C62_result : forall hs cl calls hs' gs len, all_good hs cl calls hs' gs len ->
    forall n cs, many_reach bld cap etext hd bufsz fuel room1 room2 hs cl n cs -> all_ended bld cap etext hd bufsz fuel hs cl cs ->
    serve_forever bld cap sock_read sock_writer (fun e _ => etext e) hd bufsz fuel hs (map (fun c => Ok (fresh (snd c))) cs)
      = (true, calls, hs', map Some (accepted bld cap etext hd bufsz fuel hs cs))
    /\ all_get gs cl cs.
  Proof.
    induction 1 as [hs|hs bld1 cap1 fuel1 r ops p q hs1 ys out cl calls hs' gs len G Hg IH]; intros n cs Hr (J1 & J2 & J3).
    - inversion J1; subst. now split.
    - destruct (good_cons bld1 _ _ _ _ _ _ _ _ _ _ _ _ _ _ _ G Hg) as [Hres Hidle].
      destruct (many_split bld cap etext hd bufsz fuel room1 room2 _ _ _ _ Hres Hidle n cs Hr) as (c & t & n1 & n2 & -> & -> & R1 & R2 & _).
      rewrite (accepted_first bld cap etext hd bufsz fuel room1 room2 _ _ _ Hres n1 c t R1) in *.
      rewrite Forall_cons_iff in J2. destruct J2 as [E2 J2]. pose proof E2 as E2'. unfold ended in E2'. rewrite E2' in *.
      inversion J1 as [|? ? ? ? E1 J1']; subst.
      destruct (IH n2 t R2) as [K1 K2]. { split; [|split]; auto. }
      destruct (C58_result bld1 cap1 fuel1 r ops p bld cap etext hd bufsz fuel hs room1 room2 q hs1 ys out G n1 c R1 E1 E2)
        as (L1 & _ & _ & st & x & ln & L2 & L3 & _ & L4 & L5).
      split.
      + cbn [map serve_forever serve_one]. unfold side2 in *. unfold server_run in L1 |- *.
        destruct (serve_stream bld cap sock_read sock_writer (fun e _ => etext e) hd bufsz fuel hs (fresh (snd c))) as [[[y cs0] hs0] s0].
        cbn [fst snd] in *. injection L1 as -> -> ->. now rewrite K1.
      + cbn [all_get]. split; auto. exists st, x, ln. auto.
  Qed.

  (** From everywhere a state is reached in which everybody is done. *)
  Theorem C62_ends : forall hs cl calls hs' gs len, all_good hs cl calls hs' gs len ->
    forall n cs, many_reach bld cap etext hd bufsz fuel room1 room2 hs cl n cs ->
    exists m cs', many_reach bld cap etext hd bufsz fuel room1 room2 hs cl m cs' /\ n <= m /\ all_ended bld cap etext hd bufsz fuel hs cl cs'.
  Proof.
    intros hs cl calls hs' gs len Hg n cs Hr. remember (2 * len + 2 * length cl - n) as k eqn:Ek.
    revert n cs Hr Ek. induction k as [k IH] using lt_wf_ind. intros n cs Hr Ek.
    destruct (C62_progress _ _ _ _ _ _ Hg n cs Hr) as [E|[cs' Hst]]; [exists n, cs; auto|].
    assert (Hr' : many_reach bld cap etext hd bufsz fuel room1 room2 hs cl (S n) cs') by (econstructor; eauto).
    pose proof (C62_bounded _ _ _ _ _ _ Hg _ _ Hr').
    destruct (IH (2 * len + 2 * length cl - S n) ltac:(lia) (S n) cs' Hr' eq_refl) as (m & c2 & H1 & H2 & H3).
    exists m, c2. repeat split; auto; try apply H3. lia.
  Qed.
End Good.
Print Assumptions C62_progress.
Print Assumptions C62_bounded.
Print Assumptions C62_result.
Print Assumptions C62_ends.

(** *** Examples *)
(** A client that sends [d] and then waits for a byte of the answer (not a client of this crate). *)
Definition mute {A} (d : bytes) : process A :=
  fun S rd wt s => dos _, s1 <- write_all Std wt (length d) d s; dos _, s2 <- rd 1 s1; (Err EOther, s2).
Lemma mute_lax {A} d : lax_process (@mute A d).
Proof.
  intros S1 S2 R Q rd1 rd2 wt1 wt2 H1 H2 H3. unfold mute.
  apply (lg_sbind Q (fun s => s) (fun s => s) R (fun s => s) (fun s => s) R (write_all Std wt1 (length d) d) (write_all Std wt2 (length d) d)).
  - now apply write_all_lax.
  - intros _. apply (lg_sbind Q (fun s => s) (fun s => s) R (fun s => s) (fun s => s) R (rd1 1) (rd2 1)); [apply H1|].
    intros _. now apply lg_ret.
Qed.
Definition mute_writes (d : bytes) : process unit := fun S rd wt s => write_all Std wt (length d) d s.
Lemma mute_facts {A} d a : prefix (k_sent (snd (@mute A d sock sock_read sock_writer (fresh a)))) d
  /\ (a_reads a = [] -> a_end a = false -> ~ ended (snd (@mute A d sock sock_read sock_writer (fresh a)))).
Proof.
  set (F := mute_writes d).
  assert (HF : lax_process F) by (intros S1 S2 R Q rd1 rd2 wt1 wt2 H1 H2 H3; now apply write_all_lax).
  destruct (writes_keep F (fresh a) HF ltac:(intros S rd rd' wt s; reflexivity) eq_refl) as (K1 & K2 & K3 & K4).
  pose proof (fav [] F (fresh a) (goes_on [] (fresh a)) HF (goes_on_R [] (fresh a) eq_refl)) as Hfav.
  destruct (write_all_reliable f_writer f_sent f_honest Std (length d) d (goes_on [] (fresh a)) f_reliable (le_n _)) as (s2 & E2 & L2).
  change (F fsock f_read f_writer (goes_on [] (fresh a))) with (write_all Std f_writer (length d) d (goes_on [] (fresh a))) in Hfav.
  rewrite E2 in Hfav. cbn [fst snd] in Hfav. cbn [f_sent goes_on fresh k_sent app] in L2.
  change (F sock sock_read sock_writer (fresh a)) with (write_all Std sock_writer (length d) d (fresh a)) in *.
  unfold mute. destruct (write_all Std sock_writer (length d) d (fresh a)) as [x s1]. cbn [fst snd] in *.
  assert (Hstop : forall st, k_stop s1 = Some st -> snd (sbind (x, s1) (fun _ s1 => dos _, s2 <- sock_read 1 s1; (@Err A EOther, s2))) = s1).
  { intros st Hst. destruct x; cbn [sbind]; auto. unfold sock_read. now rewrite Hst. }
  destruct Hfav as [[Hx (R1 & _ & _ & _ & R5 & _)]|HQ].
  - subst x. cbn [sbind]. unfold sock_read. rewrite R1, K2, K3. cbn [fresh k_reads k_end]. split.
    + destruct (a_reads a); [destruct (a_end a)|]; cbn [sbind snd k_sent]; exists []; rewrite app_nil_r; congruence.
    + intros -> ->. cbn. discriminate.
  - unfold fQ in HQ. destruct (k_stop s1) as [st|] eqn:Es; [|contradiction]. rewrite (Hstop st eq_refl). split.
    + destruct st as [n|x1]; [now destruct (K1 n)|]. rewrite L2 in HQ. destruct HQ as [t ->]. rewrite <- app_assoc. now eexists.
    + intros _ _. unfold ended. congruence.
Qed.

(** The first client sends ["GET /up HTTP/1.1"] without a line end. Whoever comes second does not get an answer. *)
Example C62_blocked_case : forall (cl : list (sock -> res (status * headers * bytes) * sock)) n c t,
  many_reach Std 8 (fun _ => []) echo 4 400 7 64 [] (mute (bs "GET /up HTTP/1.1") sock sock_read sock_writer :: cl) n (c :: t) ->
  Forall (fun c => a_reads (fst c) = [] /\ a_end (fst c) = false) t.
Proof.
  intros cl n c t Hr. pose proof (C61_get_good Std 1 1 (le_n _) (le_n _)) as G.
  destruct (C62_partial_request_blocks_all Std 8 (fun _ => []) echo 4 400 7 64 [] (mute (bs "GET /up HTTP/1.1")) C61_req [] 0
    (from_string OK (bs "/up")) [bs "/up"] (map B (bs "/up")) (bs "/up") (bs "GET /up HTTP/1.1") (CRLF ++ bs "host: a.b" ++ CRLF ++ CRLF) cl) with (n := n) (c := c) (t := t)
    as [_ K]; try apply G; auto; try (cbn; lia).
  - apply mute_lax.
  - intros a. apply mute_facts.
  - intros a. apply mute_facts.
  - exists (Ok (inl (from_string OK (bs "/up")))). split; [now left|]. left. eexists. split; [reflexivity|]. split; [reflexivity|]. cbn. lia.
  - revert K. apply Forall_impl. tauto.
Qed.

(** The exchange of C58 and two requests without a body. *)
Lemma C62_get_good hs bld2 room1 room2 : 1 <= room1 -> 1 <= room2 ->
  good_exchange 16 400 C61_req [] C58_reader bld2 8 echo 4 400 hs room1 room2
    (from_string OK (bs "/up")) (hs ++ [bs "/up"]) (map B (bs "/up")) (bs "/up").
Proof.
  intros Hr1 Hr2. destruct (C61_get_good bld2 room1 room2 Hr1 Hr2). split; auto.
  exists (Ok (inl (from_string OK (bs "/up")))). split; [now left|]. left. eexists. split; [reflexivity|]. split; [reflexivity|]. cbn. lia.
Qed.
Definition C62_get : sock -> res (status * headers * bytes) * sock := client_run Std 16 sock_read sock_writer 400 C61_req [] C58_reader.
Example C62_case : exists n cs, many_reach NoStd 8 (fun _ => []) echo 4 400 7 3 [] [C58_client Std; C62_get; C62_get] n cs
  /\ all_ended NoStd 8 (fun _ => []) echo 4 400 [] [C58_client Std; C62_get; C62_get] cs
  /\ serve_forever NoStd 8 sock_read sock_writer (fun _ _ => []) echo 4 400 [] (map (fun c => Ok (fresh (snd c))) cs)
     = (true, [Called Put (bs "/up"); Called Get (bs "/up"); Called Get (bs "/up")],
        [bs "hello, world, how are you now?"; bs "/up"; bs "/up"], map Some (accepted NoStd 8 (fun _ => []) echo 4 400 [] cs)).
Proof.
  assert (Hg : exists gs len, all_good NoStd 8 echo 4 400 7 3 [] [C58_client Std; C62_get; C62_get]
    [Called Put (bs "/up"); Called Get (bs "/up"); Called Get (bs "/up")] [bs "hello, world, how are you now?"; bs "/up"; bs "/up"] gs len).
  { eexists. eexists. refine (all_good_cons _ _ _ _ _ _ _ _ Std 16 400 C58_req C58_ops C58_reader _ _ _ _ _ _ _ _ _ (C58_echo_good NoStd 7 3 ltac:(lia) ltac:(lia)) _).
    refine (all_good_cons _ _ _ _ _ _ _ _ Std 16 400 C61_req [] C58_reader _ _ _ _ _ _ _ _ _ (C62_get_good _ NoStd 7 3 ltac:(lia) ltac:(lia)) _).
    refine (all_good_cons _ _ _ _ _ _ _ _ Std 16 400 C61_req [] C58_reader _ _ _ _ _ _ _ _ _ (C62_get_good _ NoStd 7 3 ltac:(lia) ltac:(lia)) _).
    constructor. }
  destruct Hg as (gs & len & Hg).
  destruct (C62_ends NoStd 8 (fun _ => []) echo 4 400 7 3 _ _ _ _ _ _ Hg 0 _ (many_start _ _ _ _ _ _ _ _ _ _)) as (m & cs & K1 & _ & K2).
  exists m, cs. split; [exact K1|]. split; [exact K2|].
  exact (proj1 (C62_result NoStd 8 (fun _ => []) echo 4 400 7 3 _ _ _ _ _ _ Hg m cs K1 K2)).
Qed.
