(** Two sockets that answer alike until some moment make every function of the library behave alike until then. *)
From Verif Require Import Base Utf8 Case Num Io Parser Types Message Outgoing Client Server Lemmas SimLemmas.

Section Lax.
  (** [R]: the two sockets are still together. [Q]: they have parted; nothing undoes that. *)
  Context {S1 S2 : Type} (R Q : S1 -> S2 -> Prop).

  (** Functions between states [X] and [Y] that contain a socket each ([p]). *)
  Record laxg {A X1 X2 Y1 Y2} (p1 : X1 -> S1) (p2 : X2 -> S2) (RX : X1 -> X2 -> Prop)
      (q1 : Y1 -> S1) (q2 : Y2 -> S2) (RY : Y1 -> Y2 -> Prop)
      (f1 : X1 -> res A * Y1) (f2 : X2 -> res A * Y2) : Prop := {
    lg_both : forall a b, RX a b ->
      (fst (f1 a) = fst (f2 b) /\ RY (snd (f1 a)) (snd (f2 b))) \/ Q (q1 (snd (f1 a))) (q2 (snd (f2 b)));
    lg_l : forall a s, Q (p1 a) s -> Q (q1 (snd (f1 a))) s;
    lg_r : forall s b, Q s (p2 b) -> Q s (q2 (snd (f2 b))) }.

  Lemma lg_ret {A X1 X2 Y1 Y2} p1 p2 (RX : X1 -> X2 -> Prop) q1 q2 (RY : Y1 -> Y2 -> Prop) (r : res A) g1 g2 :
    (forall a b, RX a b -> RY (g1 a) (g2 b)) -> (forall a, q1 (g1 a) = p1 a) -> (forall b, q2 (g2 b) = p2 b) ->
    laxg p1 p2 RX q1 q2 RY (fun a => (r, g1 a)) (fun b => (r, g2 b)).
  Proof. intros H H1 H2. split; intros; cbn; [left; auto| |]; rewrite ?H1, ?H2; auto. Qed.

  Lemma lg_bind {A B X1 X2 Y1 Y2 Z1 Z2} p1 p2 (RX : X1 -> X2 -> Prop) q1 q2 (RY : Y1 -> Y2 -> Prop)
      u1 u2 (RZ : Z1 -> Z2 -> Prop) m1 m2 (k1 : res A -> Y1 -> res B * Z1) (k2 : res A -> Y2 -> res B * Z2) :
    laxg p1 p2 RX q1 q2 RY m1 m2 -> (forall r, laxg q1 q2 RY u1 u2 RZ (k1 r) (k2 r)) ->
    laxg p1 p2 RX u1 u2 RZ (fun a => let (r, y) := m1 a in k1 r y) (fun b => let (r, y) := m2 b in k2 r y).
  Proof.
    intros Hm Hk. split.
    - intros a b H. pose proof (lg_both _ _ _ _ _ _ _ _ Hm a b H) as Hx. destruct (m1 a) as [r1 a'], (m2 b) as [r2 b'].
      destruct Hx as [[E Hr]|Hq]; cbn [fst snd] in *.
      + subst r2. now apply (lg_both _ _ _ _ _ _ _ _ (Hk r1)).
      + right. apply (lg_r _ _ _ _ _ _ _ _ (Hk r2)). now apply (lg_l _ _ _ _ _ _ _ _ (Hk r1)).
    - intros a s H. apply (lg_l _ _ _ _ _ _ _ _ Hm) in H. destruct (m1 a) as [r1 a']. now apply (lg_l _ _ _ _ _ _ _ _ (Hk r1)).
    - intros s b H. apply (lg_r _ _ _ _ _ _ _ _ Hm) in H. destruct (m2 b) as [r2 b']. now apply (lg_r _ _ _ _ _ _ _ _ (Hk r2)).
  Qed.

  (** The same with [sbind]. *)
  Lemma lg_sbind {A B X1 X2 Y1 Y2} p1 p2 (RX : X1 -> X2 -> Prop) q1 q2 (RY : Y1 -> Y2 -> Prop)
      m1 m2 (k1 : A -> Y1 -> res B * Y1) (k2 : A -> Y2 -> res B * Y2) :
    laxg p1 p2 RX q1 q2 RY m1 m2 -> (forall r, laxg q1 q2 RY q1 q2 RY (k1 r) (k2 r)) ->
    laxg p1 p2 RX q1 q2 RY (fun a => sbind (m1 a) k1) (fun b => sbind (m2 b) k2).
  Proof.
    intros Hm Hk.
    apply (lg_bind p1 p2 RX q1 q2 RY q1 q2 RY m1 m2
      (fun r y => match r with Ok a => k1 a y | Err e => (Err e, y) | Panic => (Panic, y) | Fuel => (Fuel, y) end)
      (fun r y => match r with Ok a => k2 a y | Err e => (Err e, y) | Panic => (Panic, y) | Fuel => (Fuel, y) end) Hm).
    intros [a|e| |]; [apply Hk| | |]; now apply lg_ret.
  Qed.

  (** Changing the result, or the state without touching the socket. *)
  Lemma lg_pre {A X1 X2 Y1 Y2 Z1 Z2} p1 p2 (RX : X1 -> X2 -> Prop) q1 q2 (RY : Y1 -> Y2 -> Prop) u1 u2 (RZ : Z1 -> Z2 -> Prop)
      (g1 : X1 -> Y1) (g2 : X2 -> Y2) (f1 : Y1 -> res A * Z1) f2 :
    (forall a b, RX a b -> RY (g1 a) (g2 b)) -> (forall a, q1 (g1 a) = p1 a) -> (forall b, q2 (g2 b) = p2 b) ->
    laxg q1 q2 RY u1 u2 RZ f1 f2 -> laxg p1 p2 RX u1 u2 RZ (fun a => f1 (g1 a)) (fun b => f2 (g2 b)).
  Proof.
    intros H H1 H2 [Hb Hl Hr]. split; intros.
    - apply Hb. auto.
    - apply Hl. now rewrite H1.
    - apply Hr. now rewrite H2.
  Qed.

  Notation id1 := (fun s : S1 => s).
  Notation id2 := (fun s : S2 => s).
  (** Readers over states [T] that contain a socket. *)
  Definition laxr {T1 T2} (p1 : T1 -> S1) (p2 : T2 -> S2) (RT : T1 -> T2 -> Prop) (rd1 : reader T1) (rd2 : reader T2) : Prop :=
    forall n, laxg p1 p2 RT p1 p2 RT (rd1 n) (rd2 n).

  Section Reading.
    Context {T1 T2 : Type} (bld : build) (p1 : T1 -> S1) (p2 : T2 -> S2) (RT : T1 -> T2 -> Prop)
      (rd1 : reader T1) (rd2 : reader T2) (HL : laxr p1 p2 RT rd1 rd2).

    Notation lx := (laxg p1 p2 RT p1 p2 RT).
    Ltac ret := apply lg_ret; auto.

    Lemma bytes_next_lax : forall fuel, lx (bytes_next bld rd1 fuel) (bytes_next bld rd2 fuel).
    Proof using HL.
      induction fuel as [|f IH]; [ret|]. cbn [bytes_next].
      eapply lg_bind; [apply (HL 1)|]. intros [[|x l]|e| |]; try ret. destruct (is_retry bld e); [exact IH|ret].
    Qed.
    Lemma read_exact_lax : forall fuel n acc, lx (read_exact bld rd1 fuel n acc) (read_exact bld rd2 fuel n acc).
    Proof using HL.
      induction fuel as [|f IH]; intros [|n] acc; cbn [read_exact]; try ret.
      eapply lg_bind; [apply (HL (S n))|]. intros [[|x l]|e| |]; try ret; [destruct (_ <=? _)|destruct (is_retry bld e)]; first [apply IH|ret].
    Qed.
    Lemma crlf_loop_lax : forall fuel line, lx (crlf_loop bld rd1 fuel line) (crlf_loop bld rd2 fuel line).
    Proof using HL.
      induction fuel as [|f IH]; intros line; [ret|]. cbn [crlf_loop].
      eapply lg_bind; [apply bytes_next_lax|]. intros [[x|]|e| |]; try ret.
      destruct (ends_crlf (line ++ [x])); [|apply IH]. destruct (firstn _ _) as [|y l]; [ret|]. destruct (utf8_valid _); ret.
    Qed.
    Lemma crlf_next_lax fuel : lx (crlf_next bld rd1 fuel) (crlf_next bld rd2 fuel).
    Proof using HL. apply crlf_loop_lax. Qed.
  End Reading.

  Section LinesLax.
    Context {T1 T2 : Type} (p1 : T1 -> S1) (p2 : T2 -> S2) (RT : T1 -> T2 -> Prop)
      (n1 : T1 -> res (option bytes) * T1) (n2 : T2 -> res (option bytes) * T2)
      (HN : laxg p1 p2 RT p1 p2 RT n1 n2).
    Notation lx := (laxg p1 p2 RT p1 p2 RT).
    Ltac ret := apply lg_ret; auto.

    Lemma expect_next_lax : lx (expect_next n1) (expect_next n2).
    Proof using HN. unfold expect_next. eapply lg_bind; [apply HN|]. intros [[x|]|e| |]; ret. Qed.

    (** [cont_loop], with its three results rearranged. *)
    Definition cont3 {T} (n : T -> res (option bytes) * T) fuel line (s : T) : res (bytes * peeked) * T :=
      let '(l, pk, s') := cont_loop n fuel line s in (Ok (l, pk), s').
    Lemma cont_lax : forall fuel line, lx (cont3 n1 fuel line) (cont3 n2 fuel line).
    Proof using HN.
      induction fuel as [|f IH]; intros line; [ret|].
      set (K := fun T (n : T -> res (option bytes) * T) (r : res (option bytes)) (s' : T) =>
        match r with
        | Ok (Some nx) => if starts_blank nx then cont3 n f (line ++ nx) s' else (Ok (line, Some (Ok (Some nx))), s')
        | r => (Ok (line, Some r), s')
        end).
      assert (HK : forall r, lx (K _ n1 r) (K _ n2 r)).
      { intros [[x|]|e| |]; try ret. unfold K. destruct (starts_blank x); [apply IH|ret]. }
      pose proof (lg_bind p1 p2 RT p1 p2 RT p1 p2 RT n1 n2 _ _ HN HK) as [Hb Hl Hr].
      assert (HE : forall T (n : T -> res (option bytes) * T) s, cont3 n (S f) line s = (let (r, s') := n s in K T n r s')).
      { intros T n s. unfold cont3 at 1. cbn [cont_loop]. destruct (n s) as [[[x|]|e| |] s']; cbn; auto.
        destruct (starts_blank x); auto. }
      split; intros; rewrite ?HE; auto.
    Qed.

    Lemma headers_lax : forall fuel acc pk, lx (headers_loop n1 fuel acc pk) (headers_loop n2 fuel acc pk).
    Proof using HN.
      induction fuel as [|f IH]; intros acc pk; [ret|].
      set (K2 := fun T (n : T -> res (option bytes) * T) (r : res (bytes * peeked)) (s : T) =>
        match r with
        | Ok (l, pk') =>
            match pk' with
            | Some Panic => (Panic, s) | Some Fuel => (Fuel, s)
            | _ =>
                match header_deserialize l with
                | Ok h => headers_loop n f (acc ++ [h]) pk' s
                | Err e => (Err e, s) | Panic => (Panic, s) | Fuel => (Fuel, s)
                end
            end
        | _ => (Fuel, s)
        end).
      set (K := fun T (n : T -> res (option bytes) * T) (r : res (option bytes)) (s' : T) =>
        match r with
        | Ok None => (Ok (headers_from acc), s')
        | Ok (Some line) => let (r, s2) := cont3 n (S f) line s' in K2 T n r s2
        | Err e => (Err e, s') | Panic => (Panic, s') | Fuel => (Fuel, s')
        end).
      assert (HK2 : forall r, lx (K2 _ n1 r) (K2 _ n2 r)).
      { intros [[l pk']|e| |]; try ret. unfold K2. destruct pk' as [[x|x| |]|]; try ret; (destruct (header_deserialize l); try ret; apply IH). }
      assert (HK : forall r, lx (K _ n1 r) (K _ n2 r)).
      { intros [[x|]|e| |]; try ret. unfold K. eapply lg_bind; [apply cont_lax|apply HK2]. }
      assert (Hp : lx (pk_next n1 pk) (pk_next n2 pk)).
      { destruct pk; [ret|exact HN]. }
      pose proof (lg_bind p1 p2 RT p1 p2 RT p1 p2 RT _ _ _ _ Hp HK) as [Hb Hl Hr].
      assert (HE : forall T (n : T -> res (option bytes) * T) s, headers_loop n (S f) acc pk s = (let (r, s') := pk_next n pk s in K T n r s')).
      { intros T n s. change (headers_loop n (S f) acc pk s) with
          (match pk_next n pk s with
           | (Ok None, s') => (Ok (headers_from acc), s')
           | (Ok (Some line), s') =>
               let '(line', pk', s'') := cont_loop n (S f) line s' in
               match pk' with
               | Some Panic => (Panic, s'') | Some Fuel => (Fuel, s'')
               | _ =>
                   match header_deserialize line' with
                   | Ok h => headers_loop n f (acc ++ [h]) pk' s''
                   | Err e => (Err e, s'') | Panic => (Panic, s'') | Fuel => (Fuel, s'')
                   end
               end
           | (Err e, s') => (Err e, s') | (Panic, s') => (Panic, s') | (Fuel, s') => (Fuel, s')
           end).
        destruct (pk_next n pk s) as [[[x|]|e| |] s']; cbn [K]; auto. unfold K, cont3.
        destruct (cont_loop n (S f) x s') as [[l pk'] s2]. reflexivity. }
      split; intros; rewrite ?HE; auto.
    Qed.

    Lemma request_head_lax fuel : lx (request_head n1 fuel) (request_head n2 fuel).
    Proof using HN.
      unfold request_head. apply lg_sbind; [apply expect_next_lax|]. intros line.
      match goal with |- context [match ?x with (_, _) => _ end] => destruct x as [[[[m u] v]|e| |] p] end; try ret.
      apply lg_sbind; [apply headers_lax|]. intros h. ret.
    Qed.
    Lemma response_head_lax fuel : lx (response_head n1 fuel) (response_head n2 fuel).
    Proof using HN.
      unfold response_head. apply lg_sbind; [apply expect_next_lax|]. intros line.
      match goal with |- context [match ?x with (_, _) => _ end] => destruct x as [[[v st]|e| |] p] end; try ret.
      apply lg_sbind; [apply headers_lax|]. intros h. ret.
    Qed.
  End LinesLax.

  Section BodyLax.
    Context {T1 T2 : Type} (bld : build) (p1 : T1 -> S1) (p2 : T2 -> S2) (RT : T1 -> T2 -> Prop)
      (rd1 : reader T1) (rd2 : reader T2) (HL : laxr p1 p2 RT rd1 rd2).
    Notation lx := (laxg p1 p2 RT p1 p2 RT).
    Ltac ret := apply lg_ret; auto.

    Definition pairR (a : N * T1) (b : N * T2) : Prop := fst a = fst b /\ RT (snd a) (snd b).
    Notation q1 := (fun a : N * T1 => p1 (snd a)).
    Notation q2 := (fun b : N * T2 => p2 (snd b)).

    (** Reading from a given limit on. *)
    Lemma take_from_lax n lim : laxg p1 p2 RT q1 q2 pairR (fun t => take_read rd1 n (lim, t)) (fun t => take_read rd2 n (lim, t)).
    Proof using HL.
      cbn [take_read]. destruct (lim =? 0)%N; [apply lg_ret; cbn; auto; now split|].
      eapply lg_bind; [apply (HL (N.to_nat (N.min (N.of_nat n) lim)))|]. intros [g|e| |]; try (apply lg_ret; cbn; auto; now split).
      destruct (_ <=? _)%N; apply lg_ret; cbn; auto; now split.
    Qed.
    Lemma chunk_new_lax fuel : lx (chunk_new bld rd1 fuel) (chunk_new bld rd2 fuel).
    Proof using HL.
      unfold chunk_new. apply lg_sbind; [apply expect_next_lax; now apply crlf_next_lax|]. intros l. ret.
    Qed.

    Notation c1 := (fun c : cbody T1 => p1 (cb_reader c)).
    Notation c2 := (fun c : cbody T2 => p2 (cb_reader c)).
    Ltac retc := apply lg_ret; cbn; auto.
    Lemma chunked_lax : forall fuel n,
      laxg c1 c2 (cb_sim RT) c1 c2 (cb_sim RT) (chunked_read bld rd1 fuel n) (chunked_read bld rd2 fuel n).
    Proof using HL.
      induction fuel as [|f IH]; intros n; [retc|].
      assert (Hs : laxg p1 p2 RT c1 c2 (cb_sim RT) (fun t => chunked_read bld rd1 f n (CStream t)) (fun t => chunked_read bld rd2 f n (CStream t))).
      { now apply (lg_pre p1 p2 RT c1 c2 (cb_sim RT) c1 c2 (cb_sim RT) (@CStream T1) (@CStream T2)). }
      assert (Hc : forall l, laxg p1 p2 RT c1 c2 (cb_sim RT) (fun t => chunked_read bld rd1 f n (CChunk l t)) (fun t => chunked_read bld rd2 f n (CChunk l t))).
      { intros l. apply (lg_pre p1 p2 RT c1 c2 (cb_sim RT) c1 c2 (cb_sim RT) (@CChunk T1 l) (@CChunk T2 l)); cbn; auto. }
      assert (H1 : laxg p1 p2 RT c1 c2 (cb_sim RT) (fun t => chunked_read bld rd1 (S f) n (CStream t)) (fun t => chunked_read bld rd2 (S f) n (CStream t))).
      { cbn [chunked_read]. eapply lg_bind; [apply (chunk_new_lax (S f))|]. intros [[x|]|e| |]; try retc. apply Hc. }
      assert (H2 : forall l, laxg p1 p2 RT c1 c2 (cb_sim RT) (fun t => chunked_read bld rd1 (S f) n (CChunk l t)) (fun t => chunked_read bld rd2 (S f) n (CChunk l t))).
      { intros l.
        assert (Hx : laxg p1 p2 RT c1 c2 (cb_sim RT)
          (fun t => match read_exact bld rd1 (S f) 2 [] t with
                    | (Ok _, t2) => chunked_read bld rd1 f n (CStream t2)
                    | (Err e, t2) => (Err e, CDone t2) | (Panic, t2) => (Panic, CDone t2) | (Fuel, t2) => (Fuel, CDone t2) end)
          (fun t => match read_exact bld rd2 (S f) 2 [] t with
                    | (Ok _, t2) => chunked_read bld rd2 f n (CStream t2)
                    | (Err e, t2) => (Err e, CDone t2) | (Panic, t2) => (Panic, CDone t2) | (Fuel, t2) => (Fuel, CDone t2) end)).
        { eapply lg_bind; [now apply (read_exact_lax bld p1 p2 RT rd1 rd2 HL (S f) 2 [])|]. intros [x|e| |]; try retc. apply Hs. }
        set (K := fun T (rd : reader T) (r : res bytes) (y : N * T) =>
          match r with
          | Ok [] => match read_exact bld rd (S f) 2 [] (snd y) with
                    | (Ok _, t2) => chunked_read bld rd f n (CStream t2)
                    | (Err e, t2) => (Err e, CDone t2) | (Panic, t2) => (Panic, CDone t2) | (Fuel, t2) => (Fuel, CDone t2) end
          | Ok got => (Ok got, CChunk (fst y) (snd y))
          | Err e => (Err e, CDone (snd y)) | Panic => (Panic, CDone (snd y)) | Fuel => (Fuel, CDone (snd y))
          end).
        assert (HK : forall r, laxg q1 q2 pairR c1 c2 (cb_sim RT) (K T1 rd1 r) (K T2 rd2 r)).
        { intros [[|x g]|e| |]; unfold K; try (apply lg_ret; cbn; unfold pairR; intuition).
          apply (lg_pre q1 q2 pairR p1 p2 RT c1 c2 (cb_sim RT) (@snd N T1) (@snd N T2) _ _) in Hx; [exact Hx| |reflexivity|reflexivity].
          intros x y H. apply H. }
        pose proof (lg_bind p1 p2 RT q1 q2 pairR c1 c2 (cb_sim RT) _ _ _ _ (take_from_lax n l) HK) as [Hb Hl Hr].
        assert (HE : forall T (rd : reader T) t, chunked_read bld rd (S f) n (CChunk l t) = (let (r, y) := take_read rd n (l, t) in K T rd r y)).
        { intros T rd t. change (chunked_read bld rd (S f) n (CChunk l t)) with
            (match take_read rd n (l, t) with
             | (Ok [], (_, t1)) =>
                 match read_exact bld rd (S f) 2 [] t1 with
                 | (Ok _, t2) => chunked_read bld rd f n (CStream t2)
                 | (Err e, t2) => (Err e, CDone t2) | (Panic, t2) => (Panic, CDone t2) | (Fuel, t2) => (Fuel, CDone t2)
                 end
             | (Ok got, (lim1, t1)) => (Ok got, CChunk lim1 t1)
             | (Err e, (_, t1)) => (Err e, CDone t1) | (Panic, (_, t1)) => (Panic, CDone t1) | (Fuel, (_, t1)) => (Fuel, CDone t1)
             end).
          destruct (take_read rd n (l, t)) as [[[|x g]|e| |] [l1 t1]]; reflexivity. }
        split; intros; rewrite ?HE; auto. }
      split.
      - intros [a|l a|a] [b|m b|b] H; cbn in H; try contradiction.
        + now apply (lg_both _ _ _ _ _ _ _ _ H1).
        + destruct H as [<- H]. now apply (lg_both _ _ _ _ _ _ _ _ (H2 l)).
        + now left.
      - intros [a|l a|a] s H; cbn [cb_reader] in H.
        + now apply (lg_l _ _ _ _ _ _ _ _ H1).
        + now apply (lg_l _ _ _ _ _ _ _ _ (H2 l)).
        + exact H.
      - intros s [a|l a|a] H; cbn [cb_reader] in H.
        + now apply (lg_r _ _ _ _ _ _ _ _ H1).
        + now apply (lg_r _ _ _ _ _ _ _ _ (H2 l)).
        + exact H.
    Qed.

    Notation h1 := (fun b : hbody T1 => p1 (body_reader b)).
    Notation h2 := (fun b : hbody T2 => p2 (body_reader b)).
    Lemma body_lax fuel : laxr h1 h2 (hb_sim RT) (body_read bld rd1 fuel) (body_read bld rd2 fuel).
    Proof using HL.
      intros n. pose proof (chunked_lax fuel n) as [Cb Cl Cr].
      split.
      - intros [l a|l a|a] [m b|m b|b] H; cbn in H; try contradiction; cbn [body_read].
        + destruct H as [<- H]. specialize (Cb a b H). destruct (chunked_read bld rd1 fuel n a), (chunked_read bld rd2 fuel n b).
          destruct Cb as [[E Hx]|Hx]; [left; now repeat split|now right].
        + destruct H as [<- H]. pose proof (lg_both _ _ _ _ _ _ _ _ (take_from_lax n l) a b H) as Hx.
          destruct (take_read rd1 n (l, a)) as [r1 [l1 t1]], (take_read rd2 n (l, b)) as [r2 [l2 t2]].
          destruct Hx as [[E [Hy Hz]]|Hx]; [left; now repeat split|now right].
        + pose proof (lg_both _ _ _ _ _ _ _ _ (HL n) a b H) as Hx. destruct (rd1 n a), (rd2 n b).
          destruct Hx as [[E Hy]|Hx]; [left; now repeat split|now right].
      - intros [l a|l a|a] s H; cbn [body_reader] in H; cbn [body_read].
        + apply Cl in H. now destruct (chunked_read bld rd1 fuel n a).
        + apply (lg_l _ _ _ _ _ _ _ _ (take_from_lax n l)) in H. now destruct (take_read rd1 n (l, a)) as [r1 [l1 t1]].
        + apply (lg_l _ _ _ _ _ _ _ _ (HL n)) in H. now destruct (rd1 n a).
      - intros s [l a|l a|a] H; cbn [body_reader] in H; cbn [body_read].
        + apply Cr in H. now destruct (chunked_read bld rd2 fuel n a).
        + apply (lg_r _ _ _ _ _ _ _ _ (take_from_lax n l)) in H. now destruct (take_read rd2 n (l, a)) as [r1 [l1 t1]].
        + apply (lg_r _ _ _ _ _ _ _ _ (HL n)) in H. now destruct (rd2 n a).
    Qed.

    Lemma hb_sim_length a b : hb_sim RT a b -> body_content_length a = body_content_length b.
    Proof. destruct a as [l c|l c|c], b as [m d|m d|d]; cbn; try contradiction; auto; intros [<- _]; auto. Qed.

    Lemma run_prog_lax {A} bfuel : forall fuel (p : prog A),
      laxg h1 h2 (hb_sim RT) h1 h2 (hb_sim RT) (run_prog bld rd1 bfuel fuel p) (run_prog bld rd2 bfuel fuel p).
    Proof using HL.
      induction fuel as [|f IH]; intros p; [apply lg_ret; auto|]. cbn [run_prog]. destruct p as [a|n k|k].
      - apply lg_ret; auto.
      - eapply lg_bind; [apply (body_lax bfuel n)|]. intros [g|e| |]; try (apply lg_ret; auto); apply IH.
      - split.
        + intros a b H. rewrite (hb_sim_length a b H). now apply (lg_both _ _ _ _ _ _ _ _ (IH _)).
        + intros a s H. now apply (lg_l _ _ _ _ _ _ _ _ (IH _)).
        + intros s b H. now apply (lg_r _ _ _ _ _ _ _ _ (IH _)).
    Qed.
  End BodyLax.

  (** *** Sockets *)
  Section Sockets.
    Context (bld : build) (cap : nat) (rd1 : reader S1) (rd2 : reader S2) (wt1 : writer S1) (wt2 : writer S2)
      (HR : laxr id1 id2 R rd1 rd2)
      (HW : forall d, laxg id1 id2 R id1 id2 R (wr wt1 d) (wr wt2 d))
      (HF : laxg id1 id2 R id1 id2 R (fl wt1) (fl wt2)).
    Notation lx := (laxg id1 id2 R id1 id2 R).
    Ltac ret := apply lg_ret; auto.

    Definition brR (a : bufr S1) (b : bufr S2) : Prop := br_buf a = br_buf b /\ R (br_inner a) (br_inner b).
    Lemma bufr_lax : laxr br_inner br_inner brR (bufr_read bld cap rd1) (bufr_read bld cap rd2).
    Proof using HR.
      intros n. assert (HB : forall buf, laxg id1 id2 R br_inner br_inner brR
        (fun s => bufr_read bld cap rd1 n (mkBufr s buf)) (fun s => bufr_read bld cap rd2 n (mkBufr s buf))).
      { intros buf. unfold bufr_read. cbn [br_buf br_inner]. destruct bld.
        - destruct buf as [|x buf]; [|apply lg_ret; cbn; auto; now split]. destruct (_ <=? _).
          + eapply lg_bind; [apply (HR n)|]. intros r. apply lg_ret; cbn; auto; now split.
          + eapply lg_bind; [apply (HR cap)|]. intros [g|e| |]; apply lg_ret; cbn; auto; now split.
        - eapply lg_bind; [apply (HR n)|]. intros r. apply lg_ret; cbn; auto; now split. }
      split.
      - intros [a x] [b y] [E H]. cbn in E, H. subst y. now apply (lg_both _ _ _ _ _ _ _ _ (HB x)).
      - intros [a x] s H. now apply (lg_l _ _ _ _ _ _ _ _ (HB x)).
      - intros s [b y] H. now apply (lg_r _ _ _ _ _ _ _ _ (HB y)).
    Qed.

    Lemma write_all_lax : forall b fuel data, lx (write_all b wt1 fuel data) (write_all b wt2 fuel data).
    Proof using HW.
      induction fuel as [|f IH]; intros [|d data]; cbn [write_all]; try ret.
      eapply lg_bind; [apply (HW (d :: data))|]. intros [[|k]|e| |]; try ret; [destruct (_ <=? _)|destruct (is_retry b e)]; first [apply IH|ret].
    Qed.
    Lemma write_pieces_lax fuel : forall ps, lx (write_pieces bld wt1 fuel ps) (write_pieces bld wt2 fuel ps).
    Proof using HW.
      induction ps as [|p ps IH]; cbn [write_pieces]; [ret|]. apply lg_sbind; [apply write_all_lax|]. intros _. apply IH.
    Qed.

    Definition bwR (a : bufw S1) (b : bufw S2) : Prop := bw_buf a = bw_buf b /\ R (bw_inner a) (bw_inner b).
    Notation lw := (laxg bw_inner bw_inner bwR bw_inner bw_inner bwR).
    (** From a given buffer on. *)
    Lemma from_buf {A Y1 Y2} (q1 : Y1 -> S1) (q2 : Y2 -> S2) (RY : Y1 -> Y2 -> Prop) (f1 : bufw S1 -> res A * Y1) f2 :
      (forall buf, laxg id1 id2 R q1 q2 RY (fun s => f1 (mkBufw s buf)) (fun s => f2 (mkBufw s buf))) ->
      laxg bw_inner bw_inner bwR q1 q2 RY f1 f2.
    Proof.
      intros HB. split.
      - intros [a x] [b y] [E H]. cbn in E, H. subst y. now apply (lg_both _ _ _ _ _ _ _ _ (HB x)).
      - intros [a x] s H. now apply (lg_l _ _ _ _ _ _ _ _ (HB x)).
      - intros s [b y] H. now apply (lg_r _ _ _ _ _ _ _ _ (HB y)).
    Qed.
    Lemma to_buf {A Y1 Y2} (q1 : Y1 -> S1) (q2 : Y2 -> S2) (RY : Y1 -> Y2 -> Prop) (f1 : bufw S1 -> res A * Y1) f2 buf :
      laxg bw_inner bw_inner bwR q1 q2 RY f1 f2 ->
      laxg id1 id2 R q1 q2 RY (fun s => f1 (mkBufw s buf)) (fun s => f2 (mkBufw s buf)).
    Proof. apply (lg_pre id1 id2 R bw_inner bw_inner bwR q1 q2 RY (fun s => mkBufw s buf) (fun s => mkBufw s buf)); auto. intros a b H. now split. Qed.
    Ltac retb := apply lg_ret; cbn; auto; try (intros; now split).

    Lemma flush_buf_lax : forall fuel, lw (flush_buf wt1 fuel) (flush_buf wt2 fuel).
    Proof using HW.
      induction fuel as [|f IH]; apply from_buf; intros [|d buf]; cbn [flush_buf bw_buf bw_inner]; try retb.
      eapply lg_bind; [apply (HW (d :: buf))|]. intros [[|k]|e| |]; try retb.
      - now apply to_buf.
      - destruct (is_retry Std e); [now apply to_buf|retb].
    Qed.
    Lemma bufw_write_all_lax fuel data : lw (bufw_write_all bld cap wt1 fuel data) (bufw_write_all bld cap wt2 fuel data).
    Proof using HW.
      apply from_buf. intros buf. unfold bufw_write_all. cbn [bw_buf bw_inner]. destruct bld.
      - destruct (_ <? _); [retb|].
        assert (Hk : forall b0, laxg id1 id2 R bw_inner bw_inner bwR
          (fun s => if cap <=? length data then let (x, w') := write_all Std wt1 fuel data s in (x, mkBufw w' b0) else (Ok tt, mkBufw s (b0 ++ data)))
          (fun s => if cap <=? length data then let (x, w') := write_all Std wt2 fuel data s in (x, mkBufw w' b0) else (Ok tt, mkBufw s (b0 ++ data)))).
        { intros b0. destruct (_ <=? _); [|retb]. eapply lg_bind; [apply write_all_lax|]. intros r. retb. }
        apply (lg_sbind id1 id2 R bw_inner bw_inner bwR
          (fun s => if cap - length buf <? length data then flush_buf wt1 fuel (mkBufw s buf) else (Ok tt, mkBufw s buf))
          (fun s => if cap - length buf <? length data then flush_buf wt2 fuel (mkBufw s buf) else (Ok tt, mkBufw s buf))
          (fun _ b1 => if cap <=? length data then let (x, w') := write_all Std wt1 fuel data (bw_inner b1) in (x, mkBufw w' (bw_buf b1))
                       else (Ok tt, mkBufw (bw_inner b1) (bw_buf b1 ++ data)))
          (fun _ b1 => if cap <=? length data then let (x, w') := write_all Std wt2 fuel data (bw_inner b1) in (x, mkBufw w' (bw_buf b1))
                       else (Ok tt, mkBufw (bw_inner b1) (bw_buf b1 ++ data)))).
        + destruct (_ <? _); [apply to_buf, flush_buf_lax|retb].
        + intros _. apply from_buf. intros b0. cbn [bw_inner bw_buf]. apply Hk.
      - eapply lg_bind; [apply write_all_lax|]. intros r. retb.
    Qed.
    Lemma bufw_pieces_lax fuel : forall ps, lw (bufw_pieces bld cap wt1 fuel ps) (bufw_pieces bld cap wt2 fuel ps).
    Proof using HW.
      induction ps as [|p ps IH]; cbn [bufw_pieces]; [ret|]. apply lg_sbind; [apply bufw_write_all_lax|]. intros _. apply IH.
    Qed.
    Lemma bufw_flush_lax fuel : lw (bufw_flush bld wt1 fuel) (bufw_flush bld wt2 fuel).
    Proof using HW HF.
      unfold bufw_flush. apply lg_sbind.
      - destruct bld; [apply flush_buf_lax|ret].
      - intros _. apply from_buf. intros b0. cbn [bw_inner bw_buf]. eapply lg_bind; [apply HF|]. intros r. retb.
    Qed.
    Lemma bufw_into_inner_lax fuel : lw (bufw_into_inner bld wt1 fuel) (bufw_into_inner bld wt2 fuel).
    Proof using HW.
      unfold bufw_into_inner. destruct bld; [|ret]. pose proof (flush_buf_lax fuel) as [Hb Hl Hr]. split.
      - intros a b H. specialize (Hb a b H). destruct (flush_buf wt1 fuel a) as [r1 a1], (flush_buf wt2 fuel b) as [r2 b1].
        cbn [fst snd] in Hb. destruct Hb as [[E Hx]|Hx]; [subst r2; left; destruct r1; cbn; auto|right; destruct r1, r2; cbn; auto].
      - intros a s H. apply Hl in H. destruct (flush_buf wt1 fuel a) as [r1 a1]; destruct r1; exact H.
      - intros s b H. apply Hr in H. destruct (flush_buf wt2 fuel b) as [r1 a1]; destruct r1; exact H.
    Qed.
    (** Dropping; the unit result is there to fit the format. *)
    Lemma bufw_drop_lax fuel : laxg bw_inner bw_inner bwR id1 id2 R
      (fun b => (Ok tt, bufw_drop bld wt1 fuel b)) (fun b => (Ok tt, bufw_drop bld wt2 fuel b)).
    Proof using HW.
      unfold bufw_drop. destruct bld; [|apply lg_ret; unfold bwR; intuition]. pose proof (flush_buf_lax fuel) as [Hb Hl Hr]. split; cbn [fst snd].
      - intros a b H. destruct (Hb a b H) as [[E [_ Hx]]|Hx]; auto.
      - intros a s H. now apply Hl.
      - intros s b H. now apply Hr.
    Qed.
    Lemma fail_drop_lax {A} fuel e : laxg bw_inner bw_inner bwR id1 id2 R (@fail_drop S1 bld wt1 A fuel e) (@fail_drop S2 bld wt2 A fuel e).
    Proof using HW.
      destruct e as [u|e| |]; cbn [fail_drop]; try (apply lg_ret; unfold bwR; now intuition).
      pose proof (bufw_drop_lax fuel) as [Hb Hl Hr]. split; cbn [fst snd] in *; auto.
      intros a b H. destruct (Hb a b H) as [[_ Hx]|Hx]; auto.
    Qed.

    (** *** The client's functions *)
    Definition ogR (a : outgoing S1) (b : outgoing S2) : Prop :=
      match a, b with
      | ONoBody x, ONoBody y => R x y
      | OWithBody x, OWithBody y => bwR x y
      | _, _ => False
      end.
    (** [send], its result moved into the state. *)
    Definition send' {S} (wt : writer S) (fuel : nat) (r : request unit) (s : S) : res unit * outgoing S :=
      match send bld cap wt fuel r s with
      | (Ok o, _) => (Ok tt, o)
      | (Err e, s1) => (Err e, ONoBody s1)
      | (Panic, s1) => (Panic, ONoBody s1)
      | (Fuel, s1) => (Fuel, ONoBody s1)
      end.
    Lemma send_lax fuel r : laxg id1 id2 R out_sock out_sock ogR (send' wt1 fuel r) (send' wt2 fuel r).
    Proof using HW.
      assert (Hd : forall e, laxg bw_inner bw_inner bwR out_sock out_sock ogR
        (fun b => match @fail_drop S1 bld wt1 unit fuel e b with (x, s1) => (x, ONoBody s1) end)
        (fun b => match @fail_drop S2 bld wt2 unit fuel e b with (x, s1) => (x, ONoBody s1) end)).
      { intros e. eapply lg_bind; [apply (fail_drop_lax fuel e)|]. intros x. apply lg_ret; cbn; auto. }
      set (K2 := fun S (wt : writer S) (x : res unit) (b2 : bufw S) =>
        match x with
        | Ok _ => (Ok tt, ONoBody (bw_inner b2))
        | e => match @fail_drop S bld wt unit fuel e b2 with (x, s1) => (x, ONoBody s1) end
        end).
      set (K := fun S (wt : writer S) (x : res unit) (b1 : bufw S) =>
        match x with
        | Ok _ => if has_body (rq_method r) then (Ok tt, OWithBody b1)
                  else let (x2, b2) := bufw_into_inner bld wt fuel b1 in K2 S wt x2 b2
        | e => match @fail_drop S bld wt unit fuel e b1 with (x, s1) => (x, ONoBody s1) end
        end).
      assert (HK2 : forall x, laxg bw_inner bw_inner bwR out_sock out_sock ogR (K2 S1 wt1 x) (K2 S2 wt2 x)).
      { intros [u|e| |]; unfold K2; try apply Hd. apply lg_ret; cbn; unfold bwR; now intuition. }
      assert (HK : forall x, laxg bw_inner bw_inner bwR out_sock out_sock ogR (K S1 wt1 x) (K S2 wt2 x)).
      { intros [u|e| |]; unfold K; try apply Hd. destruct (has_body (rq_method r)).
        - apply lg_ret; cbn; auto.
        - eapply lg_bind; [apply bufw_into_inner_lax|apply HK2]. }
      pose proof (lg_bind bw_inner bw_inner bwR bw_inner bw_inner bwR out_sock out_sock ogR _ _ _ _ (bufw_pieces_lax fuel (request_pieces r)) HK) as H0.
      apply (to_buf _ _ _ _ _ []) in H0. destruct H0 as [Hb Hl Hr].
      assert (HE : forall S (wt : writer S) s, send' wt fuel r s = (let (x, y) := bufw_pieces bld cap wt fuel (request_pieces r) (mkBufw s []) in K S wt x y)).
      { intros S wt s. unfold send', send, request_serialize, bufw_new.
        assert (Hf : forall e b, match @fail_drop S bld wt (outgoing S) fuel e b with
            | (Ok o, _) => (Ok tt, o) | (Err e, s1) => (Err e, ONoBody s1) | (Panic, s1) => (Panic, ONoBody s1) | (Fuel, s1) => (Fuel, ONoBody s1) end
            = match @fail_drop S bld wt unit fuel e b with (x, s1) => (x, ONoBody s1) end) by (intros [u|e| |] b; reflexivity).
        destruct (bufw_pieces bld cap wt fuel (request_pieces r) (mkBufw s [])) as [[u|e| |] b1]; cbn [K]; unfold K; rewrite ?Hf; auto.
        destruct (has_body (rq_method r)); auto.
        destruct (bufw_into_inner bld wt fuel b1) as [[u2|e| |] b2]; unfold K2; rewrite ?Hf; auto. }
      split; intros; rewrite ?HE; auto.
    Qed.

    Lemma from_out {A Y1 Y2} (q1 : Y1 -> S1) (q2 : Y2 -> S2) (RY : Y1 -> Y2 -> Prop) (f1 : outgoing S1 -> res A * Y1) f2 :
      laxg id1 id2 R q1 q2 RY (fun s => f1 (ONoBody s)) (fun s => f2 (ONoBody s)) ->
      laxg bw_inner bw_inner bwR q1 q2 RY (fun s => f1 (OWithBody s)) (fun s => f2 (OWithBody s)) ->
      laxg out_sock out_sock ogR q1 q2 RY f1 f2.
    Proof.
      intros HA HB. split.
      - intros [a|a] [b|b] H; cbn in H; try contradiction; [now apply (lg_both _ _ _ _ _ _ _ _ HA)|now apply (lg_both _ _ _ _ _ _ _ _ HB)].
      - intros [a|a] s H; [now apply (lg_l _ _ _ _ _ _ _ _ HA)|now apply (lg_l _ _ _ _ _ _ _ _ HB)].
      - intros s [b|b] H; [now apply (lg_r _ _ _ _ _ _ _ _ HA)|now apply (lg_r _ _ _ _ _ _ _ _ HB)].
    Qed.

    Lemma outgoing_write_lax fuel data : laxg out_sock out_sock ogR out_sock out_sock ogR
      (outgoing_write bld cap wt1 fuel data) (outgoing_write bld cap wt2 fuel data).
    Proof using HW.
      apply from_out; cbn [outgoing_write]; [apply lg_ret; cbn; auto|].
      apply (lg_bind bw_inner bw_inner bwR bw_inner bw_inner bwR out_sock out_sock ogR (outbody_write bld cap wt1 fuel data) (outbody_write bld cap wt2 fuel data)
        (fun r b => (r, OWithBody b)) (fun r b => (r, OWithBody b))); [|intros r; apply lg_ret; cbn; auto].
      unfold outbody_write. destruct data as [|d data]; [ret|].
      apply lg_sbind; [apply bufw_pieces_lax|]. intros _. apply lg_sbind; [apply bufw_write_all_lax|]. intros _.
      apply lg_sbind; [apply bufw_pieces_lax|]. intros _. ret.
    Qed.
    Lemma finish_send_lax fuel : laxg out_sock out_sock ogR id1 id2 R (finish_send bld cap wt1 fuel) (finish_send bld cap wt2 fuel).
    Proof using HW HF.
      apply from_out; cbn [finish_send]; [exact HF|].
      eapply lg_bind; [apply bufw_pieces_lax|]. intros [u|e| |]; try apply (fail_drop_lax fuel).
      eapply lg_bind; [apply bufw_flush_lax|]. intros [u2|e| |]; try apply (fail_drop_lax fuel).
      eapply lg_bind; [apply bufw_into_inner_lax|]. intros [u3|e| |]; try apply (fail_drop_lax fuel).
      apply lg_ret; unfold bwR; now intuition.
    Qed.
  End Sockets.

  (** [copy] from a source of its own; the source's state moves into the result. *)
  Section CopyLax.
    Context {Bd Y1 Y2 : Type} (q1 : Y1 -> S1) (q2 : Y2 -> S2) (RY : Y1 -> Y2 -> Prop) (bld : build) (rdb : reader Bd)
      (wall1 : bytes -> Y1 -> res unit * Y1) (wall2 : bytes -> Y2 -> res unit * Y2)
      (HA : forall d, laxg q1 q2 RY q1 q2 RY (wall1 d) (wall2 d)).
    (** The result of the copy without the state of the source. *)
    Definition copied {Y} (o : res N * (Bd * Y)) : res N * Y := (fst o, snd (snd o)).
    Lemma copy_with_lax bufsz : forall fuel n body, laxg q1 q2 RY q1 q2 RY
      (fun y => copied (copy_with bld rdb wall1 bufsz fuel n body y)) (fun y => copied (copy_with bld rdb wall2 bufsz fuel n body y)).
    Proof using HA.
      induction fuel as [|f IH]; intros n body; cbn [copy_with]; [now apply (lg_ret q1 q2 RY q1 q2 RY Fuel (fun y => y) (fun y => y))|].
      assert (Hret : forall (r : res N) b, laxg q1 q2 RY q1 q2 RY (fun y => copied (r, (b, y))) (fun y => copied (r, (b, y)))).
      { intros r b. now apply (lg_ret q1 q2 RY q1 q2 RY r (fun y => y) (fun y => y)). }
      destruct (rdb bufsz body) as [[[|x g]|e| |] b1]; try apply Hret.
      - set (K := fun Y (wall : bytes -> Y -> res unit * Y) (r : res unit) (y : Y) =>
          match r with
          | Ok _ => copied (copy_with bld rdb wall bufsz f (n + N.of_nat (length (x :: g)))%N b1 y)
          | Err e => (Err e, y) | Panic => (Panic, y) | Fuel => (Fuel, y)
          end).
        assert (HK : forall r, laxg q1 q2 RY q1 q2 RY (K Y1 wall1 r) (K Y2 wall2 r)).
        { intros [u|e| |]; unfold K; try (apply lg_ret; auto). apply IH. }
        pose proof (lg_bind q1 q2 RY q1 q2 RY q1 q2 RY _ _ _ _ (HA (x :: g)) HK) as [Hb Hl Hr].
        assert (HE : forall Y (wall : bytes -> Y -> res unit * Y) y, copied (match wall (x :: g) y with
          | (Ok _, w') => copy_with bld rdb wall bufsz f (n + N.of_nat (length (x :: g)))%N b1 w'
          | (Err e, w') => (Err e, (b1, w')) | (Panic, w') => (Panic, (b1, w')) | (Fuel, w') => (Fuel, (b1, w')) end)
          = (let (r, z) := wall (x :: g) y in K Y wall r z)).
        { intros Y wall y. destruct (wall (x :: g) y) as [[u|e| |] z]; reflexivity. }
        split; intros; rewrite ?HE; auto.
      - destruct (is_retry bld e); [apply IH|apply Hret].
    Qed.
  End CopyLax.
End Lax.
