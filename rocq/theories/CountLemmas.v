(** Counting the reads a parser makes. *)
From Verif Require Import Base Utf8 Case Num Io Parser Types Message Transport Lemmas ReadLemmas NumLemmas
  Utf8Lemmas ChunkSpec ChunkLemmas SimLemmas ParserLemmas TypesLemmas HeadLemmas MsgLemmas.

(** The same reader, with the number of calls so far. *)
Definition counted {St} (rd : reader St) : reader (St * nat) :=
  fun n sc => let (r, s') := rd n (fst sc) in (r, (s', S (snd sc))).

Lemma counted_pos {St} (rd : reader St) R : reader_pos rd R -> reader_pos (counted rd) (fun sc xs => R (fst sc) xs).
Proof.
  intros HR n [s c] xs Hn Hs. cbn [fst] in *. specialize (HR n s xs Hn Hs). unfold counted. cbn [fst snd].
  destruct xs as [|[b|e] xs'].
  - destruct HR as (s' & -> & H). eexists. split; [reflexivity|exact H].
  - destruct HR as (got & ys & s' & -> & H1 & H2 & H3 & H4). exists got, ys, (s', S c). auto.
  - destruct HR as (s' & -> & H). eexists. split; [reflexivity|exact H].
Qed.
Lemma counted_delivers {St} (rd : reader St) s c xs : delivers rd s xs -> delivers (counted rd) (s, c) xs.
Proof. intros (R & HR & Hs). eexists. split; [apply counted_pos; eauto|exact Hs]. Qed.

Section Count.
  Context {St : Type} (bld : build) (rd : reader St) (R : St -> list item -> Prop) (HR : reader_pos rd R).

  Lemma bytes_next_count : forall fuel s c xs, R s xs -> length xs < fuel ->
    exists r s' c' ys, bytes_next bld (counted rd) fuel (s, c) = (r, (s', c')) /\ R s' ys
      /\ match r with
         | Ok (Some _) => c' + length ys <= c + length xs /\ length ys < length xs
         | Ok None => c' + length ys <= c + length xs + 1
         | Err _ => c' + length ys <= c + length xs + 1
         | _ => False
         end.
  Proof.
    induction fuel as [|f IH]; intros s c xs Hs Hf; [lia|]. cbn [bytes_next]. unfold counted at 1. cbn [fst snd].
    pose proof (HR 1 s xs ltac:(lia) Hs) as H. destruct xs as [|[b|e] xs'].
    - destruct H as (s' & -> & H). exists (Ok None), s', (S c), []. repeat split; auto. cbn. lia.
    - destruct H as (got & ys & s' & -> & H1 & H2 & H3 & H4). destruct got as [|g got]; [easy|].
      exists (Ok (Some g)), s', (S c), ys. rewrite H3. rewrite app_length, map_length. cbn [length]. repeat split; auto; lia.
    - destruct H as (s' & -> & H). destruct (is_retry bld e).
      + cbn [length] in *. destruct (IH s' (S c) xs' H ltac:(lia)) as (r & s2 & c2 & ys & E & H1 & H2).
        exists r, s2, c2, ys. split; auto. split; auto. destruct r as [[?|]| | |]; lia.
      + exists (Err e), s', (S c), xs'. cbn [length]. repeat split; auto. lia.
  Qed.

  Lemma crlf_loop_count : forall fuel line s c xs, R s xs -> length xs < fuel ->
    exists r s' c' ys, crlf_loop bld (counted rd) fuel line (s, c) = (r, (s', c')) /\ R s' ys
      /\ match r with
         | Ok _ => c' + length ys <= c + length xs /\ length ys < length xs
         | Err _ => c' + length ys <= c + length xs + 1
         | _ => False
         end.
  Proof.
    induction fuel as [|f IH]; intros line s c xs Hs Hf; [lia|]. cbn [crlf_loop].
    destruct (bytes_next_count (S f) s c xs Hs Hf) as (r & s' & c' & ys & E & H1 & H2).
    rewrite E. destruct r as [[b|]|e| |]; try easy.
    - destruct (ends_crlf (line ++ [b])).
      + destruct (firstn _ _) as [|x l]; [|destruct (utf8_valid (x :: l))]; eexists _, s', c', ys; (split; [reflexivity|]); split; auto; lia.
      + destruct (IH (line ++ [b]) s' c' ys H1 ltac:(lia)) as (r2 & s2 & c2 & ys2 & E2 & H3 & H4).
        exists r2, s2, c2, ys2. split; auto. split; auto. destruct r2; lia.
    - eexists _, s', c', ys. split; [reflexivity|]. split; auto.
    - eexists _, s', c', ys. split; [reflexivity|]. split; auto.
  Qed.

  Definition cI (fuel K : nat) (sc : St * nat) : Prop := exists ys, R (fst sc) ys /\ snd sc + length ys <= K /\ length ys < fuel.
  Definition cJ (K : nat) (sc : St * nat) : Prop := snd sc <= K + 1.

  Lemma crlf_inv fuel K : forall a, cI fuel K a -> match crlf_next bld (counted rd) fuel a with
    | (Ok (Some l), a') => cI fuel K a' /\ True
    | (Ok None, a') => cI fuel K a'
    | (Panic, _) => False
    | (_, a') => cJ K a'
    end.
  Proof.
    intros [s c] (xs & Hs & Hk & Hf). cbn [fst snd] in *. unfold crlf_next.
    destruct (crlf_loop_count fuel [] s c xs Hs Hf) as (r & s' & c' & ys & E & H1 & H2). rewrite E. unfold cI, cJ. cbn [fst snd].
    destruct r as [[l|]|e| |]; try easy.
    - split; auto. exists ys. repeat split; auto; lia.
    - exists ys. repeat split; auto; lia.
    - lia.
  Qed.

  Lemma request_count fuel t xs : R t xs -> length xs < fuel ->
    snd (snd (request_head (crlf_next bld (counted rd) fuel) fuel (t, 0))) <= length xs + 1.
  Proof.
    intros Ht Hf. destruct (request_head (crlf_next bld (counted rd) fuel) fuel (t, 0)) as [r sc] eqn:E.
    destruct (request_head_inv _ (cI fuel (length xs)) (cJ (length xs)) (fun _ => True) (crlf_inv fuel (length xs)))
      with (fuel := fuel) (a := (t, 0)) (r := r) (a' := sc) as [H _]; auto.
    - intros a (ys & H1 & H2 & H3). unfold cJ. lia.
    - exists xs. cbn. auto.
  Qed.
  Lemma response_count fuel t xs : R t xs -> length xs < fuel ->
    snd (snd (response_head (crlf_next bld (counted rd) fuel) fuel (t, 0))) <= length xs + 1.
  Proof.
    intros Ht Hf. destruct (response_head (crlf_next bld (counted rd) fuel) fuel (t, 0)) as [r sc] eqn:E.
    destruct (response_head_inv _ (cI fuel (length xs)) (cJ (length xs)) (fun _ => True) (crlf_inv fuel (length xs)))
      with (fuel := fuel) (a := (t, 0)) (r := r) (a' := sc) as [H _]; auto.
    - intros a (ys & H1 & H2 & H3). unfold cJ. lia.
    - exists xs. cbn. auto.
  Qed.

  Lemma read_exact_count : forall fuel n acc s c xs, R s xs -> length xs < fuel ->
    exists r s' c' ys, read_exact bld (counted rd) fuel n acc (s, c) = (r, (s', c')) /\ R s' ys
      /\ match r with
         | Ok _ => c' + length ys <= c + length xs /\ length ys <= length xs /\ (n = 0 \/ length ys < length xs)
         | Err _ => c' + length ys <= c + length xs + 1
         | _ => False
         end.
  Proof.
    induction fuel as [|f IH]; intros n acc s c xs Hs Hf; [lia|].
    destruct n as [|n]; cbn [read_exact]. { exists (Ok acc), s, c, xs. repeat split; auto. }
    unfold counted at 1. cbn [fst snd]. pose proof (HR (S n) s xs ltac:(lia) Hs) as H. destruct xs as [|[b|e] xs'].
    - destruct H as (s' & -> & H). exists (Err (io_eof bld)), s', (S c), []. repeat split; auto. cbn. lia.
    - destruct H as (got & ys & s' & -> & H1 & H2 & H3 & H4). destruct got as [|g got]; [easy|].
      apply Nat.leb_le in H2. rewrite H2. assert (Hl : length (B b :: xs') = S (length got) + length ys).
      { rewrite H3, app_length, map_length. reflexivity. }
      destruct (IH (S n - length (g :: got)) (acc ++ g :: got) s' (S c) ys H4) as (r & s2 & c2 & zs & E & H5 & H6); [lia|].
      exists r, s2, c2, zs. split; auto. split; auto. destruct r; lia.
    - destruct H as (s' & -> & H). cbn [length] in *. destruct (is_retry bld e).
      + destruct (IH (S n) acc s' (S c) xs' H ltac:(lia)) as (r & s2 & c2 & ys & E & H1 & H2).
        exists r, s2, c2, ys. split; auto. split; auto. destruct r; lia.
      + exists (Err e), s', (S c), xs'. repeat split; auto. lia.
  Qed.

  Lemma chunk_new_count fuel s c xs : R s xs -> length xs < fuel ->
    exists r s' c' ys, chunk_new bld (counted rd) fuel (s, c) = (r, (s', c')) /\ R s' ys
      /\ match r with
         | Ok _ => c' + length ys <= c + length xs /\ length ys < length xs
         | Err _ => c' + length ys <= c + length xs + 1
         | _ => False
         end.
  Proof.
    intros Hs Hf. unfold chunk_new, expect_next, crlf_next.
    destruct (crlf_loop_count fuel [] s c xs Hs Hf) as (r & s' & c' & ys & E & H1 & H2). rewrite E.
    destruct r as [[l|]|e| |]; cbn [sbind]; try easy.
    - destruct (from_str_radix_err 16 u64_max l) as [[n ->]|[k ->]]; cbn [rbind]; eexists _, s', c', ys; (split; [reflexivity|]); split; auto; lia.
    - eexists _, s', c', ys. split; [reflexivity|]. split; auto. lia.
    - eexists _, s', c', ys. split; [reflexivity|]. split; auto.
  Qed.
End Count.

(** The number of (recursive) calls of [HttpChunkedBody::read] in one read; the same recursion as [chunked_read]. *)
Fixpoint chunked_calls {T} (bld : build) (rd : reader T) (fuel : nat) (n : nat) (c : cbody T) : nat :=
  match fuel with
  | O => 1
  | S f =>
      match c with
      | CChunk lim t =>
          match take_read rd n (lim, t) with
          | (Ok [], (_, t1)) =>
              match read_exact bld rd fuel 2 [] t1 with
              | (Ok _, t2) => S (chunked_calls bld rd f n (CStream t2))
              | _ => 1
              end
          | _ => 1
          end
      | CStream t =>
          match chunk_new bld rd fuel t with
          | (Ok (Some size), t1) => S (chunked_calls bld rd f n (CChunk size t1))
          | _ => 1
          end
      | CDone t => 1
      end
  end.

Section Chunked.
  Context {St : Type} (bld : build) (rd : reader St) (R : St -> list item -> Prop) (HR : reader_pos rd R).

  Definition bounded (b : nat) (c : nat) (xs : list item) (o : res bytes * cbody (St * nat)) : Prop :=
    fst o <> Fuel /\ fst o <> Panic /\ snd (cb_reader (snd o)) <= c + length xs + b.

  Lemma chunk_bound fuel n lim s c xs : 0 < n -> lim <> 0%N -> R s xs -> length xs < fuel ->
    bounded 2 c xs (chunked_read bld (counted rd) fuel n (CChunk lim (s, c)))
    /\ chunked_calls bld (counted rd) fuel n (CChunk lim (s, c)) = 1.
  Proof.
    intros Hn Hl Hs Hf. destruct fuel as [|f]; [lia|]. cbn [chunked_read chunked_calls]. unfold take_read.
    replace (lim =? 0)%N with false by (symmetry; now apply N.eqb_neq). set (m := N.to_nat _).
    assert (Hm : 0 < m) by (unfold m; lia).
    assert (Ec : forall k u v, rd k u = v -> forall c, counted rd k (u, c) = (fst v, (snd v, S c))).
    { intros k u [v1 v2] E c0. unfold counted. cbn [fst snd]. now rewrite E. }
    pose proof (HR m s xs Hm Hs) as H. destruct xs as [|[b|e] xs'].
    - destruct H as (s' & H0 & H). rewrite !(Ec _ _ _ H0). cbn [fst snd length]. change (N.of_nat 0) with 0%N.
      replace (0 <=? lim)%N with true by (symmetry; apply N.leb_le; lia).
      cbn [read_exact]. destruct (HR 2 s' [] ltac:(lia) H) as (s2 & H2 & _). rewrite !(Ec _ _ _ H2).
      unfold bounded. cbn [fst snd cb_reader length]. repeat split; try easy. lia.
    - destruct H as (got & ys & s' & H0 & H1 & H2 & H3 & H4). rewrite !(Ec _ _ _ H0). cbn [fst snd].
      destruct got as [|g got]; [easy|].
      replace (N.of_nat (length (g :: got)) <=? lim)%N with true by (symmetry; apply N.leb_le; unfold m in H2; lia).
      unfold bounded. cbn [fst snd cb_reader length]. repeat split; try easy. lia.
    - destruct H as (s' & H0 & H). rewrite !(Ec _ _ _ H0). unfold bounded. cbn [fst snd cb_reader]. repeat split; try easy. lia.
  Qed.

  Lemma stream_bound fuel n s c xs : 0 < n -> R s xs -> length xs < fuel ->
    bounded 2 c xs (chunked_read bld (counted rd) fuel n (CStream (s, c)))
    /\ chunked_calls bld (counted rd) fuel n (CStream (s, c)) <= 2.
  Proof.
    intros Hn Hs Hf. destruct fuel as [|f]; [lia|]. cbn [chunked_read chunked_calls].
    pose proof (chunk_new_items bld (counted rd) _ xs (s, c) (S f) (counted_pos rd R HR) Hs Hf) as (u & Eu & _).
    destruct (chunk_new_count bld rd R HR (S f) s c xs Hs Hf) as (r & s' & c' & ys & E & H1 & H2).
    rewrite E in Eu. rewrite E. destruct r as [[size|]|e| |]; try easy.
    - injection Eu as Hc _.
      assert (Hsz : size <> 0%N) by (destruct (chunk_head bld xs) eqn:Eh; cbn in Hc; subst; eapply chunk_head_nonzero; eauto).
      destruct (chunk_bound f n size s' c' ys Hn Hsz H1 ltac:(lia)) as [(B1 & B2 & B3) B4]. rewrite B4.
      split; [|lia]. repeat split; auto. lia.
    - unfold bounded. cbn. split; [|lia]. repeat split; try easy. lia.
    - unfold bounded. cbn. split; [|lia]. repeat split; try easy. lia.
  Qed.

  Lemma chunked_bound fuel n b xs c : 0 < n -> snd (cb_reader b) = c -> R (fst (cb_reader b)) xs -> length xs < fuel -> 1 < fuel ->
    bounded 2 c xs (chunked_read bld (counted rd) fuel n b)
    /\ chunked_calls bld (counted rd) fuel n b <= 3.
  Proof.
    intros Hn Hc Hs Hf Hf2. destruct b as [[s c0]|lim [s c0]|[s c0]]; cbn [cb_reader fst snd] in *; subst c0.
    - destruct (stream_bound fuel n s c xs Hn Hs Hf) as [H1 H2]. split; [auto|lia].
    - destruct (N.eq_dec lim 0) as [->|Hl].
      + destruct fuel as [|f]; [lia|]. cbn [chunked_read chunked_calls]. unfold take_read. change (0 =? 0)%N with true. cbn iota.
        destruct (read_exact_count bld rd R HR (S f) 2 [] s c xs Hs Hf) as (r & s' & c' & ys & E & H1 & H2). rewrite E.
        destruct r as [x|e| |]; try easy.
        * destruct (stream_bound f n s' c' ys Hn H1 ltac:(lia)) as [(B1 & B2 & B3) B4].
          split; [|lia]. repeat split; auto. lia.
        * unfold bounded. cbn. split; [|lia]. repeat split; try easy. lia.
      + destruct (chunk_bound fuel n lim s c xs Hn Hl Hs Hf) as [H1 H2]. split; [auto|lia].
    - destruct fuel as [|f]; [lia|]. unfold bounded. cbn. split; [|lia]. repeat split; try easy. lia.
  Qed.
End Chunked.

Lemma calls_sim {S1 S2} bld (Q : S1 -> S2 -> Prop) rd1 rd2 : sim Q rd1 rd2 ->
  forall fuel n c1 c2, cb_sim Q c1 c2 -> chunked_calls bld rd1 fuel n c1 = chunked_calls bld rd2 fuel n c2.
Proof.
  intros HQ. induction fuel as [|f IH]; intros n c1 c2 H; cbn [chunked_calls]; [easy|].
  destruct c1 as [a|l a|a], c2 as [b|m b|b]; cbn in H; try easy.
  - destruct (outs_cases _ _ _ (chunk_new_sim bld Q rd1 rd2 HQ (S f) a b H)) as (r & t1 & t2 & -> & -> & Ht).
    destruct r as [[k|]|e| |]; auto. f_equal. apply IH. now split.
  - destruct H as [<- H]. assert (Hp : (fun a b => fst a = fst b /\ Q (snd a) (snd b)) (l, a) (l, b)) by now split.
    destruct (outs_cases _ _ _ (take_sim Q rd1 rd2 HQ n _ _ Hp)) as (r & [l1 t1] & [l2 t2] & -> & -> & [H1 H2]). cbn [fst snd] in *. subst l2.
    destruct r as [[|x got]|e| |]; auto.
    destruct (outs_cases _ _ _ (read_exact_sim bld Q rd1 rd2 HQ (S f) 2 [] t1 t2 H2)) as (r & u1 & u2 & -> & -> & Hu).
    destruct r; auto.
Qed.

(** A measure of the reader's state that grows by at most one per read. *)
Definition one_step {T} (rd : reader T) (m : T -> nat) : Prop := forall n t, m (snd (rd n t)) <= m t + 1.
Definition within {T} (m : T -> nat) (m0 : nat) (t : T) (tc : T * nat) : Prop := t = fst tc /\ m t <= m0 + snd tc.
Lemma measured {T} (rd : reader T) m m0 : one_step rd m -> sim (within m m0) rd (counted rd).
Proof.
  intros Hm n t [t2 c] [H1 H2]. cbn [fst snd] in *. subst t2. unfold counted. cbn [fst snd]. specialize (Hm n t).
  destruct (rd n t) as [r t']. cbn [fst snd] in *. repeat split; cbn [fst snd]; lia.
Qed.
Lemma counted_one {St} (rd : reader St) : one_step (counted rd) snd.
Proof. intros n [s c]. unfold counted. cbn [fst snd]. destruct (rd n s). cbn. lia. Qed.
Lemma bufr_one {St} bld cap (rd : reader St) m : one_step rd m -> one_step (bufr_read bld cap rd) (fun t => m (br_inner t)).
Proof.
  intros Hm n [s buf]. unfold bufr_read. cbn [br_inner br_buf]. destruct bld.
  - destruct buf as [|b buf]; [|cbn; lia]. destruct (cap <=? n).
    + specialize (Hm n s). destruct (rd n s). exact Hm.
    + specialize (Hm cap s). destruct (rd cap s) as [[?|?| |] ?]; exact Hm.
  - specialize (Hm n s). destruct (rd n s). exact Hm.
Qed.

Section Measure.
  Context {T : Type} (bld : build) (rd : reader T) (m : T -> nat) (Hm : one_step rd m).

  Lemma start m0 t : m t = m0 -> within m m0 t (t, 0).
  Proof. intros <-. split; cbn; [easy|lia]. Qed.
  Lemma request_measure fuel t xs : delivers rd t xs -> length xs < fuel ->
    fst (request_deserialize bld rd fuel t) <> Fuel /\ m (snd (request_deserialize bld rd fuel t)) <= m t + length xs + 1.
  Proof.
    intros Hd Hf. split.
    - destruct (request_delivers bld rd t xs fuel Hd Hf) as (t' & _ & ->). pose proof (req_not_fuel bld xs).
      cbn [fst]. now destruct (fst (req_of bld xs)).
    - unfold request_deserialize. destruct Hd as (R & HR & Ht). pose proof (request_count bld rd R HR fuel t xs Ht Hf) as Hc.
      pose proof (request_head_alike (within m (m t)) (crlf_next bld rd fuel) (crlf_next bld (counted rd) fuel)
        (crlf_sim bld _ rd (counted rd) (measured rd m (m t) Hm) fuel []) fuel t (t, 0) (start _ t eq_refl)) as Hs.
      apply outs_cases in Hs as (r & s1 & s2 & H1 & H2 & [H3 H4]). rewrite H1. rewrite H2 in Hc. cbn [snd] in Hc.
      destruct r; cbn [sbind snd]; lia.
  Qed.
  Lemma response_measure fuel t xs : delivers rd t xs -> length xs < fuel ->
    fst (response_deserialize bld rd fuel t) <> Fuel /\ m (snd (response_deserialize bld rd fuel t)) <= m t + length xs + 1.
  Proof.
    intros Hd Hf. split.
    - destruct (response_delivers bld rd t xs fuel Hd Hf) as (t' & _ & ->). pose proof (resp_not_fuel bld xs).
      cbn [fst]. now destruct (fst (resp_of bld xs)).
    - unfold response_deserialize. destruct Hd as (R & HR & Ht). pose proof (response_count bld rd R HR fuel t xs Ht Hf) as Hc.
      pose proof (response_head_alike (within m (m t)) (crlf_next bld rd fuel) (crlf_next bld (counted rd) fuel)
        (crlf_sim bld _ rd (counted rd) (measured rd m (m t) Hm) fuel []) fuel t (t, 0) (start _ t eq_refl)) as Hs.
      apply outs_cases in Hs as (r & s1 & s2 & H1 & H2 & [H3 H4]). rewrite H1. rewrite H2 in Hc. cbn [snd] in Hc.
      destruct r; cbn [sbind snd]; lia.
  Qed.

  Definition cb_start (c : cbody T) : cbody (T * nat) :=
    match c with CStream t => CStream (t, 0) | CChunk l t => CChunk l (t, 0) | CDone t => CDone (t, 0) end.
  Lemma cb_start_ok c : cb_sim (within m (m (cb_reader c))) c (cb_start c).
  Proof. destruct c; cbn; try split; auto; now apply start. Qed.
  Lemma chunked_measure fuel n c xs : 0 < n -> delivers rd (cb_reader c) xs -> length xs + 1 < fuel ->
    fst (chunked_read bld rd fuel n c) <> Fuel /\ fst (chunked_read bld rd fuel n c) <> Panic
    /\ m (cb_reader (snd (chunked_read bld rd fuel n c))) <= m (cb_reader c) + length xs + 2
    /\ chunked_calls bld rd fuel n c <= 3.
  Proof.
    intros Hn (R & HR & Ht) Hf.
    pose proof (chunked_bound bld rd R HR fuel n (cb_start c) xs 0 Hn) as H.
    destruct H as [(H1 & H2 & H3) H4]; [now destruct c|now destruct c|lia|lia|].
    pose proof (measured rd m (m (cb_reader c)) Hm) as HQ.
    pose proof (chunked_sim bld _ rd (counted rd) HQ fuel n c (cb_start c) (cb_start_ok c)) as Hs.
    pose proof (calls_sim bld _ rd (counted rd) HQ fuel n c (cb_start c) (cb_start_ok c)) as Hcs.
    apply outs_cases in Hs as (r & s1 & s2 & E1 & E2 & Hs). rewrite E1. rewrite E2 in *. cbn [fst snd] in *.
    apply cb_sim_reader in Hs as [_ Hs]. repeat split; auto; lia.
  Qed.
  Lemma body_measure fuel n b xs : 0 < n -> delivers rd (body_reader b) xs -> length xs + 1 < fuel ->
    fst (body_read bld rd fuel n b) <> Fuel /\ fst (body_read bld rd fuel n b) <> Panic
    /\ m (body_reader (snd (body_read bld rd fuel n b))) <= m (body_reader b) + length xs + 2.
  Proof.
    intros Hn Hd Hf. assert (Hr : forall k t, 0 < k -> delivers rd t xs -> fst (rd k t) <> Fuel /\ fst (rd k t) <> Panic
      /\ (forall got, fst (rd k t) = Ok got -> length got <= k)).
    { intros k t Hk (R & HR & Ht). specialize (HR k t xs Hk Ht). destruct xs as [|[b0|e] xs'].
      - destruct HR as (? & -> & _). cbn. repeat split; try easy. intros got [= <-]. cbn. lia.
      - destruct HR as (got & ? & ? & -> & ? & ? & _). cbn. repeat split; try easy. now intros ? [= <-].
      - destruct HR as (? & -> & _). cbn. repeat split; easy. }
    destruct b as [l c|l t|t]; cbn [body_reader] in Hd; cbn [body_read body_reader].
    - destruct (chunked_measure fuel n c xs Hn Hd Hf) as (H1 & H2 & H3 & _).
      destruct (chunked_read bld rd fuel n c) as [r c']. auto.
    - unfold take_read. destruct (l =? 0)%N eqn:El. { cbn. repeat split; try easy. lia. }
      apply N.eqb_neq in El. set (k := N.to_nat _). assert (Hk : 0 < k) by (unfold k; lia).
      destruct (Hr k t Hk Hd) as (H1 & H2 & H3). specialize (Hm k t). destruct (rd k t) as [[got|e| |] t']; cbn [fst snd] in *; try easy.
      + specialize (H3 got eq_refl). replace (_ <=? _)%N with true by (symmetry; apply N.leb_le; unfold k in H3; lia).
        cbn. repeat split; try easy. lia.
      + cbn. repeat split; try easy. lia.
    - destruct (Hr n t Hn Hd) as (H1 & H2 & _). specialize (Hm n t). destruct (rd n t) as [r t']. cbn in *. repeat split; auto. lia.
  Qed.
End Measure.
