(** Property C58 for [client::get] and [client::put]. *)
From Verif Require Import Base Utf8 Case Num Io Parser Types Message Outgoing Client Server Transport.
From Verif Require Import Lemmas ReadLemmas NumLemmas ChunkSpec ChunkLemmas BodyLemmas WriteLemmas ParserLemmas CaseLemmas TypesLemmas HeadLemmas
  BlockLemmas MsgLemmas SimLemmas OutLemmas KeepLemmas ErrLemmas PBody PIo PParse PHead POut PReuse PServer PEnd PErr
  NetLemmas Net NetSock NetStep NetFav NetFacts PNet.

(** ** Copying a body is a sequence of writes *)
Section Copy.
  Context {S Bd : Type} (bld : build) (cap : nat) (wt : writer S) (rdb : reader Bd) (cbuf fuel : nat).
  (** The stream reports no error that a write would retry. *)
  Definition no_retry : Prop := forall d s e s', wr wt d s = (Err e, s') -> is_retry bld e = false.
  Context (Hn : no_retry).

  Lemma write_once_retry d o e o' : outgoing_write bld cap wt fuel d o = (Err e, o') -> is_retry bld e = false.
  Proof using Hn.
    intros E.
    assert (K : kept (fun _ (s : S) => (@Ok bytes [], s)) wt (fun _ => True)) by now split.
    pose proof (outgoing_write_errs (fun e => is_retry bld e = false) bld cap _ wt (fun _ => True) K) as H.
    apply (H ltac:(intros d' s _ e' E'; destruct (wr wt d' s) as [x s'] eqn:Ew; cbn in E'; subst; eapply Hn; eauto)
      ltac:(now destruct bld) ltac:(now destruct bld) fuel d o I e). now rewrite E.
  Qed.
  Lemma write_once_ok d o k o' : outgoing_write bld cap wt fuel d o = (Ok k, o') -> k = length d.
  Proof.
    destruct o as [s|b]; cbn [outgoing_write]; [discriminate|]. unfold outbody_write. destruct d as [|x d]; [now intros [= <- _]|].
    destruct (bufw_pieces bld cap wt fuel _ b) as [[u|e| |] b1]; cbn [sbind]; try discriminate.
    destruct (bufw_write_all bld cap wt fuel _ b1) as [[u1|e| |] b2]; cbn [sbind]; try discriminate.
    destruct (bufw_pieces bld cap wt fuel _ b2) as [[u2|e| |] b3]; cbn [sbind]; try discriminate. now intros [= <- _].
  Qed.
  Lemma write_all_once d o : d <> [] -> 2 <= fuel -> write_all bld (outgoing_writer bld cap wt fuel) fuel d o
    = (let (x, o') := outgoing_write bld cap wt fuel d o in (do _ <- x; Ok tt, o')).
  Proof using Hn.
    intros Hd Hf. destruct fuel as [|[|f]] eqn:Ef; try lia. rewrite <- Ef in *. rewrite Ef at 2. destruct d as [|x d]; [easy|]. cbn [write_all].
    change (wr (outgoing_writer bld cap wt fuel) (x :: d) o) with (outgoing_write bld cap wt fuel (x :: d) o).
    destruct (outgoing_write bld cap wt fuel (x :: d) o) as [[k|e| |] o'] eqn:E; auto.
    - apply write_once_ok in E. subst k. cbn [length]. rewrite Nat.leb_refl.
      change (Datatypes.S (length d)) with (length (x :: d)). now rewrite skipn_all.
    - now rewrite (write_once_retry _ _ _ _ E).
  Qed.

  (** What a copy writes, given what it reads from the body. *)
  Lemma copy_with_ops (Hf : 2 <= fuel) (Hb : 0 < cbuf) R (HR : reader_pos rdb R) : forall k body ys data,
    R body ys -> noisy bld data ys -> length ys < k ->
    exists pieces, concat pieces = data /\ Forall (fun d => d <> [] /\ length d <= cbuf) pieces
      /\ forall n o, exists body', copy_with bld rdb (write_all bld (outgoing_writer bld cap wt fuel) fuel) cbuf k n body o
        = (let (x, o') := run_ops bld cap wt fuel (map Write pieces) o in
           (do _ <- x; Ok (n + N.of_nat (length data))%N, (body' x, o'))).
  Proof using Hn.
    induction k as [|k IH]; intros body ys data Hs Hno Hl; [lia|]. cbn [copy_with].
    pose proof (HR cbuf body ys Hb Hs) as Hr. destruct ys as [|[c|e] ys].
    - destruct Hr as (body1 & E & _). rewrite E. inversion Hno; subst. exists []. repeat split; auto. intros n o. exists (fun _ => body1).
      cbn. now rewrite N.add_0_r.
    - destruct Hr as (dt & xs & body1 & E & Hg & Hgl & Ex & Hs1).
      assert (Hd : exists rest, data = dt ++ rest /\ noisy bld rest xs).
      { rewrite Ex in Hno. clear - Hno. revert data Hno. induction dt as [|g dt IHg]; intros data Hno; [exists data; auto|].
        cbn in Hno. inversion Hno as [|? d' ? H3|]; subst. destruct (IHg _ H3) as (rest & -> & Hr). exists rest. auto. }
      destruct Hd as (rest & -> & Hrest).
      assert (Hl1 : length xs < k). { apply (f_equal (@length item)) in Ex. cbn in Ex. rewrite app_length, map_length in Ex. destruct dt; [easy|]. cbn in Ex, Hl. lia. }
      destruct (IH body1 xs rest Hs1 Hrest Hl1) as (pieces & Hc & Hfa & Hp). exists (dt :: pieces). split; [cbn; now rewrite Hc|]. split; [constructor; auto|].
      intros n o. rewrite E. destruct dt as [|g dt'] eqn:Eg; [easy|]. rewrite <- Eg in *. rewrite write_all_once by (subst; easy).
      cbn [map run_ops]. destruct (outgoing_write bld cap wt fuel dt o) as [[j|e| |] o'] eqn:Ew; cbn [rbind sbind].
      + destruct (Hp (n + N.of_nat (length dt))%N o') as (body' & Hp'). exists body'. rewrite Hp'. destruct (run_ops bld cap wt fuel (map Write pieces) o') as [x o''].
        rewrite app_length, Nat2N.inj_add, N.add_assoc. now destruct x.
      + exists (fun _ => body1). reflexivity.
      + exists (fun _ => body1). reflexivity.
      + exists (fun _ => body1). reflexivity.
    - destruct Hr as (body1 & E & Hs1). inversion Hno as [| |? ? ? H1 H3]; subst. cbn in Hl.
      destruct (IH body1 ys data Hs1 H3 ltac:(lia)) as (pieces & Hc & Hfa & Hp). exists pieces. split; [auto|]. split; [auto|].
      intros n o. rewrite E, H1. apply Hp.
  Qed.
End Copy.

(** ** The client of the network model *)
(** The program with its result changed. *)
CoFixpoint pmap {A C} (f : A -> C) (p : prog A) : prog C :=
  match p with
  | Ret a => Ret (f a)
  | ReadBody n k => ReadBody n (fun o => pmap f (k o))
  | BodyLength k => BodyLength (fun o => pmap f (k o))
  end.
Lemma pmap_eq {A C} (f : A -> C) p : pmap f p = match p with
  | Ret a => Ret (f a) | ReadBody n k => ReadBody n (fun o => pmap f (k o)) | BodyLength k => BodyLength (fun o => pmap f (k o)) end.
Proof. transitivity (match pmap f p with Ret a => Ret a | ReadBody n k => ReadBody n k | BodyLength k => BodyLength k end); [now destruct (pmap f p)|now destruct p]. Qed.
Lemma run_prog_pmap {A C T} (f : A -> C) bld (rdt : reader T) bf : forall fuel p b,
  run_prog bld rdt bf fuel (pmap f p) b = (let (x, b') := run_prog bld rdt bf fuel p b in (do a <- x; Ok (f a), b')).
Proof.
  induction fuel as [|fuel IH]; intros p b; [easy|]. rewrite pmap_eq. destruct p as [a|n k|k]; cbn [run_prog]; auto.
  destruct (body_read bld rdt bf n b) as [[d|e| |] b']; auto.
Qed.
Lemma pmap_reads {A C} (f : A -> C) : forall p, reads_some p -> reads_some (pmap f p).
Proof. cofix IH. intros p Hp. rewrite pmap_eq. destruct Hp as [a|n k Hn Hk|k Hk]; constructor; auto. Qed.
Lemma pmap_stops {A C} (f : A -> C) len n p d : stops len n p d -> stops len n (pmap f p) d.
Proof. induction 1; rewrite pmap_eq; constructor; auto. Qed.
Lemma pmap_runs {A C} (f : A -> C) len p d y : runs len (pmap f p) d y -> exists x, y = f x /\ runs len p d x.
Proof.
  intros H. remember (pmap f p) as p' eqn:Ep. revert p Ep. induction H; intros p Ep; rewrite pmap_eq in Ep; destruct p; try discriminate; injection Ep; intros; subst.
  - eexists; split; eauto. constructor.
  - destruct (IHruns _ eq_refl) as (x & -> & Hx). exists x. split; auto. now constructor.
  - destruct (IHruns _ eq_refl) as (x & -> & Hx). exists x. split; auto. now constructor.
  - destruct (IHruns _ eq_refl) as (x & -> & Hx). exists x. split; auto. now constructor.
Qed.

(** What the caller does with the response: the body counts only with status 200. *)
Definition only_ok {A} (p : prog A) (st : status) (_ : headers) : prog (res A) :=
  match st with OK => pmap Ok p | _ => Ret (Err (UnexpectedStatus st)) end.

Lemma run_ops_copy {S Bd} bld cap rd (wt : writer S) cbuf (rdb : reader Bd) fuel r body ys data {A} (p : prog A) :
  no_retry bld wt -> 2 <= fuel -> 0 < cbuf -> delivers rdb body ys -> noisy bld data ys -> length ys < fuel ->
  exists pieces, concat pieces = data /\ Forall (fun d => d <> [] /\ length d <= cbuf) pieces
  /\ forall s, request_run bld cap rd wt cbuf rdb fuel r body p s
    = (let (x, s') := client_run bld cap rd wt fuel r (map Write pieces) (only_ok p) s in (do y <- x; snd y, s')).
Proof.
  intros Hn Hf Hb (R & HR & Hs) Hno Hl.
  destruct (copy_with_ops bld cap wt rdb cbuf fuel Hn Hf Hb R HR fuel body ys data Hs Hno Hl) as (pieces & Hc & Hfa & Hp).
  exists pieces. split; [auto|]. split; [auto|]. intros s. unfold request_run, exchange, client_run, client_send, copy.
  destruct (send bld cap wt fuel r s) as [[o|e| |] s0]; cbn [sbind]; auto.
  destruct (Hp 0%N o) as (body' & ->). destruct (run_ops bld cap wt fuel (map Write pieces) o) as [[u|e| |] ob]; cbn [rbind sbind]; auto.
  unfold finish, client_recv. destruct (finish_send bld cap wt fuel ob) as [[u1|e| |] s1]; cbn [sbind]; auto.
  destruct (response_deserialize bld rd fuel s1) as [[resp|e| |] s2] eqn:Er; cbn [sbind]; auto.
  assert (Hs2 : s2 = br_inner (body_reader (rs_body resp))).
  { unfold response_deserialize in Er. destruct (response_head (crlf_next bld rd fuel) fuel s1) as [[h|e| |] s3]; cbn [sbind] in Er; try discriminate.
    injection Er as <- <-. cbn. unfold body_new. destruct (match sh_encoding h with Some e => beqb e (bs "chunked") | None => false end); [easy|]. now destruct (sh_length h). }
  unfold only_ok. destruct fuel as [|f]; [lia|].
  destruct (rs_status resp) eqn:Est; try (cbn; now rewrite Hs2).
  rewrite run_prog_pmap. destruct (run_prog bld (bufr_read bld cap rd) (Datatypes.S f) (Datatypes.S f) p (rs_body resp)) as [[a|e| |] b']; reflexivity.
Qed.

(** The network only sees what a program does with its socket. *)
Section Same.
  Context {A1 A1' A2 : Type} (p1 : sock -> res A1 * sock) (p1' : sock -> res A1' * sock) (p2 : sock -> res A2 * sock) (room1 room2 : nat).
  Context (Hsnd : forall s, snd (p1 s) = snd (p1' s)).
  Lemma side_same c : side1 p1 c = side1 p1' c.
  Proof using Hsnd. apply Hsnd. Qed.
  Lemma queue1_same c : queue1 p1 p2 c = queue1 p1' p2 c.
  Proof using Hsnd. unfold queue1. now rewrite side_same. Qed.
  Lemma queue2_same c : queue2 p1 p2 c = queue2 p1' p2 c.
  Proof using Hsnd. unfold queue2. now rewrite side_same. Qed.
  Lemma step_same c c' : step p1 p2 room1 room2 c c' -> step p1' p2 room1 room2 c c'.
  Proof using Hsnd. destruct 1 as [c f Ha|c f Ha]; [apply step1|apply step2]; now rewrite <- side_same, <- queue1_same, <- queue2_same. Qed.
  Lemma reach_same n c : reach p1 p2 room1 room2 n c -> reach p1' p2 room1 room2 n c.
  Proof using Hsnd. induction 1; econstructor; eauto using step_same. Qed.
End Same.

(** ** The theorem *)
(** A body that is copied is written in non-empty pieces that fit into the buffer of the copy. *)
Definition cut_from (data : bytes) (cbuf : nat) (ops : list op) : Prop :=
  exists pieces, ops = map Write pieces /\ concat pieces = data /\ Forall (fun d => d <> [] /\ length d <= cbuf) pieces.

Section Put.
  Context {A Bd : Type} (bld1 : build) (cap1 fuel1 cbuf : nat) (rdb : reader Bd) (body : Bd) (r : request unit) (p : prog A).
  Context {H : Type} (bld2 : build) (cap2 : nat) (etext : error -> bytes) (hd : handler H) (bufsz fuel2 : nat) (hs : H).
  Context (room1 room2 : nat) (q : dyn_response) (hs' : H) (ys : list item) (out : bytes) (bys : list item) (data : bytes).

  Notation client := (request_run bld1 cap1 sock_read sock_writer cbuf rdb fuel1 r body p).
  Notation server := (server_run bld2 cap2 sock_read sock_writer etext hd bufsz fuel2 hs).

  Context (Hb : 0 < cbuf) (Hbody : delivers rdb body bys) (Hdata : noisy bld1 data bys) (Hfb : length bys < fuel1).
  Context (G : forall ops, cut_from data cbuf ops ->
    good_exchange cap1 fuel1 r ops (only_ok p) bld2 cap2 hd bufsz fuel2 hs room1 room2 q hs' ys out).

  (** C58 for a client that copies the body of the request from a reader and wants a response with status 200, as
      [client::get] and [client::put] do: no deadlock, every run is finite and ends, and then the handler has been
      called once and the client has the result of its program on the body of the answer, or an error that names the
      status. *)
  Theorem C58_put : exists ops, cut_from data cbuf ops /\ forall n c, reach client server room1 room2 n c ->
    ((ended (side1 client c) /\ ended (side2 server c)) \/ exists c', step client server room1 room2 c c')
    /\ n <= 2 * length (whole_request r ops) + 2 * length (response_wire q out) + 2
    /\ (exists m c', reach client server room1 room2 m c' /\ n <= m /\ ended (side1 client c') /\ ended (side2 server c'))
    /\ (ended (side1 client c) -> ended (side2 server c) ->
        fst (server (fresh (snd c))) = Ok (Ok tt, [Called (rq_method r) (rq_uri r)], hs')
        /\ k_sent (side1 client c) = whole_request r ops /\ k_sent (side2 server c) = response_wire q out
        /\ ((exists x len, to_code (rs_status q) = 200%N /\ fst (client (fresh (fst c))) = Ok x /\ plain_length (rs_headers q) len /\ runs len p out x)
            \/ (exists st, rs_status q <> OK /\ fst (client (fresh (fst c))) = Err (UnexpectedStatus st)
                /\ to_code st = to_code (rs_status q)))).
  Proof using Hb Hbody Hdata Hfb G.
    assert (Hn : no_retry bld1 sock_writer).
    { intros d s e s' E. cbn in E. unfold sock_write in E. destruct (k_stop s); [discriminate|]. destruct d; [discriminate|]. now destruct (k_writes s). }
    assert (Hf : 2 <= fuel1).
    { assert (C : exists ops, cut_from data cbuf ops).
      { exists (map Write (map (fun b => [b]) data)). exists (map (fun b => [b]) data). split; [auto|]. split.
        - clear. induction data; cbn; congruence.
        - apply Forall_forall. intros d Hd. apply in_map_iff in Hd as (b & <- & _). split; [easy|exact Hb]. }
      destruct C as (ops & C). pose proof (ge_fuel1 _ _ _ _ _ _ _ _ _ _ _ _ _ _ _ _ _ (G ops C)). lia. }
    destruct (run_ops_copy bld1 cap1 sock_read sock_writer cbuf rdb fuel1 r body bys data p Hn Hf Hb Hbody Hdata Hfb) as (pieces & Hc & Hfa & E).
    set (ops := map Write pieces) in *. assert (C : cut_from data cbuf ops) by (exists pieces; auto).
    exists ops. split; [exact C|]. specialize (G ops C).
    set (client' := client_run bld1 cap1 sock_read sock_writer fuel1 r ops (only_ok p)) in *.
    assert (Hsnd : forall s, snd (client s) = snd (client' s)) by (intros s; rewrite E; now destruct (client' s)).
    assert (Hsnd' : forall s, snd (client' s) = snd (client s)) by (intros; now rewrite Hsnd).
    intros n c HR. pose proof (reach_same _ _ server room1 room2 Hsnd _ _ HR) as HR'.
    rewrite (side_same _ _ Hsnd). split; [|split; [|split]].
    - destruct (C58_progress _ _ _ _ _ _ _ _ etext _ _ _ _ _ _ _ _ _ _ G n c HR') as [He|(c' & Hc')]; [now left|right].
      exists c'. eapply step_same; [|exact Hc']. exact Hsnd'.
    - exact (C58_bounded _ _ _ _ _ _ _ _ etext _ _ _ _ _ _ _ _ _ _ G n c HR').
    - destruct (C58_ends _ _ _ _ _ _ _ _ etext _ _ _ _ _ _ _ _ _ _ G n c HR') as (m & c' & Hr & Hm & He1 & He2).
      exists m, c'. rewrite (side_same _ _ Hsnd). repeat split; auto. eapply reach_same; [|exact Hr]. exact Hsnd'.
    - intros He1 He2. destruct (C58_result _ _ _ _ _ _ _ _ etext _ _ _ _ _ _ _ _ _ _ G n c HR' He1 He2) as (R1 & R2 & R3 & st & x & len & R4 & R5 & R6 & R7 & R8).
      split; [exact R1|]. split; [exact R2|]. split; [exact R3|]. rewrite E. fold client' in R4. destruct (client' (fresh (fst c))) as [y s']. cbn [fst] in *. subst y. cbn [rbind snd].
      unfold only_ok in R8. assert (Dec : {st = OK} + {st <> OK}) by (destruct st; (now left) || (now right)). destruct Dec as [->|Hst].
      + left. destruct (pmap_runs _ _ _ _ _ R8) as (a & -> & Ha). exists a, len. auto.
      + right. exists st. split; [|split; auto].
        * intros Hq. apply Hst. rewrite R6; auto. intros code. now rewrite Hq.
        * assert (K : only_ok p st [] = Ret (Err (UnexpectedStatus st))) by now destruct st. unfold only_ok in K. rewrite K in R8. now inversion R8.
  Qed.
End Put.

(** ** Example *)
(** The exchange of C58 as a [put], with a buffer of 4 bytes for the copy: the body comes from a byte slice. *)
Definition C58_data : bytes := bs "hello, world, how are you now?".
Definition C58_put_client (bld : build) :=
  request_run bld 16 sock_read sock_writer 4 slice_read 400 C58_req C58_data (C58_reader OK []).

Lemma cut_sizes ops data : cut_from data 4 ops -> Forall (fun d => 1 <= length d <= 4) (written ops)
  /\ concat (written ops) = data /\ length (flat_map chunk_of (written ops)) <= 6 * length data.
Proof.
  intros (pieces & -> & <- & Hp). assert (Ew : written (map Write pieces) = pieces).
  { clear. induction pieces as [|d ps IH]; [auto|]. cbn. f_equal. exact IH. }
  rewrite Ew. assert (Hb : Forall (fun d => 1 <= length d <= 4) pieces).
  { eapply Forall_impl; [|exact Hp]. intros d [Hd Hl]. destruct d; [easy|]. cbn in *. lia. }
  split; [exact Hb|]. split; [auto|]. clear - Hb. induction Hb as [|d ps Hd Hps IH]; cbn; [lia|]. rewrite !app_length.
  assert (length (chunk_of d) <= 6 * length d); [|lia].
  do 5 (destruct d as [|? d]; [cbn in Hd |- *; try lia|]); cbn in Hd; lia.
Qed.

Lemma C58_put_good bld2 room1 room2 : 2 <= room1 -> 1 <= room2 -> forall ops, cut_from C58_data 4 ops ->
  good_exchange 16 400 C58_req ops (only_ok (C58_reader OK [])) bld2 8 echo 4 400 [] room1 room2
    (from_string OK C58_data) [C58_data] (map B C58_data) C58_data.
Proof.
  intros Hr1 Hr2 ops C. destruct (cut_sizes _ _ C) as (Hs & Hc & Hl).
  destruct (C58_echo_good bld2 room1 room2 Hr1 Hr2). split; auto.
  - eapply Forall_impl; [|exact Hs]. cbn. intros d Hd. unfold u64_max. lia.
  - destruct ge_handles as (y & Hy & [(f & Hf & _)|(f & Hf & Ht & Hst & Hrun & Hend)]); [discriminate|]. exists y. split; auto. right. exists f.
    rewrite Hc. split; [auto|]. split; [auto|]. split; [exact Hst|]. split; [exact Hrun|].
    left. injection Hf as <-. split; auto. cbn [rq_uri C58_req].
    apply (slurp_to_end 2 (fun d => Ret (Ok (inl (from_string OK d)) : hresult, [d])) (fun _ => Ret (Ok (inr (from_string BadRequest (bs "?"))) : hresult, @nil bytes)));
      auto; intros; constructor.
  - intros st h. unfold only_ok. destruct st; try (now constructor). apply pmap_reads, ge_reads.
  - intros len st Hst. unfold only_ok. destruct st; try (now constructor). apply pmap_stops. now apply (ge_stops len OK).
  - destruct ge_fuel1 as (F1 & F2 & F3 & F4). split; [auto|]. split; [auto|]. split; [|auto].
    eapply Forall_impl; [|exact Hs]. cbn. intros d Hd. do 5 (destruct d as [|? d]; [cbn in Hd |- *; try lia|]); cbn in Hd; lia.
  - destruct ge_fuel2 as (F1 & F2 & F3). split; [|auto]. unfold whole_request. cbn [has_body C58_req rq_method]. rewrite !app_length.
    change (length C58_data) with 30 in Hl. set (m := length (concat (request_pieces C58_req))). assert (Hm : m < 100) by (vm_compute; lia). cbn [length bs CRLF]. cbn. lia.
Qed.

Example C58_put_case : exists n c, reach (C58_put_client NoStd) (C58_server Std echo) 2 1 n c
  /\ ended (side1 (C58_put_client NoStd) c) /\ ended (side2 (C58_server Std echo) c)
  /\ fst (C58_put_client NoStd (fresh (fst c))) = Ok C58_data
  /\ fst (C58_server Std echo (fresh (snd c))) = Ok (Ok tt, [Called Put (bs "/up")], [C58_data]).
Proof. apply (greedy_outcome _ _ _ _ 1000). vm_compute. repeat split. Qed.
(** The hypotheses hold. *)
Example C58_put_applies : exists ops, cut_from C58_data 4 ops
  /\ forall n c, reach (request_run NoStd 16 sock_read sock_writer 4 slice_read 400 C58_req C58_data (C58_reader OK []))
       (server_run Std 8 sock_read sock_writer (fun _ => []) echo 4 400 []) 2 1 n c ->
     n <= 2 * length (whole_request C58_req ops) + 2 * length (response_wire (from_string OK C58_data) C58_data) + 2.
Proof.
  destruct (C58_put NoStd 16 400 4 slice_read C58_data C58_req (C58_reader OK []) Std 8 (fun _ => []) echo 4 400 [] 2 1
    (from_string OK C58_data) [C58_data] (map B C58_data) C58_data (map B C58_data) C58_data) as (ops & Hc & H).
  - lia.
  - destruct (C36_slice C58_data) as (R & HR & _ & Hs). exists R. split; [exact HR|exact Hs].
  - generalize C58_data as d. induction d; cbn; constructor; auto.
  - cbn. lia.
  - apply C58_put_good; lia.
  - exists ops. split; [exact Hc|]. intros n c Hr. destruct (H n c Hr) as (_ & Hn & _). exact Hn.
Qed.
Print Assumptions C58_put.
