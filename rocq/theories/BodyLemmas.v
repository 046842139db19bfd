(** Bodies: the wrappers around the readers. *)
From Verif Require Import Base Io Message Transport Lemmas ReadLemmas ChunkLemmas.

(** Embedding one reader's states in another's. *)
Lemma delivers_end_embed {S1 S2} (rd1 : reader S1) (rd2 : reader S2) (f : S1 -> S2) s xs P :
  (forall n s, rd2 n (f s) = (fst (rd1 n s), f (snd (rd1 n s)))) ->
  delivers_end rd1 s xs P -> delivers_end rd2 (f s) xs (fun s2 => exists s1, s2 = f s1 /\ P s1).
Proof.
  intros Hf (R & HR & Hs & HP). exists (fun s2 xs => exists s1, s2 = f s1 /\ R s1 xs). repeat split.
  - intros n s2 ys Hn (s1 & -> & H1). rewrite Hf. specialize (HR n s1 ys Hn H1) as H.
    destruct ys as [|[b|e] ys].
    + destruct H as (s' & E1 & E2). rewrite E1. simpl. eauto.
    + destruct H as (got & xs' & s' & E1 & E2 & E3 & E4 & E5). rewrite E1. simpl. exists got, xs', (f s'). eauto 10.
    + destruct H as (s' & E1 & E2). rewrite E1. simpl. eauto.
  - eauto.
  - intros n s2 Hn (s1 & -> & H1). rewrite Hf. simpl. eauto.
Qed.

Lemma delivers_embed {S1 S2} (rd1 : reader S1) (rd2 : reader S2) (f : S1 -> S2) s xs :
  (forall n s, rd2 n (f s) = (fst (rd1 n s), f (snd (rd1 n s)))) ->
  delivers rd1 s xs -> delivers rd2 (f s) xs.
Proof.
  intros Hf H. apply delivers_delivers_end in H. eapply delivers_end_embed in H; eauto.
  now apply delivers_end_delivers in H.
Qed.

Lemma delivers0_embed {S1 S2} (rd1 : reader S1) (rd2 : reader S2) (f : S1 -> S2) s xs :
  (forall n s, rd2 n (f s) = (fst (rd1 n s), f (snd (rd1 n s)))) ->
  delivers0 rd1 s xs -> delivers0 rd2 (f s) xs.
Proof.
  intros Hf (R & HR & HZ & Hs). exists (fun s2 xs => exists s1, s2 = f s1 /\ R s1 xs). repeat split.
  - intros n s2 ys Hn (s1 & -> & H1). rewrite Hf. specialize (HR n s1 ys Hn H1) as H.
    destruct ys as [|[b|e] ys].
    + destruct H as (s' & E1 & E2). rewrite E1. simpl. eauto.
    + destruct H as (got & xs' & s' & E1 & E2 & E3 & E4 & E5). rewrite E1. simpl. exists got, xs', (f s'). eauto 10.
    + destruct H as (s' & E1 & E2). rewrite E1. simpl. eauto.
  - intros s2 ys (s1 & -> & H1). rewrite Hf. destruct (HZ s1 ys H1) as [(s' & E1 & E2)|(e & ys' & s' & E1 & E2 & E3)].
    + left. rewrite E1. simpl. eauto.
    + right. rewrite E2. simpl. exists e, ys', (f s'). eauto 10.
  - eauto.
Qed.

Section Embeds.
  Context {T : Type} (bld : build) (rd : reader T) (fuel : nat).

  Lemma body_read_chunked len n c : body_read bld rd fuel n (BChunked len c)
    = (fst (chunked_read bld rd fuel n c), BChunked len (snd (chunked_read bld rd fuel n c))).
  Proof. simpl. now destruct (chunked_read bld rd fuel n c). Qed.

  Lemma body_read_tilclose n t : body_read bld rd fuel n (BTilClose t)
    = (fst (rd n t), BTilClose (snd (rd n t))).
  Proof. simpl. now destruct (rd n t). Qed.

  Lemma body_read_limited n (lt : N * T) : body_read bld rd fuel n (BLimited (fst lt) (snd lt))
    = (fst (take_read rd n lt), BLimited (fst (snd (take_read rd n lt))) (snd (snd (take_read rd n lt)))).
  Proof. destruct lt as [l t]. cbn [body_read fst snd]. now destruct (take_read rd n (l, t)) as [x [l2 t2]]. Qed.
End Embeds.

Lemma chunked_body_rel {T} bld (rd : reader T) R t xs out rest fuel len :
  reader_pos rd R -> R t xs -> decodes bld None xs out rest -> length xs + 3 < fuel ->
  delivers_end (body_read bld rd fuel) (BChunked len (CStream t)) out
    (fun b => exists t', b = BChunked len (CDone t') /\ R t' rest).
Proof.
  intros HR Ht Hd Hf. pose proof (chunked_delivers bld rd R t xs out rest fuel HR Ht Hd Hf) as H.
  eapply (delivers_end_embed _ (body_read bld rd fuel) (BChunked len)) in H.
  - destruct H as (R' & H1 & H2 & H3). exists R'. repeat split; auto.
    intros n s' Hn Hs. destruct (H3 n s' Hn Hs) as (c & -> & t' & -> & H). eauto.
  - intros. apply body_read_chunked.
Qed.
Lemma chunked_body_delivers {T} bld (rd : reader T) t xs out rest fuel len :
  delivers rd t xs -> decodes bld None xs out rest -> length xs + 3 < fuel ->
  delivers_end (body_read bld rd fuel) (BChunked len (CStream t)) out
    (fun b => exists t', b = BChunked len (CDone t') /\ delivers rd t' rest).
Proof. intros. eapply (chunked_body_rel bld rd (delivers rd)); eauto using delivers_pos. Qed.

Lemma tilclose_delivers {T} bld (rd : reader T) t xs fuel :
  delivers rd t xs -> delivers (body_read bld rd fuel) (BTilClose t) xs.
Proof. apply delivers_embed. intros. apply body_read_tilclose. Qed.
Lemma tilclose_delivers0 {T} bld (rd : reader T) t xs fuel :
  delivers0 rd t xs -> delivers0 (body_read bld rd fuel) (BTilClose t) xs.
Proof. apply delivers0_embed. intros. apply body_read_tilclose. Qed.

Lemma take_delivers {St} (rd : reader St) s xs n :
  delivers rd s xs -> delivers (take_read rd) (n, s) (take_items n xs).
Proof.
  intros (R & HR & Hs). exists (take_rel R). split; [now apply take_read_pos|]. exists xs. auto.
Qed.
Lemma take_delivers0 {St} (rd : reader St) s xs n :
  delivers0 rd s xs -> delivers0 (take_read rd) (n, s) (take_items n xs).
Proof.
  intros (R & HR & HZ & Hs). exists (take_rel R).
  repeat split; [now apply take_read_pos|now apply take_read_zero|]. exists xs. auto.
Qed.

Lemma limited_delivers {T} bld (rd : reader T) t xs n fuel :
  delivers rd t xs -> delivers (body_read bld rd fuel) (BLimited n t) (take_items n xs).
Proof.
  intros H. apply (take_delivers _ _ _ n) in H.
  apply (delivers_embed _ (body_read bld rd fuel) (fun lt => BLimited (fst lt) (snd lt))) in H; auto.
  intros. apply body_read_limited.
Qed.
Lemma limited_delivers0 {T} bld (rd : reader T) t xs n fuel :
  delivers0 rd t xs -> delivers0 (body_read bld rd fuel) (BLimited n t) (take_items n xs).
Proof.
  intros H. apply (take_delivers0 _ _ _ n) in H.
  apply (delivers0_embed _ (body_read bld rd fuel) (fun lt => BLimited (fst lt) (snd lt))) in H; auto.
  intros. apply body_read_limited.
Qed.

Lemma take_items_exact data tail : take_items (N.of_nat (length data)) (map B data ++ tail) = map B data.
Proof.
  rewrite take_items_app by lia. rewrite N.sub_diag, take_items_0. apply app_nil_r.
Qed.
Lemma take_items_short n data : (N.of_nat (length data) <= n)%N -> take_items n (map B data) = map B data.
Proof.
  intros H. rewrite <- (app_nil_r (map B data)) at 1. rewrite take_items_app by auto.
  simpl. apply app_nil_r.
Qed.
Lemma take_items_fail n data e tail : (N.of_nat (length data) < n)%N ->
  take_items n (map B data ++ E e :: tail)
  = map B data ++ E e :: take_items (n - N.of_nat (length data)) tail.
Proof.
  intros H. rewrite take_items_app by lia. simpl.
  destruct (n - N.of_nat (length data) =? 0)%N eqn:E1; auto. apply N.eqb_eq in E1. lia.
Qed.

(** What a take leaves: the inner reader is exactly past the delivered items. *)
Inductive takes : N -> list item -> list item -> list item -> Prop :=
| takes_0 xs : takes 0 xs [] xs
| takes_nil n : takes n [] [] []
| takes_byte n b xs out rest : n <> 0%N -> takes (n - 1) xs out rest -> takes n (B b :: xs) (B b :: out) rest
| takes_fail n e xs out rest : n <> 0%N -> takes n xs out rest -> takes n (E e :: xs) (E e :: out) rest.

Lemma takes_app n got xs out rest : (N.of_nat (length got) <= n)%N ->
  takes n (map B got ++ xs) out rest ->
  exists out', out = map B got ++ out' /\ takes (n - N.of_nat (length got)) xs out' rest.
Proof.
  revert n out; induction got as [|b got IH]; intros n out H Ht; simpl in *.
  - rewrite N.sub_0_r. eauto.
  - inversion Ht as [| |? ? ? ? ? ? Ht'|]; subst; try lia. apply IH in Ht' as (out' & -> & Ht'); [|lia].
    exists out'. split; auto.
    now replace (n - N.pos (Pos.of_succ_nat (length got)))%N with (n - 1 - N.of_nat (length got))%N by lia.
Qed.

Lemma take_read_end {St} (rd : reader St) R rest : reader_pos rd R ->
  reader_pos (take_read rd) (fun st out => exists xs, R (snd st) xs /\ takes (fst st) xs out rest).
Proof.
  intros HR n [lim s] out Hn (xs & Hs & Ht). simpl in *. unfold take_read.
  destruct (lim =? 0)%N eqn:El.
  { apply N.eqb_eq in El; subst lim. inversion Ht; subst; try easy.
    - eexists; split; eauto.
    - eexists; split; eauto. }
  apply N.eqb_neq in El. set (m := N.to_nat (N.min (N.of_nat n) lim)).
  specialize (HR m s xs ltac:(unfold m; lia) Hs) as H. destruct xs as [|[b|e] xs].
  - destruct H as (s' & E1 & E2). rewrite E1. cbn [length].
    replace (N.of_nat 0 <=? lim)%N with true by (symmetry; apply N.leb_le; lia).
    inversion Ht; subst; try easy.
    eexists; split; [reflexivity|]. exists []. simpl. split; auto. constructor.
  - destruct H as (got & xs' & s' & E1 & E2 & E3 & E4 & E5). rewrite E1.
    assert (Hg : (N.of_nat (length got) <= lim)%N) by (unfold m in E3; lia).
    rewrite (proj2 (N.leb_le _ _) Hg). rewrite E4 in Ht. apply takes_app in Ht as (out' & -> & Ht); auto.
    destruct got as [|g got]; [easy|]. simpl map. cbn [app].
    exists (g :: got), out'. eexists. repeat split; auto.
    + unfold m in E3. lia.
    + exists xs'. simpl. auto.
  - destruct H as (s' & E1 & E2). rewrite E1. inversion Ht; subst; try easy.
    eexists; split; eauto.
Qed.

Lemma takes_items n xs : exists rest, takes n xs (take_items n xs) rest.
Proof.
  revert n; induction xs as [|[b|e] xs IH]; intros n; simpl.
  - eexists; constructor.
  - destruct (n =? 0)%N eqn:En.
    + apply N.eqb_eq in En; subst. eexists; constructor.
    + apply N.eqb_neq in En. destruct (IH (n - 1)%N) as [rest H]. exists rest. constructor; auto.
  - destruct (n =? 0)%N eqn:En.
    + apply N.eqb_eq in En; subst. eexists; constructor.
    + apply N.eqb_neq in En. destruct (IH n) as [rest H]. exists rest. constructor; auto.
Qed.

Lemma takes_exact data tail : takes (N.of_nat (length data)) (map B data ++ tail) (map B data) tail.
Proof.
  induction data as [|b data IH]; simpl.
  - constructor.
  - constructor; [lia|].
    now replace (N.pos (Pos.of_succ_nat (length data)) - 1)%N with (N.of_nat (length data)) by lia.
Qed.

Lemma limited_end_rel {T} bld (rd : reader T) R t data tail fuel :
  reader_pos rd R -> R t (map B data ++ tail) ->
  delivers_end (body_read bld rd fuel) (BLimited (N.of_nat (length data)) t) (map B data)
    (fun b => exists t', b = BLimited 0 t' /\ R t' tail).
Proof.
  intros HR H.
  exists (fun b out => exists lim t' ys, b = BLimited lim t' /\ R t' ys /\ takes lim ys out tail
            /\ lim = N.of_nat (length out) /\ exists d, out = map B d).
  repeat split.
  - intros n b out Hn (lim & t' & ys & -> & H1 & H2 & H3 & d & Hd).
    pose proof (body_read_limited bld rd fuel n (lim, t')) as Hb. cbn [fst snd] in Hb. rewrite Hb. clear Hb.
    pose proof (take_read_end rd _ tail HR n (lim, t') out Hn (ex_intro _ ys (conj H1 H2))) as Hr.
    destruct out as [|[x|e] out].
    + destruct Hr as ([lim' t2] & E1 & zs & E2 & E3). 
      assert (lim = 0)%N by (simpl in H3; lia). subst lim. simpl in E1. inversion E1; subst. simpl in *.
      eexists; split; [reflexivity|]. exists 0%N, t2, zs. eauto 10.
    + destruct Hr as (got & out' & [lim' t2] & E1 & E2 & E3 & E4 & zs & E5 & E6).
      assert (Hl : lim' = (lim - N.of_nat (length got))%N).
      { unfold take_read in E1. destruct (lim =? 0)%N; [inversion E1; subst; easy|].
        destruct (rd _ t') as [[g| | |] t3]; try easy.
        destruct (N.of_nat (length g) <=? lim)%N; inversion E1; subst. reflexivity. }
      rewrite E1. simpl. exists got, out'. eexists. repeat split; auto. cbn [fst snd] in *.
      exists lim', t2, zs. repeat split; auto.
      * rewrite Hl, H3. rewrite E4, app_length, map_length. lia.
      * rewrite E4 in Hd. symmetry in Hd. apply map_eq_app in Hd as (d1 & d2 & -> & _ & Hd2). eauto.
    + destruct d; discriminate.
  - exists (N.of_nat (length data)), t, (map B data ++ tail). repeat split; auto.
    + apply takes_exact.
    + now rewrite map_length.
    + eauto.
  - intros n b Hn (lim & t' & ys & -> & H1 & H2 & H3 & d & Hd). simpl in H3. subst lim. simpl.
    exists t'. split; auto. inversion H2; subst; auto.
Qed.
Lemma limited_delivers_end {T} bld (rd : reader T) t data tail fuel :
  delivers rd t (map B data ++ tail) ->
  delivers_end (body_read bld rd fuel) (BLimited (N.of_nat (length data)) t) (map B data)
    (fun b => exists t', b = BLimited 0 t' /\ delivers rd t' tail).
Proof. intros H. apply (limited_end_rel bld rd (delivers rd)); auto using delivers_pos. Qed.

(** Buffered reading delivers what the wrapped stream delivers. *)
Lemma bufr_delivers {St} bld cap (rd : reader St) s xs : 0 < cap ->
  delivers rd s xs -> delivers (bufr_read bld cap rd) (bufr_new s) xs.
Proof.
  intros Hc (R & HR & Hs). exists (bufr_rel bld R). split; [now apply bufr_read_pos|]. now apply bufr_new_rel.
Qed.
Lemma bufr_delivers0 {St} bld cap (rd : reader St) s xs : 0 < cap ->
  delivers0 rd s xs -> delivers0 (bufr_read bld cap rd) (bufr_new s) xs.
Proof.
  intros Hc (R & HR & HZ & Hs). exists (bufr_rel bld R).
  repeat split; [now apply bufr_read_pos|now apply bufr_read_zero|]. now apply bufr_new_rel.
Qed.

(** Once a chunked body has returned 0 bytes or an error it is finished. *)
Lemma chunked_done {T} bld (rd : reader T) fuel : forall n c r c',
  chunked_read bld rd fuel n c = (r, c') -> r = Ok [] \/ (exists e, r = Err e) -> exists t, c' = CDone t.
Proof.
  induction fuel as [|f IH]; intros n c r c' H Hr; cbn [chunked_read] in H.
  { inversion H; subst. destruct Hr as [|[? ?]]; easy. }
  destruct c as [t|lim t|t].
  - destruct (chunk_new bld rd (S f) t) as [[[size|]|e| |] t1]; eauto; inversion H; eauto.
  - destruct (take_read rd n (lim, t)) as [[[|g got]|e| |] [l t1]]; try (inversion H; eauto; fail).
    + destruct (read_exact bld rd (S f) 2 [] t1) as [[x|e| |] t2]; eauto; inversion H; eauto.
    + inversion H; subst. destruct Hr as [|[? ?]]; easy.
  - inversion H; eauto.
Qed.

(** A read with an empty buffer inside a chunk swallows two bytes and looks for a size line. *)
Lemma chunked_empty_read {T} bld (rd : reader T) f lim t a b w :
  lim <> 0%N -> delivers0 rd t (B a :: B b :: w) -> 2 < S f ->
  exists t', delivers0 rd t' w /\ chunked_read bld rd (S f) 0 (CChunk lim t) = chunked_read bld rd f 0 (CStream t').
Proof.
  intros Hl Ht Hf. cbn [chunked_read]. unfold take_read. rewrite (proj2 (N.eqb_neq _ _) Hl).
  replace (N.to_nat (N.min (N.of_nat 0) lim)) with 0 by lia.
  destruct (delivers0_zero rd t _ Ht) as [(t1 & E1 & E2)|(? & ? & ? & E1 & _)]; [|easy].
  rewrite E1. cbn [length]. replace (N.of_nat 0 <=? lim)%N with true by (symmetry; apply N.leb_le; lia).
  destruct f as [|f]; [lia|]. 
  pose proof (delivers0_pos rd 2 t1 _ ltac:(lia) E2) as (got & xs' & t2 & R1 & R2 & R3 & R4 & R5).
  cbn [read_exact]. rewrite R1. destruct got as [|g got]; [easy|].
  rewrite (proj2 (Nat.leb_le _ _) R3).
  destruct got as [|g2 got].
  - cbn [length Nat.sub map app] in *. inversion R4; subst.
    pose proof (delivers0_pos rd 1 t2 _ ltac:(lia) R5) as (got & ys & t3 & S1 & S2 & S3 & S4 & S5).
    rewrite S1. destruct got as [|g' got]; [easy|]. rewrite (proj2 (Nat.leb_le _ _) S3).
    destruct got; [|simpl in S3; lia]. simpl in S4. inversion S4; subst.
    exists t3. split; auto. simpl. now destruct f.
  - destruct got; [|simpl in R3; lia]. simpl in R4. inversion R4; subst. exists t2. auto.
Qed.
