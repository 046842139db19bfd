(** Two readers that answer alike make every function of the library answer alike. *)
From Verif Require Import Base Utf8 Case Num Io Parser Types Message.

Definition outs {A S1 S2} (Q : S1 -> S2 -> Prop) (o1 : res A * S1) (o2 : res A * S2) : Prop :=
  fst o1 = fst o2 /\ Q (snd o1) (snd o2).
Definition sim {S1 S2} (Q : S1 -> S2 -> Prop) (rd1 : reader S1) (rd2 : reader S2) : Prop :=
  forall n s1 s2, Q s1 s2 -> outs Q (rd1 n s1) (rd2 n s2).

Lemma outs_cases {A S1 S2} (Q : S1 -> S2 -> Prop) (o1 : res A * S1) (o2 : res A * S2) :
  outs Q o1 o2 -> exists r s1 s2, o1 = (r, s1) /\ o2 = (r, s2) /\ Q s1 s2.
Proof. destruct o1, o2. intros [H1 H2]. cbn in *. subst. eauto 6. Qed.
Lemma outs_sbind {A B S1 S2} (Q : S1 -> S2 -> Prop) (o1 : res A * S1) (o2 : res A * S2) (k1 : A -> S1 -> res B * S1) k2 :
  outs Q o1 o2 -> (forall a s1 s2, Q s1 s2 -> outs Q (k1 a s1) (k2 a s2)) -> outs Q (sbind o1 k1) (sbind o2 k2).
Proof.
  intros H Hk. apply outs_cases in H as (r & s1 & s2 & -> & -> & H). destruct r; cbn; auto; now split.
Qed.

Section Sim.
  Context {S1 S2 : Type} (bld : build) (Q : S1 -> S2 -> Prop) (rd1 : reader S1) (rd2 : reader S2) (HQ : sim Q rd1 rd2).

  Ltac step n s1 s2 r t1 t2 H :=
    let H1 := fresh in let H2 := fresh in
    destruct (outs_cases _ _ _ (HQ n s1 s2 ltac:(assumption))) as (r & t1 & t2 & H1 & H2 & H);
    rewrite H1, H2.

  Lemma bytes_next_sim : forall fuel s1 s2, Q s1 s2 -> outs Q (bytes_next bld rd1 fuel s1) (bytes_next bld rd2 fuel s2).
  Proof.
    induction fuel as [|f IH]; intros s1 s2 H; cbn [bytes_next]; [now split|].
    step 1 s1 s2 r t1 t2 Ht. destruct r as [[|b l]|e| |]; try now split. destruct (is_retry bld e); [auto|now split].
  Qed.
  Lemma read_exact_sim : forall fuel n acc s1 s2, Q s1 s2 ->
    outs Q (read_exact bld rd1 fuel n acc s1) (read_exact bld rd2 fuel n acc s2).
  Proof.
    induction fuel as [|f IH]; intros n acc s1 s2 H; (destruct n as [|n]; [now split|]); cbn [read_exact]; [now split|].
    step (S n) s1 s2 r t1 t2 Ht. destruct r as [[|b l]|e| |]; try now split.
    - destruct (_ <=? _); [auto|now split].
    - destruct (is_retry bld e); [auto|now split].
  Qed.
  Lemma take_sim : sim (fun a b => fst a = fst b /\ Q (snd a) (snd b)) (take_read rd1) (take_read rd2).
  Proof.
    intros n [lim s1] [lim2 s2] [H1 H2]. cbn [fst snd] in *. subst lim2. unfold take_read.
    destruct (lim =? 0)%N; [now repeat split|]. step (N.to_nat (N.min (N.of_nat n) lim)) s1 s2 r t1 t2 Ht.
    destruct r as [got|e| |]; try now repeat split. destruct (_ <=? _)%N; now repeat split.
  Qed.
  Lemma crlf_sim : forall fuel line s1 s2, Q s1 s2 -> outs Q (crlf_loop bld rd1 fuel line s1) (crlf_loop bld rd2 fuel line s2).
  Proof.
    induction fuel as [|f IH]; intros line s1 s2 H; cbn [crlf_loop]; [now split|].
    destruct (outs_cases _ _ _ (bytes_next_sim (S f) s1 s2 H)) as (r & t1 & t2 & -> & -> & Ht).
    destruct r as [[b|]|e| |]; try now split. cbv zeta. destruct (ends_crlf (line ++ [b])); [|auto].
    destruct (firstn _ _) as [|x l]; [now split|]. destruct (utf8_valid (x :: l)); now split.
  Qed.
  Lemma expect_next_alike fuel s1 s2 : Q s1 s2 ->
    outs Q (expect_next (crlf_next bld rd1 fuel) s1) (expect_next (crlf_next bld rd2 fuel) s2).
  Proof.
    intros H. unfold expect_next, crlf_next. destruct (outs_cases _ _ _ (crlf_sim fuel [] s1 s2 H)) as (r & t1 & t2 & -> & -> & Ht).
    destruct r as [[l|]|e| |]; now split.
  Qed.
  Lemma chunk_new_sim fuel s1 s2 : Q s1 s2 -> outs Q (chunk_new bld rd1 fuel s1) (chunk_new bld rd2 fuel s2).
  Proof. intros H. unfold chunk_new. apply outs_sbind; [now apply expect_next_alike|]. intros a t1 t2 Ht. now split. Qed.

  Definition cb_sim (c1 : cbody S1) (c2 : cbody S2) : Prop :=
    match c1, c2 with
    | CStream a, CStream b => Q a b
    | CChunk l a, CChunk m b => l = m /\ Q a b
    | CDone a, CDone b => Q a b
    | _, _ => False
    end.
  Lemma cb_sim_reader c1 c2 : cb_sim c1 c2 -> Q (cb_reader c1) (cb_reader c2).
  Proof. destruct c1, c2; cbn; intuition. Qed.
  Lemma chunked_sim : forall fuel n c1 c2, cb_sim c1 c2 ->
    outs cb_sim (chunked_read bld rd1 fuel n c1) (chunked_read bld rd2 fuel n c2).
  Proof.
    induction fuel as [|f IH]; intros n c1 c2 H; cbn [chunked_read]; [now split|].
    destruct c1 as [a|l a|a], c2 as [b|m b|b]; cbn in H; try easy.
    - destruct (outs_cases _ _ _ (chunk_new_sim (S f) a b H)) as (r & t1 & t2 & -> & -> & Ht).
      destruct r as [[k|]|e| |]; try now split. apply IH. now split.
    - destruct H as [<- H]. assert (Hp : (fun a b => fst a = fst b /\ Q (snd a) (snd b)) (l, a) (l, b)) by now split.
      destruct (outs_cases _ _ _ (take_sim n _ _ Hp)) as (r & [l1 t1] & [l2 t2] & -> & -> & [H1 H2]). cbn [fst snd] in *. subst l2.
      destruct r as [[|x got]|e| |]; try now repeat split.
      destruct (outs_cases _ _ _ (read_exact_sim (S f) 2 [] t1 t2 H2)) as (r & u1 & u2 & -> & -> & Hu).
      destruct r; try now split. apply IH. exact Hu.
  Qed.

  Definition hb_sim (b1 : hbody S1) (b2 : hbody S2) : Prop :=
    match b1, b2 with
    | BChunked l c1, BChunked m c2 => l = m /\ cb_sim c1 c2
    | BLimited l a, BLimited m b => l = m /\ Q a b
    | BTilClose a, BTilClose b => Q a b
    | _, _ => False
    end.
  Lemma hb_sim_reader b1 b2 : hb_sim b1 b2 -> Q (body_reader b1) (body_reader b2).
  Proof. destruct b1, b2; cbn; intuition. now apply cb_sim_reader. Qed.
  Lemma body_sim fuel : sim hb_sim (body_read bld rd1 fuel) (body_read bld rd2 fuel).
  Proof.
    intros n b1 b2 H. destruct b1 as [l c1|l a|a], b2 as [m c2|m b|b]; cbn in H; try easy; cbn [body_read].
    - destruct H as [<- H]. destruct (outs_cases _ _ _ (chunked_sim fuel n c1 c2 H)) as (r & u1 & u2 & -> & -> & Hu). now repeat split.
    - destruct H as [<- H]. assert (Hp : (fun a b => fst a = fst b /\ Q (snd a) (snd b)) (l, a) (l, b)) by now split.
      destruct (outs_cases _ _ _ (take_sim n _ _ Hp)) as (r & [l1 t1] & [l2 t2] & -> & -> & [H1 H2]). cbn [fst snd] in *. subst l2. now repeat split.
    - step n a b r t1 t2 Ht. now split.
  Qed.
  Lemma body_new_sim enc len a b : Q a b -> hb_sim (body_new enc len a) (body_new enc len b).
  Proof. intros H. unfold body_new. destruct (match enc with Some _ => _ | None => _ end); [now repeat split|]. destruct len; [now split|exact H]. Qed.
End Sim.

Section LineSim.
  Context {S1 S2 : Type} (Q : S1 -> S2 -> Prop) (n1 : S1 -> res (option bytes) * S1) (n2 : S2 -> res (option bytes) * S2)
    (HN : forall s1 s2, Q s1 s2 -> outs Q (n1 s1) (n2 s2)).

  Lemma cont_alike : forall fuel line s1 s2, Q s1 s2 ->
    exists l pk t1 t2, cont_loop n1 fuel line s1 = (l, pk, t1) /\ cont_loop n2 fuel line s2 = (l, pk, t2) /\ Q t1 t2.
  Proof.
    induction fuel as [|f IH]; intros line s1 s2 H; cbn [cont_loop]; [eauto 8|].
    destruct (outs_cases _ _ _ (HN s1 s2 H)) as (r & t1 & t2 & -> & -> & Ht).
    destruct r as [[l|]|e| |]; eauto 8. destruct (starts_blank l); eauto 8.
  Qed.
  Lemma headers_alike : forall fuel acc pk s1 s2, Q s1 s2 ->
    outs Q (headers_loop n1 fuel acc pk s1) (headers_loop n2 fuel acc pk s2).
  Proof.
    induction fuel as [|f IH]; intros acc pk s1 s2 H; [now split|]. cbn [headers_loop].
    assert (Hp : outs Q (pk_next n1 pk s1) (pk_next n2 pk s2)) by (destruct pk; cbn; [now split|auto]).
    destruct (outs_cases _ _ _ Hp) as (r & t1 & t2 & -> & -> & Ht).
    destruct r as [[l|]|e| |]; try now split.
    destruct (cont_alike (S f) l t1 t2 Ht) as (l' & pk' & u1 & u2 & -> & -> & Hu).
    destruct pk' as [[x|x| |]|]; try (now split); (destruct (header_deserialize l'); try (now split); now apply IH).
  Qed.
  Lemma expect_alike s1 s2 : Q s1 s2 -> outs Q (expect_next n1 s1) (expect_next n2 s2).
  Proof.
    intros H. unfold expect_next. destruct (outs_cases _ _ _ (HN s1 s2 H)) as (r & t1 & t2 & -> & -> & Ht).
    destruct r as [[l|]|e| |]; now split.
  Qed.
  Lemma request_head_alike fuel s1 s2 : Q s1 s2 -> outs Q (request_head n1 fuel s1) (request_head n2 fuel s2).
  Proof.
    intros H. unfold request_head. apply outs_sbind; [now apply expect_alike|]. intros l t1 t2 Ht.
    match goal with |- outs _ (let (_, _) := ?mm in _) _ => destruct mm as [[[[m u] v]|e| |] p] end; try now split.
    apply outs_sbind; [now apply headers_alike|]. intros h u1 u2 Hu. now split.
  Qed.
  Lemma response_head_alike fuel s1 s2 : Q s1 s2 -> outs Q (response_head n1 fuel s1) (response_head n2 fuel s2).
  Proof.
    intros H. unfold response_head. apply outs_sbind; [now apply expect_alike|]. intros l t1 t2 Ht.
    match goal with |- outs _ (let (_, _) := ?mm in _) _ => destruct mm as [[[m u]|e| |] p] end; try now split.
    apply outs_sbind; [now apply headers_alike|]. intros h u1 u2 Hu. now split.
  Qed.
End LineSim.
