(** The chunked body reader over item sequences. *)
From Verif Require Import Base Utf8 Num Io Message Transport Lemmas ReadLemmas NumLemmas Utf8Lemmas ChunkSpec.

(** [HttpBodyChunk::new] on items. *)
Definition chunk_head (bld : build) (xs : list item) : res (option N) * list item :=
  dos size_str, t1 <- expect_next (items_line bld []) xs;
  (do size <- from_str_radix 16 u64_max size_str;
   Ok (if (size =? 0)%N then None else Some size), t1).

(** What the chunked reader delivers from [xs] and what it leaves; the index is [None] when a size
    line is expected next, [Some n] when [n] bytes of the current chunk are still to come. *)
Inductive decodes (bld : build) : option N -> list item -> list item -> list item -> Prop :=
| d_last xs rest : chunk_head bld xs = (Ok None, rest) -> decodes bld None xs [] rest
| d_bad xs e rest : chunk_head bld xs = (Err e, rest) -> decodes bld None xs [E (to_io bld e)] rest
| d_size xs n xs1 out rest : chunk_head bld xs = (Ok (Some n), xs1) ->
    decodes bld (Some n) xs1 out rest -> decodes bld None xs out rest
| d_byte n b xs out rest : n <> 0%N ->
    decodes bld (Some (n - 1)%N) xs out rest -> decodes bld (Some n) (B b :: xs) (B b :: out) rest
| d_fail n e xs : n <> 0%N -> decodes bld (Some n) (E e :: xs) [E e] xs
| d_eof n : n <> 0%N -> decodes bld (Some n) [] [E (io_eof bld)] []
| d_sep xs x xs1 out rest : items_exact bld 2 [] xs = (Ok x, xs1) ->
    decodes bld None xs1 out rest -> decodes bld (Some 0%N) xs out rest
| d_sepbad xs e xs1 : items_exact bld 2 [] xs = (Err e, xs1) ->
    decodes bld (Some 0%N) xs [E e] xs1.

Lemma chunk_new_items {T} bld (rd : reader T) R xs t fuel :
  reader_pos rd R -> R t xs -> length xs < fuel ->
  exists t', chunk_new bld rd fuel t = (fst (chunk_head bld xs), t') /\ R t' (snd (chunk_head bld xs)).
Proof.
  intros HR Ht Hf. unfold chunk_new, chunk_head, expect_next.
  destruct (crlf_next_items bld rd R xs t fuel HR Ht Hf) as (t' & H1 & H2). rewrite H1.
  destruct (items_line bld [] xs) as [r xs1]. simpl in *.
  destruct r as [[l|]|e| |]; simpl; eauto.
Qed.

Lemma items_line_res bld acc xs : (exists l, fst (items_line bld acc xs) = Ok l) \/ exists e, fst (items_line bld acc xs) = Err e.
Proof.
  revert acc; induction xs as [|[b|e] xs IH]; intros acc; simpl; eauto.
  - destruct (ends_crlf _); auto. simpl. unfold line_result. destruct (firstn _ _); eauto. destruct (utf8_valid _); eauto.
  - destruct (is_retry bld e); simpl; eauto.
Qed.

Lemma chunk_head_res bld xs : (exists o, fst (chunk_head bld xs) = Ok o) \/ exists e, fst (chunk_head bld xs) = Err e.
Proof.
  unfold chunk_head, expect_next. pose proof (items_line_res bld [] xs) as H.
  destruct (items_line bld [] xs) as [r xs1]. simpl in H.
  destruct H as [[l ->]|[e ->]]; [destruct l as [l|]|]; simpl; eauto.
  destruct (from_str_radix_err 16 u64_max l) as [[n ->]|[k ->]]; simpl; eauto.
Qed.

Lemma chunk_head_length bld xs : length (snd (chunk_head bld xs)) <= length xs.
Proof.
  unfold chunk_head, expect_next. pose proof (items_line_length bld [] xs).
  destruct (items_line bld [] xs) as [[[l|]|e| |] xs1]; simpl in *; auto.
Qed.

Lemma chunk_head_lt bld xs n xs1 : chunk_head bld xs = (Ok n, xs1) -> length xs1 < length xs.
Proof.
  unfold chunk_head, expect_next. destruct (items_line bld [] xs) as [r xs'] eqn:E.
  destruct r as [[l|]|e| |]; simpl; intros H; try easy. inversion H; subst.
  now apply items_line_lt in E.
Qed.

Lemma chunk_head_nonzero bld xs n xs1 : chunk_head bld xs = (Ok (Some n), xs1) -> n <> 0%N.
Proof.
  intros H. unfold chunk_head in H. destruct (expect_next _ xs) as [[l|e| |] y]; simpl in H; try easy.
  destruct (from_str_radix 16 u64_max l) as [k| | |]; simpl in H; try easy.
  destruct (k =? 0)%N eqn:Ek; inversion H; subst. now apply N.eqb_neq.
Qed.

Lemma items_exact_res bld n acc xs : (exists o, fst (items_exact bld n acc xs) = Ok o) \/ exists e, fst (items_exact bld n acc xs) = Err e.
Proof.
  revert n acc; induction xs as [|[b|e] xs IH]; intros [|n] acc; simpl; eauto.
  destruct (is_retry bld e); simpl; eauto.
Qed.

(** Every input has exactly one decoding. *)
Lemma decodes_total bld o xs : exists out rest, decodes bld o xs out rest.
Proof.
  remember (length xs) as k eqn:Hk. assert (Hle : length xs <= k) by lia. clear Hk.
  revert o xs Hle. induction k as [k IH] using lt_wf_ind; intros o xs Hle.
  assert (Hnone : forall xs, length xs <= k -> exists out rest, decodes bld None xs out rest).
  { clear xs Hle. intros xs Hle. destruct (chunk_head bld xs) as [r xs1] eqn:E.
    pose proof (chunk_head_res bld xs) as H. rewrite E in H. simpl in H.
    destruct H as [[[n|] ->]|[e ->]].
    - apply chunk_head_lt in E as Hl. destruct (IH (length xs1) ltac:(lia) (Some n) xs1 (le_n _)) as (out & rest & H).
      exists out, rest. eapply d_size; eauto.
    - eexists _, _. eapply d_last; eauto.
    - eexists _, _. eapply d_bad; eauto. }
  destruct o as [n|]; [|auto].
  destruct (N.eq_dec n 0) as [->|Hn].
  - destruct (items_exact bld 2 [] xs) as [r xs1] eqn:E.
    pose proof (items_exact_res bld 2 [] xs) as H. rewrite E in H. simpl in H.
    pose proof (items_exact_length bld 2 [] xs) as Hl. rewrite E in Hl. simpl in Hl.
    destruct H as [[x ->]|[e ->]].
    + destruct (Hnone xs1 ltac:(lia)) as (out & rest & H). eexists _, _. eapply d_sep; eauto.
    + eexists _, _. eapply d_sepbad; eauto.
  - destruct xs as [|[b|e] xs].
    + eexists _, _. now apply d_eof.
    + simpl in Hle. destruct (IH (length xs) ltac:(lia) (Some (n - 1)%N) xs (le_n _)) as (out & rest & H).
      eexists _, _. apply d_byte; eauto.
    + eexists _, _. now apply d_fail.
Qed.

Lemma decodes_functional bld o xs out rest out' rest' :
  decodes bld o xs out rest -> decodes bld o xs out' rest' -> out = out' /\ rest = rest'.
Proof.
  intros H; revert out' rest'. induction H; intros out' rest' H'; inversion H'; subst; try easy;
    try congruence;
    repeat match goal with
    | A : chunk_head bld ?x = _, B : chunk_head bld ?x = _ |- _ => rewrite A in B; inversion B; subst; clear B
    | A : items_exact bld ?n ?a ?x = _, B : items_exact bld ?n ?a ?x = _ |- _ => rewrite A in B; inversion B; subst; clear B
    end; auto.
  match goal with A : decodes bld (Some (_ - 1)%N) xs _ _ |- _ => destruct (IHdecodes _ _ A) as [-> ->] end. auto.
Qed.

(** The delivered sequence ends with its only failure, if any. *)
Lemma decodes_shape bld o xs out rest : decodes bld o xs out rest ->
  exists p, out = map B p \/ exists e, out = map B p ++ [E e].
Proof.
  induction 1 as [| | |n b xs out rest Hn H IH| | | |]; auto; try (exists []; simpl; eauto; fail).
  destruct IH as (p & [->|(e & ->)]); exists (b :: p); simpl; eauto.
Qed.

Lemma decodes_chunk_app bld n got xs out rest : (N.of_nat (length got) <= n)%N ->
  decodes bld (Some n) (map B got ++ xs) out rest ->
  exists out', out = map B got ++ out' /\ decodes bld (Some (n - N.of_nat (length got))%N) xs out' rest.
Proof.
  revert n out; induction got as [|b got IH]; intros n out Hn H; simpl in *.
  - exists out. split; auto. now rewrite N.sub_0_r.
  - inversion H; subst; try lia.
    destruct (IH (n - 1)%N out0 ltac:(lia)) as (out' & -> & H1); auto.
    exists out'. split; auto. replace (n - N.pos (Pos.of_succ_nat (length got)))%N
      with (n - 1 - N.of_nat (length got))%N by lia. auto.
Qed.

(** Simulation: states of the body against what they will deliver. *)
Definition chunk_rel {T} (bld : build) (R : T -> list item -> Prop) (fuel : nat) (rest : list item)
  : cbody T -> list item -> Prop :=
  fun c out =>
  match c with
  | CStream t => exists xs, R t xs /\ decodes bld None xs out rest /\ length xs + 3 < fuel
  | CChunk lim t => exists xs, R t xs /\ decodes bld (Some lim) xs out rest /\ length xs + 3 < fuel
  | CDone t => R t rest /\ out = [] /\ 0 < fuel
  end.

Section Sim.
  Context {T : Type} (bld : build) (rd : reader T) (R : T -> list item -> Prop) (HR : reader_pos rd R).

  Definition read_post (n : nat) (out : list item) (Q : cbody T -> list item -> Prop) (r : res bytes * cbody T) : Prop :=
    match out with
    | [] => exists t', r = (Ok [], CDone t') /\ Q (CDone t') []
    | E e :: out' => exists t', r = (Err e, CDone t') /\ Q (CDone t') out'
    | B _ :: _ => exists got out' c', r = (Ok got, c') /\ got <> [] /\ length got <= n
        /\ out = map B got ++ out' /\ Q c' out'
    end.

  (** A read inside a chunk with bytes left. *)
  Lemma read_in_chunk fuel F n lim t xs out rest : 0 < n -> lim <> 0%N -> R t xs ->
    decodes bld (Some lim) xs out rest -> length xs < fuel -> length xs + 3 < F ->
    read_post n out (chunk_rel bld R F rest) (chunked_read bld rd fuel n (CChunk lim t)).
  Proof using HR.
    intros Hn Hl Ht Hd Hf HF. destruct fuel as [|f]; [lia|]. cbn [chunked_read]. unfold take_read.
    rewrite (proj2 (N.eqb_neq _ _) Hl).
    set (m := N.to_nat (N.min (N.of_nat n) lim)). assert (Hm : 0 < m) by (unfold m; lia).
    specialize (HR m t xs Hm Ht) as H. destruct xs as [|[b|e] xs].
    - inversion Hd; subst; try lia. destruct H as (t' & E1 & E2). rewrite E1. cbn [length].
      replace (N.of_nat 0 <=? lim)%N with true by (symmetry; apply N.leb_le; lia).
      destruct (read_exact_items bld rd R HR [] 2 [] t' (S f) E2 ltac:(simpl; lia)) as (t2 & H3 & H4).
      rewrite H3. simpl. exists t2. repeat split; auto; lia.
    - destruct H as (got & xs' & t' & H1 & H2 & H3 & H4 & H5). rewrite H1.
      assert (Hgl : (N.of_nat (length got) <= lim)%N) by (unfold m in H3; lia).
      rewrite (proj2 (N.leb_le _ _) Hgl).
      assert (Hlen : length (B b :: xs) = length (map B got ++ xs')) by congruence.
      rewrite app_length, map_length in Hlen.
      rewrite H4 in Hd. apply decodes_chunk_app in Hd as (out' & -> & Hd); auto.
      destruct got as [|g got]; [easy|]. cbn [map app read_post].
      exists (g :: got), out', (CChunk (lim - N.of_nat (length (g :: got))) t').
      repeat split; auto.
      + unfold m in H3. lia.
      + exists xs'. repeat split; auto. lia.
    - inversion Hd; subst; try lia. destruct H as (t' & E1 & E2). rewrite E1. simpl.
      exists t'. repeat split; auto; lia.
  Qed.

  Lemma read_stream fuel F n t xs out rest : 0 < n -> R t xs ->
    decodes bld None xs out rest -> length xs + 1 < fuel -> length xs + 3 < F ->
    read_post n out (chunk_rel bld R F rest) (chunked_read bld rd fuel n (CStream t)).
  Proof using HR.
    intros Hn Ht Hd Hf HF. destruct fuel as [|f]; [lia|]. cbn [chunked_read].
    destruct (chunk_new_items bld rd R xs t (S f) HR Ht ltac:(lia)) as (t' & H1 & H2). rewrite H1.
    inversion Hd; subst.
    - rewrite H in *. simpl in *. exists t'. repeat split; auto; lia.
    - rewrite H in *. simpl in *. exists t'. repeat split; auto; lia.
    - rewrite H in *. simpl in H2. cbn [fst]. pose proof (chunk_head_lt _ _ _ _ H) as Hlt.
      apply chunk_head_nonzero in H as Hn0.
      apply read_in_chunk with (xs := xs1); auto; lia.
  Qed.

  Lemma chunked_read_post fuel rest n c out : 0 < n -> chunk_rel bld R fuel rest c out ->
    read_post n out (chunk_rel bld R fuel rest) (chunked_read bld rd fuel n c).
  Proof using HR.
    intros Hn Hc.
    destruct c as [t|lim t|t]; simpl in Hc.
    - destruct Hc as (xs & Ht & Hd & Hf). apply read_stream with (xs := xs); auto; lia.
    - destruct Hc as (xs & Ht & Hd & Hf). destruct (N.eq_dec lim 0) as [->|Hl].
      + destruct fuel as [|f]; [lia|]. cbn [chunked_read]. unfold take_read. simpl (0 =? 0)%N. cbn iota.
        destruct (read_exact_items bld rd R HR xs 2 [] t (S f) Ht ltac:(lia)) as (t2 & H3 & H4). rewrite H3.
        pose proof (items_exact_length bld 2 [] xs) as Hlen.
        inversion Hd; subst; try easy.
        * rewrite H in *. cbn [fst snd] in *. apply read_stream with (xs := xs1); auto; lia.
        * rewrite H in *. simpl in *. exists t2. repeat split; auto; lia.
      + apply read_in_chunk with (xs := xs); auto; lia.
    - destruct Hc as (Ht & -> & Hf). destruct fuel as [|f]; [lia|].
      exists t. repeat split; auto.
  Qed.

  Lemma chunked_read_pos fuel rest : reader_pos (chunked_read bld rd fuel) (chunk_rel bld R fuel rest).
  Proof using HR.
    intros n c out Hn Hc. pose proof (chunked_read_post fuel rest n c out Hn Hc) as H.
    destruct out as [|[b|e] out]; simpl in H; auto; destruct H as (t' & H1 & H2); eauto.
  Qed.
End Sim.

(** A chunked body delivers its decoding and then leaves the reader at the rest. *)
Lemma chunked_delivers {T} bld (rd : reader T) R t xs out rest fuel :
  reader_pos rd R -> R t xs -> decodes bld None xs out rest -> length xs + 3 < fuel ->
  delivers_end (chunked_read bld rd fuel) (CStream t) out (fun c => exists t', c = CDone t' /\ R t' rest).
Proof.
  intros HR Ht Hd Hf. exists (chunk_rel bld R fuel rest). split; [now apply chunked_read_pos|].
  split; [exists xs; auto|]. intros n c Hn Hc.
  destruct (chunked_read_post bld rd R HR fuel rest n c [] Hn Hc) as (t' & H1 & H2).
  rewrite H1. simpl in *. destruct H2. eauto.
Qed.

Lemma ascii_no_cr_no_crlf s : ~ In CR s -> no_crlf s.
Proof. intros H (a & b & ->). apply H. apply in_or_app. right. now left. Qed.

Lemma digit_not_cr radix d : digit radix CR d -> False.
Proof. intros [_ H]. change (bval CR) with 13%N in H. lia. Qed.

Lemma numeral_no_cr radix s n : numeral radix s n -> ~ In CR s.
Proof.
  intros [_ (ds & H & _)]. induction H; simpl; [easy|]. intros [->|?]; eauto using digit_not_cr.
Qed.

Lemma size_line_no_crlf l n : size_line l n -> no_crlf l.
Proof.
  intros [_ [H|(t & -> & H)]]; apply ascii_no_cr_no_crlf; apply numeral_no_cr in H; auto.
  intros [?|?]; easy.
Qed.

Lemma size_line_nonempty l n : size_line l n -> l <> [].
Proof. intros [_ [[H _]|(t & -> & H)]]; easy. Qed.

Lemma size_line_valid l n : size_line l n -> utf8_valid l = true.
Proof.
  intros [_ [H|(t & -> & H)]]; apply ascii_valid; apply numeral_ascii in H; try lia; auto.
Qed.

Lemma size_line_radix l n : size_line l n <-> from_str_radix 16 u64_max l = Ok n.
Proof. symmetry. apply from_str_radix_spec; lia. Qed.

Lemma size_line_functional l n m : size_line l n -> size_line l m -> n = m.
Proof. rewrite !size_line_radix. congruence. Qed.

Lemma size_line_result l n : size_line l n -> line_result l = Ok (Some l).
Proof.
  intros H. unfold line_result. rewrite (size_line_valid _ _ H).
  apply size_line_nonempty in H. now destruct l.
Qed.

Lemma chunk_head_size bld l n ys : size_line l n ->
  chunk_head bld (map B (l ++ CRLF) ++ ys) = (Ok (if (n =? 0)%N then None else Some n), ys).
Proof.
  intros H. unfold chunk_head, expect_next. rewrite items_line_map by eauto using size_line_no_crlf.
  rewrite (size_line_result _ _ H). cbn [sbind]. apply size_line_radix in H. rewrite H. reflexivity.
Qed.

Lemma chunk_head_bad bld l ys : no_crlf l -> ~ (exists n, size_line l n) ->
  exists e, chunk_head bld (map B (l ++ CRLF) ++ ys) = (Err e, ys).
Proof.
  intros H1 H2. unfold chunk_head, expect_next. rewrite items_line_map by auto.
  unfold line_result. destruct l as [|c l]; [simpl; eauto|].
  destruct (utf8_valid (c :: l)); [|simpl; eauto]. cbn [sbind].
  destruct (from_str_radix_err 16 u64_max (c :: l)) as [[n Hn]|[k Hk]].
  - exfalso. apply H2. exists n. now apply size_line_radix.
  - rewrite Hk. simpl. eauto.
Qed.

Lemma decodes_data bld data n xs out rest : (N.of_nat (length data) <= n)%N ->
  decodes bld (Some (n - N.of_nat (length data))%N) xs out rest ->
  decodes bld (Some n) (map B data ++ xs) (map B data ++ out) rest.
Proof.
  revert n; induction data as [|b data IH]; intros n H Hd; simpl in *.
  - now rewrite N.sub_0_r in Hd.
  - apply d_byte; [lia|]. apply IH; [lia|].
    now replace (n - 1 - N.of_nat (length data))%N with (n - N.pos (Pos.of_succ_nat (length data)))%N by lia.
Qed.

Lemma decodes_size bld h n xs out rest : size_line h n -> n <> 0%N ->
  decodes bld (Some n) xs out rest -> decodes bld None (map B (h ++ CRLF) ++ xs) out rest.
Proof.
  intros H Hn Hd. eapply d_size; eauto. rewrite (chunk_head_size bld h n) by auto.
  now rewrite (proj2 (N.eqb_neq _ _) Hn).
Qed.

Lemma decodes_chunk bld h data a b xs out rest :
  data <> [] -> size_line h (N.of_nat (length data)) -> decodes bld None xs out rest ->
  decodes bld None (map B (h ++ CRLF ++ data ++ [a; b]) ++ xs) (map B data ++ out) rest.
Proof.
  intros H1 H2 H3. rewrite app_assoc, map_app, <- app_assoc.
  eapply decodes_size; eauto. { destruct data; simpl; [easy|lia]. }
  rewrite map_app, <- app_assoc. apply decodes_data; [lia|]. rewrite N.sub_diag.
  apply d_sep with (x := [a; b]) (xs1 := xs); auto. simpl. now destruct xs.
Qed.

Ltac assoc_map := rewrite ?map_app, <- ?app_assoc; simpl; rewrite <- ?app_assoc; reflexivity.

Lemma loose_decodes bld p w rest : loose_wire p w -> decodes bld None (map B w ++ rest) (map B p) rest.
Proof.
  induction 1 as [z Hz|h data a b p w H1 H2 H3 IH].
  - apply d_last. now rewrite (chunk_head_size bld z 0).
  - replace (map B (h ++ CRLF ++ data ++ [a; b] ++ w) ++ rest)
      with (map B (h ++ CRLF ++ data ++ [a; b]) ++ map B w ++ rest) by assoc_map.
    rewrite (map_app B data p). now apply decodes_chunk.
Qed.

Lemma chunked_loose p w : chunked_wire p w -> loose_wire p w.
Proof.
  induction 1 as [z H|h data p w H1 H2 H3 H4 IH].
  - apply lw_last. split; auto. unfold u64_max. lia.
  - apply lw_chunk; auto. now split; auto.
Qed.

(** Cut off by end of file or by a transport error. *)
Lemma partial_eof bld p w : partial_wire p w ->
  exists e, (e = io_eof bld \/ e = to_io bld UnexpectedEof) /\ decodes bld None (map B w) (map B p ++ [E e]) [].
Proof.
  induction 1 as [l Hl|h n data H1 H2|h data sep H1 H2 H3|h data a b p w H1 H2 H3 (e & He & IH)].
  - eexists. split; [now right|]. simpl. eapply d_bad. unfold chunk_head, expect_next.
    rewrite (items_line_eof bld l) by auto using noisy_map_B. reflexivity.
  - eexists. split; [now left|]. replace (map B (h ++ CRLF ++ data)) with (map B (h ++ CRLF) ++ map B data ++ []) by (rewrite app_nil_r; assoc_map).
    eapply decodes_size; eauto; [lia|]. apply decodes_data; [lia|]. apply d_eof. lia.
  - eexists. split; [now left|]. replace (map B (h ++ CRLF ++ data ++ sep)) with (map B (h ++ CRLF) ++ map B data ++ map B sep) by assoc_map.
    eapply decodes_size; eauto; [destruct data; simpl; [easy|lia]|]. apply decodes_data; [lia|].
    rewrite N.sub_diag. eapply d_sepbad. destruct sep as [|? [|? ?]]; simpl in *; try reflexivity; lia.
  - exists e. split; auto. replace (map B (h ++ CRLF ++ data ++ [a; b] ++ w))
      with (map B (h ++ CRLF ++ data ++ [a; b]) ++ map B w) by assoc_map.
    rewrite (map_app B data p), <- (app_assoc (map B data)). now apply decodes_chunk.
Qed.

Lemma partial_fail bld p w e ys : partial_wire p w -> is_retry bld e = false ->
  exists e', (e' = e \/ e' = to_io bld e) /\ decodes bld None (map B w ++ E e :: ys) (map B p ++ [E e']) ys.
Proof.
  intros H He. induction H as [l Hl|h n data H1 H2|h data sep H1 H2 H3|h data a b p w H1 H2 H3 (e' & IH1 & IH2)].
  - eexists. split; [right; reflexivity|]. simpl. eapply d_bad. unfold chunk_head, expect_next.
    rewrite (items_line_error bld l) by auto using noisy_map_B. reflexivity.
  - eexists. split; [left; reflexivity|].
    replace (map B (h ++ CRLF ++ data) ++ E e :: ys) with (map B (h ++ CRLF) ++ map B data ++ E e :: ys) by assoc_map.
    eapply decodes_size; eauto; [lia|]. apply decodes_data; [lia|]. apply d_fail. lia.
  - eexists. split; [left; reflexivity|].
    replace (map B (h ++ CRLF ++ data ++ sep) ++ E e :: ys)
      with (map B (h ++ CRLF) ++ map B data ++ map B sep ++ E e :: ys) by assoc_map.
    eapply decodes_size; eauto; [destruct data; simpl; [easy|lia]|]. apply decodes_data; [lia|].
    rewrite N.sub_diag. eapply d_sepbad. destruct sep as [|? [|? ?]]; simpl in *; rewrite ?He; try reflexivity; lia.
  - exists e'. split; auto. replace (map B (h ++ CRLF ++ data ++ [a; b] ++ w) ++ E e :: ys)
      with (map B (h ++ CRLF ++ data ++ [a; b]) ++ map B w ++ E e :: ys) by assoc_map.
    rewrite (map_app B data p), <- (app_assoc (map B data)). now apply decodes_chunk.
Qed.

Lemma bad_decodes bld p w ys : bad_wire p w ->
  exists e rest, decodes bld None (map B w ++ ys) (map B p ++ [E e]) rest.
Proof.
  induction 1 as [l w H1 H2|h data a b p w H1 H2 H3 (e & rest & IH)].
  - destruct (chunk_head_bad bld l (map B w ++ ys) H1 H2) as [e He].
    exists (to_io bld e), (map B w ++ ys). apply d_bad.
    replace (map B (l ++ CRLF ++ w) ++ ys) with (map B (l ++ CRLF) ++ map B w ++ ys) by assoc_map. exact He.
  - exists e, rest. replace (map B (h ++ CRLF ++ data ++ [a; b] ++ w) ++ ys)
      with (map B (h ++ CRLF ++ data ++ [a; b]) ++ map B w ++ ys) by assoc_map.
    rewrite (map_app B data p), <- (app_assoc (map B data)). now apply decodes_chunk.
Qed.

(** Every byte string is of one of the three kinds. *)
Lemma size_line_dec l : (exists n, size_line l n) \/ ~ exists n, size_line l n.
Proof.
  destruct (from_str_radix_err 16 u64_max l) as [[n Hn]|[k Hk]].
  - left. exists n. now apply size_line_radix.
  - right. intros [n Hn]. apply size_line_radix in Hn. congruence.
Qed.

Lemma wire_cases w : (exists p w1 w2, w = w1 ++ w2 /\ loose_wire p w1)
  \/ (exists p, partial_wire p w) \/ (exists p, bad_wire p w).
Proof.
  remember (length w) as k eqn:Hk. revert w Hk. induction k as [k IH] using lt_wf_ind; intros w Hk.
  destruct (crlf_cases w) as [H|(l & r & -> & H)].
  { right; left. eauto using pw_line. }
  destruct (size_line_dec l) as [[n Hn]|Hn].
  2:{ right; right. eauto using bw_line. }
  destruct (N.eq_dec n 0) as [->|Hz].
  { left. exists [], (l ++ CRLF), r. split; [now rewrite <- app_assoc|]. now apply lw_last. }
  destruct (N.lt_ge_cases (N.of_nat (length r)) n) as [Hlt|Hge].
  { right; left. exists r. eauto using pw_data. }
  set (data := firstn (N.to_nat n) r). set (tl := skipn (N.to_nat n) r).
  assert (Hr : r = data ++ tl) by (unfold data, tl; now rewrite firstn_skipn).
  assert (Hdl : N.of_nat (length data) = n) by (unfold data; rewrite firstn_length; lia).
  rewrite Hr. rewrite <- Hdl in Hn.
  assert (Hdn : data <> []) by (intros Hd; rewrite Hd in Hdl; simpl in Hdl; lia).
  destruct tl as [|a [|b tl']].
  - right; left. exists data. apply pw_close; auto.
  - right; left. exists data. apply pw_close; auto.
  - destruct (IH (length tl')) with (w := tl') as [(p & w1 & w2 & -> & Hw)|[[p Hp]|[p Hp]]]; auto.
    + rewrite Hk, Hr, !app_length. simpl. lia.
    + left. exists (data ++ p), (l ++ CRLF ++ data ++ [a; b] ++ w1), w2. split; [now rewrite <- !app_assoc|].
      now apply lw_chunk.
    + right; left. exists (data ++ p). now apply (pw_chunk l data a b).
    + right; right. exists (data ++ p). now apply (bw_chunk l data a b).
Qed.

(** A strict prefix of an accepted encoding is a partial one. *)
Lemma app_split_cases {A} (x y u v : list A) : x ++ y = u ++ v ->
  (exists z, z <> [] /\ x = u ++ z /\ v = z ++ y) \/ (exists z, u = x ++ z /\ y = z ++ v).
Proof.
  revert u; induction x as [|a x IH]; intros u H; simpl in *.
  - right. exists u. auto.
  - destruct u as [|b u]; simpl in *.
    + left. exists (a :: x). subst. easy.
    + inversion H; subst. destruct (IH u) as [(z & H0 & -> & ->)|(z & -> & ->)]; auto.
      * left. exists z. auto.
      * right. exists z. auto.
Qed.

Lemma no_crlf_short l pre v : no_crlf l -> l ++ CRLF = pre ++ v -> v <> [] -> no_crlf pre.
Proof.
  intros Hl H Hv. destruct v as [|x v _] using rev_ind; [easy|].
  replace (l ++ CRLF) with ((l ++ [CR]) ++ [LF]) in H by now rewrite <- app_assoc.
  rewrite app_assoc in H. apply app_inj_tail in H as [H _].
  apply no_crlf_prefix with v. rewrite <- H. now apply no_crlf_cr.
Qed.

Lemma loose_prefix p w : loose_wire p w -> forall w' v, w = w' ++ v -> v <> [] ->
  exists p' q, p = p' ++ q /\ partial_wire p' w'.
Proof.
  induction 1 as [z Hz|h data a b p w H1 H2 H3 IH]; intros w' v Hw Hv.
  - exists [], []. split; auto. apply pw_line. eapply no_crlf_short; eauto using size_line_no_crlf.
  - rewrite app_assoc in Hw. symmetry in Hw. apply app_split_cases in Hw as [(z & Hz & -> & Hw)|(z & Hz & ->)].
    2:{ destruct z as [|c z].
        - rewrite app_nil_r in Hz. subst w'. exists [], (data ++ p). split; auto.
          rewrite <- (app_nil_r (h ++ CRLF)), <- app_assoc.
          apply pw_data with (n := N.of_nat (length data)); auto. destruct data; simpl; [easy|lia].
        - exists [], (data ++ p). split; auto. apply pw_line.
          eapply no_crlf_short; eauto using size_line_no_crlf. easy. }
    symmetry in Hw. apply app_split_cases in Hw as [(y & Hy & -> & Hw)|(y & -> & ->)].
    2:{ destruct y as [|c y].
        - rewrite app_nil_r in *. exists z, p. split; auto. rewrite <- app_assoc.
          replace z with (z ++ []) at 2 by apply app_nil_r. apply pw_close; auto; simpl; lia.
        - exists z, ((c :: y) ++ p). split; [now rewrite app_assoc|]. rewrite <- app_assoc.
          eapply pw_data; eauto. rewrite app_length. simpl. lia. }
    symmetry in Hw. apply app_split_cases in Hw as [(x & Hx & -> & ->)|(x & Hs & ->)].
    2:{ destruct x as [|c x].
        - rewrite app_nil_r in Hs. subst y. destruct (IH [] w eq_refl) as (p' & q & -> & Hp).
          + now simpl in Hv.
          + exists (data ++ p'), q. split; [now rewrite app_assoc|].
            rewrite <- app_assoc. rewrite <- (app_nil_r [a; b]). now apply pw_chunk.
        - exists data, p. split; auto. rewrite <- app_assoc. apply pw_close; auto.
          apply (f_equal (@length _)) in Hs. rewrite app_length in Hs. simpl in Hs. lia. }
    destruct (IH x v eq_refl Hv) as (p' & q & -> & Hp). exists (data ++ p'), q.
    split; [now rewrite app_assoc|]. rewrite <- !app_assoc. now apply (pw_chunk h data a b).
Qed.
