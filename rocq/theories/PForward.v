(** Passing a received message on: parse, serialize, parse again. *)
From Verif Require Import Base Utf8 Case Num Io Parser Types Message Transport Lemmas ReadLemmas NumLemmas
  Utf8Lemmas BodyLemmas ParserLemmas CaseLemmas TypesLemmas HeadLemmas BlockLemmas MsgLemmas PParse PHead.

(** ** C63. A received head can be sent on *)
(** What the keys of a received header set have in common with those of [sendable] (C25); a leading blank is
    possible. *)
Definition received_key (k : bytes) : Prop := is_utf8 k /\ ~ In COLON k /\ no_crlf k /\ to_lowercase k = k.
Definition received_headers (h : headers) : Prop :=
  sorted h /\ Forall (fun kv => received_key (fst kv) /\ sendable_value (snd kv)) h
  /\ (forall kv kv', In kv h -> In kv' h -> blank_first (fst kv) -> blank_first (fst kv') -> fst kv = fst kv').

Lemma no_crlf_suffix a b : no_crlf (a ++ b) -> no_crlf b.
Proof. intros H [x [y ->]]. apply H. exists (a ++ x), y. now rewrite <- !app_assoc. Qed.

Lemma folded_no_crlf lines logical : folded lines logical -> Forall no_crlf lines -> Forall no_crlf logical.
Proof.
  induction 1 as [|l conts rest logical Hb Hr Hf IH]; intros H; [constructor|].
  apply Forall_cons_iff in H as [Hl H]. apply Forall_app in H as [Hc H]. constructor; [|now apply IH].
  clear - Hb Hl Hc. revert l Hl. induction Hb as [|c conts (b & t & -> & Hb) Hbs IH]; intros l Hl; cbn [concat].
  - now rewrite app_nil_r.
  - apply Forall_cons_iff in Hc as [Hc Hcs]. rewrite app_assoc. apply IH; auto.
    apply no_crlf_app; auto. now destruct Hb as [->| ->].
Qed.

(** Only the first line of the whole block can start with a blank without being joined to another. *)
Lemma folded_blank lines logical : folded lines logical -> Forall (fun l => l <> []) lines ->
  Forall (fun l => ~ blank_first l) (tl logical)
  /\ ((forall l t, lines = l :: t -> ~ blank_first l) -> Forall (fun l => ~ blank_first l) logical).
Proof.
  induction 1 as [|l conts rest logical Hb Hr Hf IH]; intros Hn; [split; constructor|].
  apply Forall_cons_iff in Hn as [Hl Hn]. apply Forall_app in Hn as [_ Hn]. destruct (IH Hn) as [_ IH2]. cbn [tl].
  specialize (IH2 Hr). split; auto. intros H. constructor; auto. intros (b & t & E & Hbl).
  destruct l as [|c l]; [easy|]. injection E as -> _. apply (H _ _ eq_refl). exists b, l. auto.
Qed.

Lemma header_of_received line h : is_utf8 line -> no_crlf line -> header_of line h ->
  received_key (fst h) /\ sendable_value (snd h) /\ (blank_first (fst h) -> blank_first line).
Proof.
  intros Hu Hn (k & v & Hk & -> & ->). cbn [fst snd]. change (bs ": " ++ v) with (COLON :: SP :: v) in *.
  destruct (header_split _ _ Hu) as [U1 U2]. pose proof (no_crlf_prefix _ _ Hn) as N1. apply no_crlf_suffix in Hn.
  split; [|split].
  - repeat split; auto using to_lowercase_utf8, to_lowercase_crlf, to_lowercase_idem.
    intros H. apply Hk. apply to_lowercase_special; auto. easy.
  - split.
    + change (SP :: v) with ([] ++ SP :: v) in U2. rewrite is_utf8_valid in *. apply valid_split_ascii in U2; [now apply U2|easy].
    + now apply (no_crlf_suffix [COLON; SP]).
  - intros (b & t & E & Hb). assert (Hsp : (bval b < 128)%N /\ special (bval b) = true) by (destruct Hb as [->| ->]; easy).
    destruct (to_lowercase_head b t k U1 (proj1 Hsp) (proj2 Hsp) E) as [t' ->]. exists b, (t' ++ COLON :: SP :: v). auto.
Qed.

Lemma headers_from_in l : forall kv, In kv (headers_from l) -> In kv l.
Proof.
  unfold headers_from. assert (H : forall m kv, In kv (fold_left (fun m kv => hm_insert (fst kv) (snd kv) m) l m) -> In kv l \/ In kv m).
  { induction l as [|[k v] l IH]; intros m kv; cbn [fold_left]; [auto|]. intros H. apply IH in H as [H|H]; [left; now right|].
    apply hm_insert_in in H as [->|H]; auto. left. now left. }
  intros kv Hkv. apply H in Hkv as [Hkv|[]]. auto.
Qed.

Lemma accepted_received lines h : Forall text_line lines -> accepted_block lines h -> received_headers h.
Proof.
  intros Ht (logical & hs & Hf & H2 & ->).
  assert (Hu : Forall is_utf8 logical) by (apply (folded_utf8 _ _ Hf); now apply text_utf8).
  assert (Hn : Forall no_crlf logical).
  { apply (folded_no_crlf _ _ Hf). eapply Forall_impl; [|exact Ht]. intros l Hl. apply Hl. }
  destruct (folded_blank _ _ Hf) as [Hb _]. { eapply Forall_impl; [|exact Ht]. intros l Hl. apply Hl. }
  assert (Hall : Forall (fun kv => received_key (fst kv) /\ sendable_value (snd kv)) hs).
  { clear - H2 Hu Hn. induction H2 as [|l h ls hs H H2 IH]; constructor.
    - apply Forall_cons_iff in Hu as [Hu _]. apply Forall_cons_iff in Hn as [Hn _]. now destruct (header_of_received l h Hu Hn H) as (A & B & _).
    - apply Forall_cons_iff in Hu as [_ Hu]. apply Forall_cons_iff in Hn as [_ Hn]. now apply IH. }
  assert (Htl : Forall (fun kv => ~ blank_first (fst kv)) (tl hs)).
  { destruct H2 as [|l h ls hs H H2]; [constructor|]. cbn [tl] in *.
    apply Forall_cons_iff in Hu as [_ Hu]. apply Forall_cons_iff in Hn as [_ Hn]. clear - H2 Hu Hn Hb.
    induction H2 as [|l h ls hs H H2 IH]; constructor.
    - apply Forall_cons_iff in Hu as [Hu _]. apply Forall_cons_iff in Hn as [Hn _]. apply Forall_cons_iff in Hb as [Hb _].
      intros Hc. apply Hb. now apply (header_of_received l h Hu Hn H).
    - apply Forall_cons_iff in Hu as [_ Hu]. apply Forall_cons_iff in Hn as [_ Hn]. apply Forall_cons_iff in Hb as [_ Hb]. now apply IH. }
  split; [apply headers_from_sorted|]. split.
  - rewrite Forall_forall in *. intros kv Hin. apply Hall. now apply headers_from_in.
  - intros kv kv' I1 I2 B1 B2. apply headers_from_in in I1, I2.
    rewrite Forall_forall in Htl. destruct hs as [|h0 hs]; [easy|]. cbn [tl] in Htl.
    destruct I1 as [<-|I1]; [|now apply Htl in I1]. destruct I2 as [<-|I2]; [auto|now apply Htl in I2].
Qed.

(** The keys after the first do not start with a blank. *)
Definition forwardable (h : headers) : Prop := Forall (fun kv => ~ blank_first (fst kv)) (tl h).

Lemma received_text h : Forall (fun kv => received_key (fst kv) /\ sendable_value (snd kv)) h -> Forall text_line (map header_line h).
Proof.
  intros H. apply Forall_forall. intros l Hl. apply in_map_iff in Hl as ([k v] & <- & Hin).
  rewrite Forall_forall in H. apply H in Hin as [(H1 & H2 & H3 & H4) Hv]. now apply header_line_text.
Qed.
Lemma received_header_of kv : received_key (fst kv) -> header_of (header_line kv) kv.
Proof. destruct kv as [k v]. intros (_ & H2 & _ & H4). exists k, v. cbn [fst] in *. now rewrite H4. Qed.
Lemma received_header_of_all h : Forall (fun kv => received_key (fst kv) /\ sendable_value (snd kv)) h ->
  Forall2 header_of (map header_line h) h.
Proof. induction 1 as [|kv h [H1 _] H IH]; constructor; auto. now apply received_header_of. Qed.
Lemma not_blank_lines h : Forall (fun kv => ~ blank_first (fst kv)) h -> Forall (fun l => ~ blank_first l) (map header_line h).
Proof.
  intros H. apply Forall_forall. intros l Hl. apply in_map_iff in Hl as ([k v] & <- & Hin).
  rewrite Forall_forall in H. apply H in Hin. now apply header_line_not_blank.
Qed.

Lemma folded_first l ls : Forall (fun l => ~ blank_first l) ls -> folded (l :: ls) (l :: ls).
Proof.
  intros H. pose proof (folded_group l [] ls ls) as Hg. cbn [app concat] in Hg. rewrite app_nil_r in Hg. apply Hg; auto.
  - intros l' t ->. now apply Forall_cons_iff in H.
  - now apply folded_plain.
Qed.

Lemma forward_same h : received_headers h -> forwardable h -> accepted_block (map header_line h) h.
Proof.
  intros (Hs & Hf & _) Hb. exists (map header_line h), h. split; [|split; [now apply received_header_of_all|now rewrite headers_from_id]].
  destruct h as [|kv h]; [constructor|]. cbn [map tl] in *. apply folded_first. now apply not_blank_lines.
Qed.

(** Otherwise the key with the leading blank is not first, and its whole line becomes part of the value before
    it. *)
Lemma sorted_app h1 h2 : sorted (h1 ++ h2) -> sorted h1 /\ sorted h2 /\ forall k v k' v', In (k, v) h1 -> In (k', v') h2 -> blt k k'.
Proof.
  induction h1 as [|[k v] h1 IH]; cbn [app]; intros H; [split; [constructor|split; auto; easy]|].
  inversion H as [|? ? ? Hk Hs]; subst. destruct (IH Hs) as (S1 & S2 & S3). split; [|split; auto].
  - constructor; auto. intros k' v' Hin. apply (Hk k' v'). apply in_or_app. now left.
  - intros a b a' b' [[= <- <-]|Hin] Hin'; [|eapply S3; eauto]. apply (Hk a' b'). apply in_or_app. now right.
Qed.

Definition merged (h h' : headers) : Prop :=
  exists h1 k1 v1 k v h2, h = h1 ++ (k1, v1) :: (k, v) :: h2 /\ blank_first k
    /\ h' = h1 ++ (k1, v1 ++ k ++ bs ": " ++ v) :: h2.

Lemma forwardable_or h : forwardable h \/ exists h', merged h h'.
Proof.
  unfold forwardable. destruct h as [|[k1 v1] h]; [left; constructor|]. cbn [tl].
  enough (H : Forall (fun kv => ~ blank_first (fst kv)) h
    \/ exists h1 k1' v1' k v h2, (k1, v1) :: h = h1 ++ (k1', v1') :: (k, v) :: h2 /\ blank_first k).
  { destruct H as [H|(h1 & k1' & v1' & k & v & h2 & H & Hb)]; auto. right. eexists _, h1, k1', v1', k, v, h2. eauto. }
  revert k1 v1. induction h as [|[k v] h IH]; intros k1 v1; [left; constructor|].
  destruct (starts_blank k) eqn:E.
  - right. exists [], k1, v1, k, v, h. split; auto. now apply starts_blank_true.
  - destruct (IH k v) as [H|(h1 & k1' & v1' & k' & v' & h2 & H & Hb)].
    + left. constructor; auto. now apply starts_blank_false.
    + right. exists ((k1, v1) :: h1), k1', v1', k', v', h2. split; [exact (f_equal (cons (k1, v1)) H)|auto].
Qed.

Lemma merged_not_forwardable h h' : merged h h' -> ~ forwardable h /\ h' <> h.
Proof.
  intros (h1 & k1 & v1 & k & v & h2 & -> & Hb & ->). split.
  - unfold forwardable. destruct h1 as [|x h1]; cbn [app tl]; intros H.
    + now apply Forall_cons_iff in H.
    + apply Forall_app in H as [_ H]. apply Forall_cons_iff in H as [_ H]. now apply Forall_cons_iff in H.
  - intros E. apply (f_equal (@length _)) in E. rewrite !app_length in E. cbn [length] in E. lia.
Qed.

Lemma folded_app_plain ls rest logical : Forall (fun l => ~ blank_first l) ls ->
  (forall l' t, rest = l' :: t -> ~ blank_first l') -> folded rest logical -> folded (ls ++ rest) (ls ++ logical).
Proof.
  intros H Hr Hf. induction H as [|l ls Hl H IH]; auto. cbn [app].
  pose proof (folded_group l [] (ls ++ rest) (ls ++ logical)) as Hg. cbn [app concat] in Hg. rewrite app_nil_r in Hg. apply Hg; auto.
  intros l' t E. destruct H as [|l2 ls Hl2 H]; [now apply (Hr l' t)|]. now injection E as <- _.
Qed.

Lemma in_mid {A} (x y z : A) h1 h2 : In x (h1 ++ z :: h2) -> In x (h1 ++ z :: y :: h2).
Proof. rewrite !in_app_iff. cbn [In]. tauto. Qed.

Lemma received_others h1 kv h2 : received_headers (h1 ++ kv :: h2) -> blank_first (fst kv) ->
  Forall (fun kv => ~ blank_first (fst kv)) h1 /\ Forall (fun kv => ~ blank_first (fst kv)) h2.
Proof.
  intros (Hs & _ & Hu) Hb. destruct kv as [k v]. destruct (sorted_app _ _ Hs) as (_ & S2 & S3). inversion S2 as [|? ? ? S4 _]; subst.
  split; apply Forall_forall; intros [k' v'] Hin Hb'; cbn [fst] in *.
  - assert (E : k' = k) by (apply (Hu (k', v') (k, v)); auto; apply in_or_app; [now left|right; now left]).
    subst k'. apply (blt_irrefl k). apply (S3 k v' k v); auto. now left.
  - assert (E : k' = k) by (apply (Hu (k', v') (k, v)); auto; apply in_or_app; right; [now right|now left]).
    subst k'. apply (blt_irrefl k). now apply (S4 k v').
Qed.

(** The key before it is empty or starts with a control character, so it is no name the library looks up. *)
Lemma before_blank k1 k : blt k1 k -> blank_first k -> ~ blank_first k1 ->
  k1 = [] \/ exists c t, k1 = c :: t /\ (bval c < 32)%N.
Proof.
  intros H (b & t & -> & Hb) Hk. destruct k1 as [|c s]; auto. right. exists c, s. split; auto. unfold blt in H. cbn [bcompare] in H.
  assert (Hc : (bval c <= bval b)%N) by (destruct (N.compare_spec (bval c) (bval b)); [lia|lia|easy]).
  destruct (N.eq_dec (bval c) 32) as [Ec|Ec].
  - exfalso. apply Hk. exists c, s. split; auto. left. now apply bval_inj.
  - destruct Hb as [->| ->]; [change (bval SP) with 32%N in Hc|change (bval TAB) with 9%N in Hc]; lia.
Qed.

Lemma merged_same_get h h' key : received_headers h -> merged h h' -> key <> [] ->
  (forall c t, key = c :: t -> (32 < bval c)%N) -> hm_get key h' = hm_get key h.
Proof.
  intros Hr (h1 & k1 & v1 & k & v & h2 & -> & Hb & ->) Hne Hkey. pose proof Hr as (Hs & _ & _).
  assert (Hk1 : blt k1 k).
  { destruct (sorted_app _ _ Hs) as (_ & S2 & _). inversion S2 as [|? ? ? S4 _]; subst. apply (S4 k v). now left. }
  assert (N1 : ~ blank_first k1).
  { change (h1 ++ (k1, v1) :: (k, v) :: h2) with (h1 ++ [(k1, v1)] ++ (k, v) :: h2) in Hr. rewrite app_assoc in Hr.
    destruct (received_others _ _ _ Hr Hb) as [H _]. apply Forall_app in H as [_ H]. now apply Forall_cons_iff in H. }
  assert (E1 : beqb key k1 = false).
  { apply beqb_false. intros ->. destruct (before_blank k1 k Hk1 Hb N1) as [->|(c & t & -> & Hc)]; [easy|].
    specialize (Hkey c t eq_refl). lia. }
  assert (E2 : beqb key k = false).
  { apply beqb_false. intros ->. destruct Hb as (b & t & -> & Hb). specialize (Hkey b t eq_refl).
    destruct Hb as [->| ->]; [change (bval SP) with 32%N in Hkey|change (bval TAB) with 9%N in Hkey]; lia. }
  clear - E1 E2. induction h1 as [|[k0 v0] h1 IH]; cbn [app hm_get]; [now rewrite E1, E2|]. now rewrite IH.
Qed.

Lemma forward_merged h h' : received_headers h -> merged h h' ->
  accepted_block (map header_line h) h' /\ received_headers h' /\ forwardable h'.
Proof.
  intros Hr (h1 & k1 & v1 & k & v & h2 & -> & Hb & ->). pose proof Hr as (Hs & Hf & Hu).
  assert (Hr' := Hr). change (h1 ++ (k1, v1) :: (k, v) :: h2) with (h1 ++ [(k1, v1)] ++ (k, v) :: h2) in Hr'. rewrite app_assoc in Hr'.
  destruct (received_others _ _ _ Hr' Hb) as [B1 B2]. apply Forall_app in B1 as [B1 B1']. apply Forall_cons_iff in B1' as [Bk1 _].
  cbn [fst] in Bk1. clear Hr'.
  set (h' := h1 ++ (k1, v1 ++ k ++ bs ": " ++ v) :: h2).
  apply Forall_app in Hf as [F1 Hf]. apply Forall_cons_iff in Hf as [[Fk1 Fv1] Hf]. apply Forall_cons_iff in Hf as [[Fk Fv] F2].
  cbn [fst snd] in *.
  assert (Hs' : sorted h').
  { destruct (sorted_app _ _ Hs) as (S1 & S2 & S3). inversion S2 as [|? ? ? S4 S5]; subst. inversion S5 as [|? ? ? S6 S7]; subst.
    assert (S8 : sorted ((k1, v1 ++ k ++ bs ": " ++ v) :: h2)).
    { constructor; auto. intros k' v' Hin. apply (S4 k' v'). now right. }
    assert (S9 : forall a b a' b', In (a, b) h1 -> In (a', b') ((k1, v1 ++ k ++ bs ": " ++ v) :: h2) -> blt a a').
    { intros a b a' b' Hin [[= <- <-]|Hin']; [apply (S3 a b k1 v1); auto; now left|]. apply (S3 a b a' b'); auto. right. now right. }
    clear - S1 S8 S9. unfold h'. induction S1 as [|a b m Hm S1 IH]; cbn [app]; auto. constructor.
    - intros k' v' Hin. apply in_app_or in Hin as [Hin|Hin]; [now apply (Hm k' v')|]. eapply (S9 a b k' v'); auto. now left.
    - apply IH. intros a0 b0 a' b' Hin Hin'. apply (S9 a0 b0 a' b'); auto. now right. }
  assert (Fv' : sendable_value (v1 ++ k ++ bs ": " ++ v)).
  { destruct Fv1 as [V1 V2], Fv as [V3 V4], Fk as (K1 & K2 & K3 & _). split.
    - rewrite is_utf8_valid in *. apply valid_app; auto. apply valid_app; auto. apply valid_app; auto.
    - destruct Hb as (b & t & -> & Hb). cbn [app]. apply no_crlf_app; auto; [now destruct Hb as [->| ->]|].
      change (b :: t ++ bs ": " ++ v) with ((b :: t) ++ COLON :: SP :: v). apply no_crlf_app; try easy.
      apply no_crlf_cons; [easy|]. now apply no_crlf_cons. }
  assert (Ff' : Forall (fun kv => received_key (fst kv) /\ sendable_value (snd kv)) h').
  { apply Forall_app. split; auto. }
  assert (Fb' : Forall (fun kv => ~ blank_first (fst kv)) h').
  { apply Forall_app. split; auto. }
  split; [|split].
  - exists (map header_line h'), h'. split; [|split; [now apply received_header_of_all|now rewrite headers_from_id]].
    unfold h'. rewrite !map_app. cbn [map]. apply folded_app_plain; [now apply not_blank_lines| |].
    + intros l' t [= <- _]. now apply header_line_not_blank.
    + pose proof (folded_group (header_line (k1, v1)) [header_line (k, v)] (map header_line h2) (map header_line h2)) as Hg.
      cbn [app concat] in Hg. rewrite app_nil_r in Hg.
      replace (header_line (k1, v1 ++ k ++ bs ": " ++ v)) with (header_line (k1, v1) ++ header_line (k, v))
        by (unfold header_line; cbn [fst snd]; now rewrite <- !app_assoc).
      apply Hg.
      * constructor; [|constructor]. destruct Hb as (b & t & -> & Hb). exists b, (t ++ bs ": " ++ v). auto.
      * apply not_blank_lines in B2. intros l' t E. rewrite E in B2. now apply Forall_cons_iff in B2.
      * apply folded_plain. now apply not_blank_lines.
  - split; auto. split; auto. intros kv kv' I1 _ X _. rewrite Forall_forall in Fb'. now apply Fb' in I1.
  - unfold forwardable. fold h'. destruct Fb'; [constructor|]. now cbn [tl].
Qed.

(** What is read when [h] is sent on: itself, or the merged set. *)
Definition forwarded (h h' : headers) : Prop := (forwardable h /\ h' = h) \/ merged h h'.

Lemma forward_headers h : received_headers h ->
  exists h', accepted_block (map header_line h) h' /\ forwarded h h' /\ received_headers h' /\ forwardable h'
    /\ forall key, key <> [] -> (forall c t, key = c :: t -> (32 < bval c)%N) -> hm_get key h' = hm_get key h.
Proof.
  intros Hr. destruct (forwardable_or h) as [Hf|[h' Hm]].
  - exists h. split; [now apply forward_same|]. split; [now left|auto].
  - exists h'. destruct (forward_merged h h' Hr Hm) as (H1 & H2 & H3). split; auto. split; [now right|].
    split; auto. split; auto. intros key. now apply merged_same_get.
Qed.

Lemma framed_good_length {T} h (t : T) b : framed h t b -> good_length h.
Proof.
  intros (len & [[H _]|(v & n & H & Hn & _)] & _) w Hw; rewrite H in Hw; [easy|]. injection Hw as <-. eauto.
Qed.
Lemma framed_same {T} h h' (t : T) b : (forall key, key <> [] -> (forall c t, key = c :: t -> (32 < bval c)%N) -> hm_get key h' = hm_get key h) ->
  framed h' t b -> framed h t b.
Proof.
  intros H. unfold framed. rewrite !H; auto; try easy; now intros c s [= <- _].
Qed.

Lemma request_line_received first m u v : text_line first -> request_line_says first m u v ->
  sendable_uri u /\ small_version v.
Proof.
  intros (_ & Hn & Hu) (t1 & w1 & r1 & w2 & r2 & t3 & w3 & r3 & S1 & S2 & S3 & N1 & N2 & _ & d1 & d2 & rest & D1 & D2 & _ & ->).
  destruct (split_utf8 _ _ _ _ S1 Hu) as [_ U1]. destruct (split_utf8 _ _ _ _ S2 U1) as [U2 _].
  split.
  - split; [|split; [auto|split]].
    + destruct S1 as (_ & _ & _ & Hnb & _), S2 as (E2 & _ & Hw & _ & Hw0). intros ->. cbn [app] in E2.
      destruct w2 as [|b w2]; [now apply N2, Hw0|]. apply Forall_cons_iff in Hw as [Hb _]. now apply (Hnb b (w2 ++ r2)).
    + apply S2.
    + destruct S1 as (-> & _), S2 as (-> & _). apply no_crlf_suffix, no_crlf_suffix in Hn. now apply no_crlf_prefix in Hn.
  - unfold dec_digit, dec_value in *. split; cbn [vmajor vminor]; lia.
Qed.
Lemma status_line_received first v st : status_line_says first v st ->
  small_version v /\ exists n, (n < 2 ^ 32)%N /\ st = from_code n.
Proof.
  intros (t1 & w1 & r1 & t2 & w2 & r2 & n & _ & (d1 & d2 & rest & D1 & D2 & _ & ->) & _ & _ & Hn & _ & ->). split; eauto.
  unfold dec_digit, dec_value in *. split; cbn [vmajor vminor]; lia.
Qed.

(** A received request is written out again (to any peer, with anything after it): the peer reads the same method,
    URI and version, and the same headers except in the corner case [merged]; the body is framed as it was for the
    first reader either way. *)
Theorem C63_request :
  forall T T' bld bld' (rd : reader T) (rd' : reader T') fuel fuel' t xs q t' s zs,
  let wire := map B (concat (request_pieces q)) ++ zs in
  delivers rd t xs -> length xs < fuel -> request_deserialize bld rd fuel t = (Ok q, t') ->
  delivers rd' s wire -> length wire < fuel' ->
  exists h' b s',
    request_deserialize bld' rd' fuel' s = (Ok (mkRequest (rq_method q) (rq_uri q) (rq_version q) h' b), s')
    /\ forwarded (rq_headers q) h' /\ (h' = rq_headers q <-> forwardable (rq_headers q))
    /\ framed (rq_headers q) s' b /\ delivers rd' s' zs.
Proof.
  intros T T' bld bld' rd rd' fuel fuel' t xs q t' s zs wire D L E D' L'. subst wire.
  pose proof (C13_request _ _ _ _ _ _ _ E) as Hfr. apply framed_good_length in Hfr.
  destruct (C30_request _ _ _ _ _ _ _ _ D L E) as (first & lines & cx & ys & _ & _ & Ht & Hts & Hl & Hb & _).
  destruct (request_line_received _ _ _ _ Ht Hl) as [Hu Hv]. apply (accepted_received _ _ Hts) in Hb.
  destruct (forward_headers _ Hb) as (h' & Hacc & Hfw & Hr' & Hfb & Hget).
  assert (Hgl : good_length h').
  { intros w Hw. apply Hfr. rewrite <- Hget; auto; try easy. now intros c x [= <- _]. }
  rewrite request_pieces_wire, headers_pieces_wire in D', L'.
  destruct (request_line_ok (rq_method q) (rq_uri q) (rq_version q) Hu Hv) as [R1 R2].
  destruct (C30_request_accepts _ bld' rd' fuel' s _ (map header_line (rq_headers q)) zs (rq_method q) (rq_uri q) (rq_version q) h'
    R1 (received_text _ (proj1 (proj2 Hb))) (request_line_meaning _ _ _ _ (proj2 (proj2 R1)) R2) Hacc Hgl D' L')
    as (b & s' & E' & F' & D'').
  exists h', b, s'. split; auto. split; auto. split; [|split; auto; now apply (framed_same _ h')].
  split; [intros ->; auto|]. intros Hf. destruct Hfw as [[_ ->]|Hm]; auto. now apply merged_not_forwardable in Hm.
Qed.
Print Assumptions C63_request.

Theorem C63_response :
  forall T T' bld bld' (rd : reader T) (rd' : reader T') fuel fuel' t xs q t' s zs,
  let wire := map B (concat (response_pieces q)) ++ zs in
  delivers rd t xs -> length xs < fuel -> response_deserialize bld rd fuel t = (Ok q, t') ->
  delivers rd' s wire -> length wire < fuel' ->
  exists h' b s',
    response_deserialize bld' rd' fuel' s = (Ok (mkResponse (rs_version q) (rs_status q) h' b), s')
    /\ forwarded (rs_headers q) h' /\ (h' = rs_headers q <-> forwardable (rs_headers q))
    /\ framed (rs_headers q) (bufr_new s') b /\ delivers rd' s' zs.
Proof.
  intros T T' bld bld' rd rd' fuel fuel' t xs q t' s zs wire D L E D' L'. subst wire.
  pose proof (C13_response _ _ _ _ _ _ _ E) as Hfr. apply framed_good_length in Hfr.
  destruct (C30_response _ _ _ _ _ _ _ _ D L E) as (first & lines & cx & ys & _ & _ & Ht & Hts & Hl & Hb & _).
  destruct (status_line_received _ _ _ Hl) as (Hv & n & Hn & Hst). apply (accepted_received _ _ Hts) in Hb.
  destruct (forward_headers _ Hb) as (h' & Hacc & Hfw & Hr' & Hfb & Hget).
  assert (Hgl : good_length h').
  { intros w Hw. apply Hfr. rewrite <- Hget; auto; try easy. now intros c x [= <- _]. }
  rewrite response_pieces_wire, headers_pieces_wire in D', L'.
  destruct (status_line_ok (rs_version q) (rs_status q) Hv) as [R1 R2].
  { rewrite Hst, C18_from_to. unfold u32_max. lia. }
  assert (R3 : from_code (to_code (rs_status q)) = rs_status q) by (rewrite Hst; now rewrite C18_from_to). rewrite R3 in R2.
  destruct (C30_response_accepts _ bld' rd' fuel' s _ (map header_line (rs_headers q)) zs (rs_version q) (rs_status q) h'
    R1 (received_text _ (proj1 (proj2 Hb))) (status_line_meaning _ _ _ (proj2 (proj2 R1)) R2) Hacc Hgl D' L')
    as (b & s' & E' & F' & D'').
  exists h', b, s'. split; auto. split; auto. split; [|split; auto; now apply (framed_same _ h')].
  split; [intros ->; auto|]. intros Hf. destruct Hfw as [[_ ->]|Hm]; auto. now apply merged_not_forwardable in Hm.
Qed.
Print Assumptions C63_response.

(** Whatever was received first: from the second hop on, heads are passed on unchanged. *)
Theorem C63_second_hop :
  forall T T' T'' bld bld' bld'' (rd : reader T) (rd' : reader T') (rd'' : reader T'') fuel fuel' fuel'' t xs q t' s zs q' s' r ws,
  let wire := map B (concat (request_pieces q)) ++ zs in
  let wire' := map B (concat (request_pieces q')) ++ ws in
  delivers rd t xs -> length xs < fuel -> request_deserialize bld rd fuel t = (Ok q, t') ->
  delivers rd' s wire -> length wire < fuel' -> request_deserialize bld' rd' fuel' s = (Ok q', s') ->
  delivers rd'' r wire' -> length wire' < fuel'' ->
  exists b r', request_deserialize bld'' rd'' fuel'' r = (Ok (mkRequest (rq_method q) (rq_uri q) (rq_version q) (rq_headers q') b), r')
    /\ framed (rq_headers q) r' b /\ delivers rd'' r' ws.
Proof.
  intros T T' T'' bld bld' bld'' rd rd' rd'' fuel fuel' fuel'' t xs q t' s zs q' s' r ws wire wire' D L E D' L' E' D'' L''.
  destruct (C63_request _ _ bld bld' rd rd' fuel fuel' t xs q t' s zs D L E D' L') as (h' & b & s1 & E1 & F1 & F2 & F3 & F4).
  rewrite E1 in E'. injection E' as <- <-.
  destruct (C63_request _ _ bld' bld'' rd' rd'' fuel' fuel'' s _ _ s1 r ws D' L' E1 D'' L'') as (h2 & b2 & r2 & E2 & G1 & G2 & G3 & G4).
  cbn [rq_method rq_uri rq_version rq_headers] in *.
  assert (Hr : received_headers (rq_headers q)).
  { destruct (C30_request _ _ _ _ _ _ _ _ D L E) as (first & lines & cx & ys & _ & _ & _ & Hts & _ & Hb & _).
    now apply (accepted_received _ _ Hts) in Hb. }
  assert (Hf : forwardable h').
  { destruct F1 as [[Hf ->]|Hm]; auto. now apply (forward_merged _ _ Hr Hm). }
  assert (Hg : forall key, key <> [] -> (forall c t, key = c :: t -> (32 < bval c)%N) -> hm_get key h' = hm_get key (rq_headers q)).
  { intros key. destruct F1 as [[_ ->]|Hm]; auto. now apply merged_same_get. }
  apply G2 in Hf. subst h2. exists b2, r2. split; auto. split; auto. now apply (framed_same _ h').
Qed.
Print Assumptions C63_second_hop.

(** The unconditional claim is false: a message that was accepted, and reads differently one hop later. *)
Definition C63_bytes : bytes :=
  bs "GET /x HTTP/1.1" ++ CRLF ++ bs " X-Role: none" ++ CRLF ++ bs ": a" ++ CRLF ++ bs "Host: h" ++ CRLF ++ CRLF.
Theorem C63_always_same_refuted :
  ~ (forall evs q t', request_deserialize Std seg_read (S (length (items_of evs))) evs = (Ok q, t') ->
     exists b t2, request_deserialize Std seg_read 1000 (text (concat (request_pieces q))) =
       (Ok (mkRequest (rq_method q) (rq_uri q) (rq_version q) (rq_headers q) b), t2)).
Proof.
  intros H. specialize (H (text C63_bytes)).
  destruct (request_deserialize Std seg_read (S (length (items_of (text C63_bytes)))) (text C63_bytes)) as [[q| | |] t'] eqn:E;
    vm_compute in E; try discriminate. injection E as <- <-. destruct (H _ _ eq_refl) as (b & t2 & H'). vm_compute in H'. discriminate.
Qed.
Print Assumptions C63_always_same_refuted.

Example C63_case :
  let got m := match request_deserialize Std seg_read 1000 (text m) with
               | (Ok q, _) => Some (rq_method q, rq_uri q, rq_headers q, concat (request_pieces q)) | _ => None end in
  let m1 := bs "pUT   /a%20b  HTTP/1.0!  x" ++ CRLF ++ bs " First: 1" ++ CRLF ++ bs "B: 2" ++ CRLF ++ bs "  3" ++ CRLF
            ++ bs "b2:   4 " ++ CRLF ++ bs "B: 5" ++ CRLF ++ CRLF in
  let sent := bs "PUT /a%20b HTTP/1.0" ++ CRLF ++ bs " first: 1" ++ CRLF ++ bs "b: 5" ++ CRLF ++ bs "b2:   4 " ++ CRLF ++ CRLF in
  let h := [(bs " first", bs "1"); (bs "b", bs "5"); (bs "b2", bs "  4 ")] in
  got m1 = Some (Put, bs "/a%20b", h, sent) /\ got sent = Some (Put, bs "/a%20b", h, sent) /\ forwardable h
  /\ got C63_bytes = Some (Get, bs "/x", [([], bs "a"); (bs " x-role", bs "none"); (bs "host", bs "h")],
       bs "GET /x HTTP/1.1" ++ CRLF ++ bs ": a" ++ CRLF ++ bs " x-role: none" ++ CRLF ++ bs "host: h" ++ CRLF ++ CRLF)
  /\ got (bs "GET /x HTTP/1.1" ++ CRLF ++ bs ": a" ++ CRLF ++ bs " x-role: none" ++ CRLF ++ bs "host: h" ++ CRLF ++ CRLF)
     = Some (Get, bs "/x", [([], bs "a x-role: none"); (bs "host", bs "h")],
       bs "GET /x HTTP/1.1" ++ CRLF ++ bs ": a x-role: none" ++ CRLF ++ bs "host: h" ++ CRLF ++ CRLF).
Proof.
  cbv zeta. split; [vm_compute; reflexivity|]. split; [vm_compute; reflexivity|]. split; [|split; vm_compute; reflexivity].
  repeat constructor; intros (b & t & [= <- _] & [H|H]); easy.
Qed.
