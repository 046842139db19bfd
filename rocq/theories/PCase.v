(** Which texts are taken for a method or for a header name, among all of Unicode: C82. *)
From Verif Require Import Base Utf8 UnicodeTables Case Num Io Parser Types Message Transport Lemmas NumLemmas Utf8Lemmas ParserLemmas CaseLemmas TypesLemmas
  HeadLemmas BlockLemmas MsgLemmas PParse PHead PFraming.

(** ** Words written in other characters *)
(** [spelled same odd s w]: the text [s] is the word [w] with letters replaced by letters that are the same by [same], and pieces of it by
    characters that [odd] lists for them. *)
Inductive spelled (same : byte -> byte -> Prop) (odd : list (N * bytes)) : bytes -> bytes -> Prop :=
| sp_nil : spelled same odd [] []
| sp_same a b s w : same a b -> spelled same odd s w -> spelled same odd (a :: s) (b :: w)
| sp_odd x p s w : In (x, p) odd -> spelled same odd s w -> spelled same odd (encode_char x ++ s) (p ++ w).

(** All characters outside ASCII whose upper case is in ASCII: dotless i, long s, sharp s, and the ligatures ff, fi, fl, ffi, ffl, long s t, st. *)
Definition odd_upper : list (N * bytes) :=
  [(305%N, bs "I"); (383%N, bs "S"); (223%N, bs "SS"); (64256%N, bs "FF"); (64257%N, bs "FI"); (64258%N, bs "FL"); (64259%N, bs "FFI");
   (64260%N, bs "FFL"); (64261%N, bs "ST"); (64262%N, bs "ST")].
(** Those that matter in methods. *)
Definition odd_method : list (N * bytes) := [(305%N, bs "I"); (383%N, bs "S"); (64261%N, bs "ST"); (64262%N, bs "ST")].
(** All characters outside ASCII whose lower case is in ASCII: the Kelvin sign. *)
Definition odd_lower : list (N * bytes) := [(8490%N, bs "k")].

Definition same_lower (a b : byte) : Prop := a = b \/ (65 <= bval a <= 90 /\ bval b = bval a + 32)%N.

Definition list_eqb (a b : list N) : bool := if list_eq_dec N.eq_dec a b then true else false.
Lemma list_eqb_true a b : list_eqb a b = true -> a = b.
Proof. unfold list_eqb. now destruct (list_eq_dec N.eq_dec a b). Qed.
Definition fits (odd : list (N * bytes)) (e : N * list N) : bool :=
  forallb scalar (snd e) &&
  ((fst e <? 128)%N || existsb (fun d => 128 <=? d)%N (snd e) || existsb (fun q => (fst q =? fst e)%N && list_eqb (snd e) (map bval (snd q))) odd).
Lemma upper_fits : forallb (fits odd_upper) upper_table = true.
Proof. vm_compute. reflexivity. Qed.
Lemma lower_fits : forallb (fits odd_lower) lower_table = true.
Proof. vm_compute. reflexivity. Qed.
Lemma odd_upper_ok : forallb (fun q => scalar (fst q) && list_eqb (upper_char (fst q)) (map bval (snd q))) odd_upper = true.
Proof. vm_compute. reflexivity. Qed.
Lemma odd_lower_ok : forallb (fun q => scalar (fst q) && negb (fst q =? 931)%N && list_eqb (lower_char (fst q)) (map bval (snd q))) odd_lower = true.
Proof. vm_compute. reflexivity. Qed.

Lemma small_byte c : (c < 128)%N -> exists a, c = bval a.
Proof. intros H. exists (byte_of c). now rewrite bval_byte_of by lia. Qed.
Lemma map_bval_inj : forall a b, map bval a = map bval b -> a = b.
Proof. induction a as [|x a IH]; intros [|y b] E; try easy. injection E as E1 E2. f_equal; [|auto]. now rewrite <- (byte_of_bval x), E1, byte_of_bval. Qed.
Lemma map_split : forall p l w, map bval p ++ l = map bval w -> exists w', w = p ++ w' /\ l = map bval w'.
Proof.
  induction p as [|x p IH]; intros l w E; cbn [map app] in E; [now exists w|]. destruct w as [|y w]; [easy|]. injection E as E1 E2.
  destruct (IH _ _ E2) as (w' & -> & ->). exists w'. split; auto. cbn [app]. f_equal. now rewrite <- (byte_of_bval x), E1, byte_of_bval.
Qed.

(** What a character becomes, if that is in ASCII. *)
Lemma table_cases odd table c : forallb (fits odd) table = true -> scalar c = true ->
  let l := match assocN table c with Some l => l | None => [c] end in
  Forall (fun d => scalar d = true) l
  /\ ((c < 128)%N \/ (exists d, In d l /\ (128 <= d)%N) \/ exists p, In (c, p) odd /\ l = map bval p).
Proof.
  intros Ht Hs. cbv zeta. destruct (assocN table c) as [l|] eqn:E.
  - apply assocN_in in E. rewrite forallb_forall in Ht. apply Ht in E. unfold fits in E. cbn [fst snd] in E.
    apply andb_true_iff in E as [E1 E2]. split; [rewrite forallb_forall in E1; now apply Forall_forall|].
    apply orb_true_iff in E2 as [E2|E2]; [apply orb_true_iff in E2 as [E2|E2]|].
    + left. now apply N.ltb_lt.
    + right. left. apply existsb_exists in E2 as (d & H1 & H2). exists d. split; auto. now apply N.leb_le.
    + right. right. apply existsb_exists in E2 as ([x p] & H1 & H2). cbn [fst snd] in H2. apply andb_true_iff in H2 as [H2 H3].
      apply N.eqb_eq in H2. apply list_eqb_true in H3. subst. now exists p.
  - split; [now constructor|]. destruct (N.lt_ge_cases c 128) as [H|H]; [now left|right; left]. exists c. split; auto. now left.
Qed.

Lemma ascii_in w d : ascii w = true -> In d (map bval w) -> (d < 128)%N.
Proof.
  intros H Hd. apply in_map_iff in Hd as (b & <- & Hb). unfold ascii in H. rewrite forallb_forall in H. now apply N.ltb_lt, H.
Qed.
Lemma ascii_app a b : ascii (a ++ b) = true <-> ascii a = true /\ ascii b = true.
Proof. unfold ascii. rewrite forallb_app. now rewrite andb_true_iff. Qed.
Lemma encode_word w : ascii w = true -> utf8_encode (map bval w) = w.
Proof.
  intros H. pose proof (ascii_decode w H) as D. apply encode_decode in D as [_ D]. now symmetry.
Qed.
Lemma encode_is_word l w : ascii w = true -> Forall (fun c => scalar c = true) l -> utf8_encode l = w <-> l = map bval w.
Proof.
  intros Ha Hl. split; [|intros ->; now apply encode_word]. intros E. apply decode_encode in Hl. rewrite E, ascii_decode in Hl by auto. now injection Hl.
Qed.

(** ** Upper case *)
Definition letters (w : bytes) : Prop := Forall (fun b => (65 <= bval b <= 90)%N) w.
Lemma letters_ascii w : letters w -> ascii w = true.
Proof. intros H. unfold ascii. apply forallb_forall. intros b Hb. unfold letters in H. rewrite Forall_forall in H. apply H in Hb. apply N.ltb_lt. lia. Qed.
Lemma upper_scalar c : scalar c = true -> Forall (fun d => scalar d = true) (upper_char c).
Proof. intros H. apply (table_cases odd_upper upper_table c upper_fits H). Qed.
Lemma upper_same a b : (65 <= bval b <= 90)%N -> ((bval a < 128)%N /\ ascii_upper a = b) <-> same_letter a b.
Proof.
  intros Hb. unfold same_letter, ascii_upper. destruct ((97 <=? bval a) && (bval a <=? 122))%N eqn:E.
  - apply andb_true_iff in E as [E1 E2]. apply N.leb_le in E1, E2. split.
    + intros [_ <-]. right. rewrite bval_byte_of by lia. lia.
    + intros [->|[_ E]]; [lia|]. split; [lia|]. rewrite E. replace (bval b + 32 - 32)%N with (bval b) by lia. apply byte_of_bval.
  - split; [now intros [_ ->]; left|]. intros [->|[_ E1]]; [split; [lia|auto]|]. exfalso. apply andb_false_iff in E. rewrite !N.leb_gt in E. lia.
Qed.

Lemma upper_spelled : forall cs w, Forall (fun c => scalar c = true) cs -> letters w -> flat_map upper_char cs = map bval w ->
  spelled same_letter odd_upper (utf8_encode cs) w.
Proof.
  induction cs as [|c cs IH]; intros w Hs Hw E; cbn [flat_map] in E.
  - destruct w; [constructor|easy].
  - inversion Hs as [|? ? Hc Hcs]; subst. change (utf8_encode (c :: cs)) with (encode_char c ++ utf8_encode cs).
    destruct (table_cases odd_upper upper_table c upper_fits Hc) as [_ [Hlt|[(d & Hd & Hge)|(p & Hp & El)]]].
    + destruct (small_byte c Hlt) as [a ->]. rewrite encode_ascii by auto. destruct (upper_char_ascii a Hlt) as [Eu _]. rewrite Eu in E.
      destruct w as [|b w]; [easy|]. cbn [app map] in E. injection E as E1 E2. inversion Hw as [|? ? Hb Hw']; subst. cbn [app]. constructor; auto.
      apply upper_same; auto. split; auto. now rewrite <- (byte_of_bval (ascii_upper a)), E1, byte_of_bval.
    + exfalso. assert (K : (d < 128)%N); [|lia]. apply (ascii_in w); [now apply letters_ascii|]. rewrite <- E. apply in_or_app. left. exact Hd.
    + change (upper_char c = map bval p) in El. rewrite El in E. apply map_split in E as (w' & -> & E). apply sp_odd; auto.
      apply IH; auto. unfold letters in *. now apply Forall_app in Hw.
Qed.
Lemma spelled_upper s w : letters w -> spelled same_letter odd_upper s w ->
  exists cs, Forall (fun c => scalar c = true) cs /\ s = utf8_encode cs /\ flat_map upper_char cs = map bval w.
Proof.
  intros Hw H. induction H as [|a b s w Hab H IH|x p s w Hx H IH].
  - exists []. repeat split; constructor.
  - inversion Hw as [|? ? Hb Hw']; subst. destruct (IH Hw') as (cs & H1 & -> & H3). apply upper_same in Hab as [Ha Hab]; auto.
    exists (bval a :: cs). split; [|split].
    + constructor; auto. apply scalar_true. lia.
    + change (utf8_encode (bval a :: cs)) with (encode_char (bval a) ++ utf8_encode cs). now rewrite encode_ascii.
    + cbn [flat_map map]. destruct (upper_char_ascii a Ha) as [-> _]. now rewrite Hab, H3.
  - unfold letters in Hw. apply Forall_app in Hw as [_ Hw']. destruct (IH Hw') as (cs & H1 & -> & H3).
    pose proof odd_upper_ok as K. rewrite forallb_forall in K. apply K in Hx. cbn [fst snd] in Hx. apply andb_true_iff in Hx as [K1 K2].
    apply list_eqb_true in K2. exists (x :: cs). split; [now constructor|]. split; [reflexivity|]. cbn [flat_map]. now rewrite K2, H3, map_app.
Qed.

(** Every text whose upper case is a given word of capital letters. *)
Theorem C82_upper : forall s w, is_utf8 s -> letters w -> to_uppercase s = w <-> spelled same_letter odd_upper s w.
Proof.
  intros s w (cs & Hs & ->) Hw. unfold to_uppercase. rewrite decode_encode by auto.
  assert (Hsc : Forall (fun c => scalar c = true) (flat_map upper_char cs)).
  { clear -Hs. induction Hs as [|c cs Hc Hs IH]; [constructor|]. cbn [flat_map]. apply Forall_app. auto using upper_scalar. }
  rewrite (encode_is_word _ _ (letters_ascii w Hw) Hsc). split; [now apply upper_spelled|].
  intros H. destruct (spelled_upper _ _ Hw H) as (cs' & H1 & H2 & H3).
  assert (E : cs = cs'); [|now rewrite E]. apply decode_encode in H1, Hs. congruence.
Qed.
Print Assumptions C82_upper.

(** Words in which no other ligature can stand. *)
Fixpoint calm (w : bytes) : bool :=
  match w with
  | a :: (b :: _) as t => negb (existsb (beqb [a; b]) [bs "SS"; bs "FF"; bs "FI"; bs "FL"]) && calm t
  | _ => true
  end.
Lemma calm_tail a w : calm (a :: w) = true -> calm w = true.
Proof. destruct w as [|b w]; [easy|]. cbn [calm]. intros H. apply andb_true_iff in H. apply H. Qed.
Lemma calm_suffix p w : calm (p ++ w) = true -> calm w = true.
Proof. induction p as [|a p IH]; auto. intros H. apply IH. now apply calm_tail in H. Qed.
Lemma spelled_calm same s w : spelled same odd_upper s w -> calm w = true -> spelled same odd_method s w.
Proof.
  intros H. induction H as [|a b s w Hab H IH|x p s w Hx H IH]; intros Hc.
  - constructor.
  - constructor; auto. apply IH. now apply calm_tail in Hc.
  - specialize (IH (calm_suffix _ _ Hc)). unfold odd_upper in Hx. cbn [In] in Hx.
    repeat (destruct Hx as [Hx|Hx]; [injection Hx as <- <-; first [apply sp_odd; [cbn [In odd_method]; tauto|exact IH]|exfalso; cbn in Hc; discriminate Hc]|]).
    destruct Hx.
Qed.
Lemma spelled_more same odd odd' s w : (forall e, In e odd -> In e odd') -> spelled same odd s w -> spelled same odd' s w.
Proof. intros Hi H. induction H; constructor; auto. Qed.
Lemma method_letters m : letters (show_method m) /\ calm (show_method m) = true.
Proof. split; [|now destruct m]. destruct m; repeat constructor; vm_compute; congruence. Qed.

(** ** C82 *)
(** A text is taken for a method if and only if it is the method's name up to the case of ASCII letters, where an I may also be a
    dotless i, an S a long s, and an ST one of the two ligatures. *)
Theorem C82_method : forall s m, is_utf8 s -> parse_method s = Ok m <-> spelled same_letter odd_method s (show_method m).
Proof.
  intros s m Hs. destruct (method_letters m) as [H1 H2]. rewrite parse_method_ok, (C82_upper s _ Hs H1). split.
  - intros H. now apply spelled_calm.
  - apply spelled_more. cbn [In odd_method odd_upper]. tauto.
Qed.
Print Assumptions C82_method.

(** So for all but POST and OPTIONS only ASCII will do. *)
Theorem C82_method_ascii : forall s m, is_utf8 s -> parse_method s = Ok m -> ascii s = true \/ m = Post \/ m = Options.
Proof.
  intros s m Hs E. apply (C82_method s m Hs) in E.
  assert (Hm : (m = Post \/ m = Options) \/ ~ In x53 (show_method m) /\ ~ In x49 (show_method m)) by (destruct m; auto; right; cbn; intuition easy).
  destruct Hm as [Hm|[H1 H2]]; [now right|left]. destruct (method_letters m) as [Hl _].
  revert H1 H2 Hl E. generalize (show_method m) as w. clear Hs. intros w H1 H2 Hl H. induction H as [|a b s w Hab H IH|x p s w Hx H IH]; auto.
  - inversion Hl; subst. apply ascii_cons. split; [apply upper_same in Hab as [Hab _]; auto|].
    apply IH; [intros K; apply H1; now right|intros K; apply H2; now right|assumption].
  - exfalso. cbn [In odd_method] in Hx.
    destruct Hx as [Hx|[Hx|[Hx|[Hx|[]]]]]; injection Hx as <- <-; [apply H2|apply H1|apply H1|apply H1]; now left.
Qed.
Print Assumptions C82_method_ascii.

(** Lower case: the words are header names as the library stores them, of ASCII characters without capital letters. *)
Definition small (w : bytes) : Prop := Forall (fun b => (bval b < 128)%N /\ ~ (65 <= bval b <= 90)%N) w.
Lemma small_ascii w : small w -> ascii w = true.
Proof. intros H. unfold ascii. apply forallb_forall. intros b Hb. unfold small in H. rewrite Forall_forall in H. apply H in Hb. apply N.ltb_lt. lia. Qed.
Lemma lower_same a b : (bval b < 128)%N /\ ~ (65 <= bval b <= 90)%N -> ((bval a < 128)%N /\ ascii_lower a = b) <-> same_lower a b.
Proof.
  intros [Hb Hn]. unfold same_lower, ascii_lower. destruct ((65 <=? bval a) && (bval a <=? 90))%N eqn:E.
  - apply andb_true_iff in E as [E1 E2]. apply N.leb_le in E1, E2. split.
    + intros [_ <-]. right. rewrite bval_byte_of by lia. lia.
    + intros [->|[_ E]]; [lia|]. split; [lia|]. rewrite <- E. apply byte_of_bval.
  - split; [now intros [_ ->]; left|]. intros [->|[E1 _]]; [auto|]. exfalso. apply andb_false_iff in E. rewrite !N.leb_gt in E. lia.
Qed.
Lemma lower_spelled : forall cs before w, Forall (fun c => scalar c = true) cs -> small w -> lower_chars before cs = map bval w ->
  spelled same_lower odd_lower (utf8_encode cs) w.
Proof.
  induction cs as [|c cs IH]; intros before w Hs Hw E; cbn [lower_chars] in E.
  - destruct w; [constructor|easy].
  - inversion Hs as [|? ? Hc Hcs]; subst. change (utf8_encode (c :: cs)) with (encode_char c ++ utf8_encode cs).
    assert (Hin : forall d, In d (if (c =? 931)%N then if negb (ignorable_then_cased cs) && ignorable_then_cased before then [962%N] else [963%N] else lower_char c) ->
        (128 <= d)%N -> False).
    { intros d Hd Hge. assert (K : (d < 128)%N); [|lia]. apply (ascii_in w); [now apply small_ascii|]. rewrite <- E. apply in_or_app. now left. }
    destruct (c =? 931)%N eqn:E9.
    { exfalso. destruct (negb _ && _); [apply (Hin 962%N)|apply (Hin 963%N)]; try (now left); lia. }
    destruct (table_cases odd_lower lower_table c lower_fits Hc) as [_ [Hlt|[(d & Hd & Hge)|(p & Hp & El)]]].
    + destruct (small_byte c Hlt) as [a ->]. rewrite encode_ascii by auto. destruct (lower_char_ascii a Hlt) as [Eu _]. rewrite Eu in E.
      destruct w as [|b w]; [easy|]. cbn [app map] in E. injection E as E1 E2. inversion Hw as [|? ? Hb Hw']; subst. cbn [app]. constructor.
      * apply lower_same; auto. split; auto. now rewrite <- (byte_of_bval (ascii_lower a)), E1, byte_of_bval.
      * exact (IH _ _ Hcs Hw' E2).
    + exfalso. exact (Hin d Hd Hge).
    + change (lower_char c = map bval p) in El. rewrite El in E. apply map_split in E as (w' & -> & E). apply sp_odd; auto.
      apply (IH (c :: before)); auto. unfold small in *. now apply Forall_app in Hw.
Qed.
Lemma spelled_lower s w : small w -> spelled same_lower odd_lower s w ->
  exists cs, Forall (fun c => scalar c = true) cs /\ s = utf8_encode cs /\ forall before, lower_chars before cs = map bval w.
Proof.
  intros Hw H. induction H as [|a b s w Hab H IH|x p s w Hx H IH].
  - exists []. repeat split; constructor.
  - inversion Hw as [|? ? Hb Hw']; subst. destruct (IH Hw') as (cs & H1 & -> & H3). apply lower_same in Hab as [Ha Hab]; auto.
    exists (bval a :: cs). split; [|split].
    + constructor; auto. apply scalar_true. lia.
    + change (utf8_encode (bval a :: cs)) with (encode_char (bval a) ++ utf8_encode cs). now rewrite encode_ascii.
    + intros before. cbn [lower_chars map]. replace (bval a =? 931)%N with false by (symmetry; apply N.eqb_neq; lia).
      destruct (lower_char_ascii a Ha) as [-> _]. now rewrite Hab, H3.
  - unfold small in Hw. apply Forall_app in Hw as [_ Hw']. destruct (IH Hw') as (cs & H1 & -> & H3).
    pose proof odd_lower_ok as K. rewrite forallb_forall in K. apply K in Hx. cbn [fst snd] in Hx. apply andb_true_iff in Hx as [K1 K2].
    apply andb_true_iff in K1 as [K1 K3]. apply negb_true_iff in K3.
    apply list_eqb_true in K2. exists (x :: cs). split; [now constructor|]. split; [reflexivity|]. intros before. cbn [lower_chars]. now rewrite K3, K2, H3, map_app.
Qed.

(** A text is stored under a header name (of ASCII characters, in lower case) if and only if it is that name up to the case of ASCII
    letters, where a k may also be the Kelvin sign. *)
Theorem C82_name : forall k w, is_utf8 k -> small w -> to_lowercase k = w <-> spelled same_lower odd_lower k w.
Proof.
  intros k w (cs & Hs & ->) Hw. unfold to_lowercase. rewrite decode_encode by auto.
  assert (Hsc : Forall (fun c => scalar c = true) (lower_chars [] cs)).
  { pose proof (lower_chars_low cs [] Hs) as K. eapply Forall_impl; [|exact K]. cbn. tauto. }
  rewrite (encode_is_word _ _ (small_ascii w Hw) Hsc). split; [now apply lower_spelled|].
  intros H. destruct (spelled_lower _ _ Hw H) as (cs' & H1 & H2 & H3).
  assert (E : cs = cs'); [|now rewrite E]. apply decode_encode in H1, Hs. congruence.
Qed.
Print Assumptions C82_name.

(** Names without a k, among them the two that frame the body, are recognised in ASCII only. *)
Theorem C82_name_ascii : forall k w, is_utf8 k -> small w -> ~ In x6b w -> to_lowercase k = w -> Forall2 same_lower k w /\ ascii k = true.
Proof.
  intros k w Hk Hw Hn E. apply (C82_name k w Hk Hw) in E. induction E as [|a b s w Hab H IH|x p s w Hx H IH].
  - split; [constructor|reflexivity].
  - inversion Hw as [|? ? Hb Hw']; subst. pose proof (proj2 (lower_same a b Hb) Hab) as [Ha _].
    assert (Hs : is_utf8 s).
    { destruct (spelled_lower s w Hw' H) as (cs & H1 & H2 & _). now exists cs. }
    destruct IH as [K1 K2]; auto. { intros K. apply Hn. now right. }
    split; [now constructor|now apply ascii_cons].
  - exfalso. destruct Hx as [Hx|[]]. injection Hx as <- <-. apply Hn. now left.
Qed.
Print Assumptions C82_name_ascii.

Theorem C82_framing_names : forall k w, In w [bs "transfer-encoding"; bs "content-length"; bs "host"] -> is_utf8 k ->
  (headers_get k [(w, bs "v")] = Some (bs "v") <-> Forall2 same_lower k w).
Proof.
  intros k w Hw Hk.
  assert (Hs : small w /\ ~ In x6b w).
  { destruct Hw as [<-|[<-|[<-|[]]]]; (split; [repeat constructor; vm_compute; intuition congruence|cbn; intuition easy]). }
  destruct Hs as [Hs Hn]. assert (E : headers_get k [(w, bs "v")] = Some (bs "v") <-> to_lowercase k = w).
  { unfold headers_get. cbn [hm_get]. destruct (beqb (to_lowercase k) w) eqn:Eb.
    - apply beqb_true in Eb. tauto.
    - split; [discriminate|]. intros K. rewrite K, beqb_refl in Eb. discriminate Eb. }
  rewrite E. split; [intros K; now apply (C82_name_ascii k w Hk Hs Hn)|].
  intros K. apply (C82_name k w Hk Hs). clear -K. induction K; constructor; auto.
Qed.
Print Assumptions C82_framing_names.

(** So methods and names are not only recognised in ASCII. *)
Theorem C82_ascii_refuted :
  ~ (forall s m, is_utf8 s -> parse_method s = Ok m -> ascii s = true)
  /\ ~ (forall k w, is_utf8 k -> small w -> to_lowercase k = w -> ascii k = true).
Proof.
  split; intros C.
  - assert (K : ascii (bs "PO" ++ encode_char 64262) = true); [|discriminate K]. apply (C _ Post); [|vm_compute; reflexivity].
    exists [80%N; 79%N; 64262%N]. split; [repeat constructor|vm_compute; reflexivity].
  - assert (K : ascii (bs "coo" ++ encode_char 8490 ++ bs "ie") = true); [|discriminate K].
    apply (C _ (bs "cookie")); [|repeat constructor; vm_compute; intuition congruence|vm_compute; reflexivity].
    exists [99%N; 111%N; 111%N; 8490%N; 105%N; 101%N]. split; [repeat constructor|vm_compute; reflexivity].
Qed.
Print Assumptions C82_ascii_refuted.

Example C82_case :
  parse_method (bs "OPT" ++ encode_char 305 ++ bs "on" ++ encode_char 383) = Ok Options
  /\ spelled same_letter odd_method (bs "po" ++ encode_char 64261) (bs "POST")
  /\ ~ spelled same_letter odd_method (bs "POSTS") (bs "POST")
  /\ spelled same_lower odd_lower (bs "Set-Coo" ++ encode_char 8490 ++ bs "ie") (bs "set-cookie")
  /\ headers_get (bs "Set-Cookie") (headers_insert (bs "Set-Coo" ++ encode_char 8490 ++ bs "ie") (bs "v") headers_new) = Some (bs "v")
  /\ headers_get (bs "CONTENT-length") [(bs "content-length", bs "v")] = Some (bs "v").
Proof.
  split; [vm_compute; reflexivity|]. split.
  { change (bs "POST") with (bs "PO" ++ bs "ST" ++ []). rewrite <- (app_nil_r (encode_char 64261)). cbn [bs app].
    apply sp_same; [right; vm_compute; intuition congruence|]. apply sp_same; [right; vm_compute; intuition congruence|].
    apply (sp_odd _ _ 64261%N (bs "ST")); [cbn; tauto|constructor]. }
  split.
  { intros H. apply C82_method with (m := Post) in H; [vm_compute in H; discriminate H|now apply utf8_bs_ascii]. }
  split.
  { apply C82_name; [|repeat constructor; vm_compute; intuition congruence|vm_compute; reflexivity].
    exists (map bval (bs "Set-Coo") ++ [8490%N] ++ map bval (bs "ie")). split; [repeat constructor|vm_compute; reflexivity]. }
  split; vm_compute; reflexivity.
Qed.
