(** Where errors come from: the grammar or the transport. *)
From Verif Require Import Base Utf8 Case Num Io Parser Types Message Lemmas.

(** The errors that parsing itself reports. *)
Definition syntax_error (e : error) : Prop :=
  match e with ParseError | ParseIntError _ | Utf8Error | UnexpectedEof => True | _ => False end.

Definition errs {A} (P : error -> Prop) (r : res A) : Prop := forall e, r = Err e -> P e.

Section Errs.
  Context (P : error -> Prop) (HP : forall e, syntax_error e -> P e).

  Lemma errs_ok {A} (a : A) : errs P (Ok a).
  Proof. easy. Qed.
  Lemma errs_panic {A} : errs P (@Panic A).
  Proof. easy. Qed.
  Lemma errs_fuel {A} : errs P (@Fuel A).
  Proof. easy. Qed.
  Lemma errs_err {A} e : P e -> errs P (@Err A e).
  Proof. intros H e' [= <-]. exact H. Qed.
  Lemma errs_same {A B} e : errs P (@Err A e) -> errs P (@Err B e).
  Proof. intros H. apply errs_err. now apply H. Qed.
  Lemma errs_sbind {A B St} (m : res A * St) (k : A -> St -> res B * St) :
    errs P (fst m) -> (forall a s, errs P (fst (k a s))) -> errs P (fst (sbind m k)).
  Proof. destruct m as [[a|e| |] s]; cbn; auto; try easy. intros H _. exact (errs_same e H). Qed.
  Lemma errs_rbind {A B} (m : res A) (k : A -> res B) : errs P m -> (forall a, errs P (k a)) -> errs P (rbind m k).
  Proof. destruct m as [a|e| |]; cbn; auto; try easy. intros H _. exact (errs_same e H). Qed.

  Lemma str_slice_errs s i j : errs P (str_slice s i j).
  Proof. unfold str_slice. now destruct (_ && _)%bool. Qed.
  Lemma remaining_errs p : errs P (remaining p).
  Proof. apply str_slice_errs. Qed.
  Lemma parse_digits_errs radix max : forall s acc, errs P (parse_digits radix max acc s).
  Proof using HP.
    induction s as [|c s IH]; intros acc; cbn [parse_digits]; [easy|].
    destruct (to_digit radix c); [|apply errs_err, HP; exact I].
    destruct (_ <=? _)%N; [|apply errs_err, HP; exact I]. destruct (_ <=? _)%N; [apply IH|apply errs_err, HP; exact I].
  Qed.
  Lemma from_str_radix_errs radix max s : errs P (from_str_radix radix max s).
  Proof using HP.
    unfold from_str_radix. destruct s as [|c [|d s]]; [apply errs_err, HP; exact I| |].
    - destruct (_ || _)%bool; [apply errs_err, HP; exact I|apply parse_digits_errs].
    - destruct (Byte.eqb c _); apply parse_digits_errs.
  Qed.
  Lemma expect_errs p x : errs P (fst (expect p x)).
  Proof using HP.
    unfold expect. destruct (_ <=? _)%nat; [apply errs_err, HP; exact I|]. cbv zeta.
    pose proof (str_slice_errs (ps p) (ppos p) (Nat.min (length (ps p)) (ppos p + length x))) as H.
    destruct (str_slice _ _ _) as [a|e| |]; cbn; try easy; [|(eapply errs_same; eassumption)].
    destruct (beqb a x); cbn; [easy|apply errs_err, HP; exact I].
  Qed.
  Lemma parse_digit_errs p : errs P (fst (parse_digit p)).
  Proof using HP.
    unfold parse_digit. destruct (_ <=? _)%nat; [apply errs_err, HP; exact I|].
    pose proof (str_slice_errs (ps p) (ppos p) (ppos p + 1)) as H.
    destruct (str_slice _ _ _) as [a|e| |]; cbn; try easy; [apply from_str_radix_errs|(eapply errs_same; eassumption)].
  Qed.
  Lemma parse_until_errs p d : errs P (fst (parse_until p d)).
  Proof using HP.
    unfold parse_until. destruct (_ <=? _)%nat; [apply errs_err, HP; exact I|].
    pose proof (remaining_errs p) as H. destruct (remaining p) as [a|e| |]; cbn; try easy.
    destruct (find_sub d a); [apply str_slice_errs|apply errs_err, HP; exact I].
  Qed.
  Lemma consume_ws_errs : forall fuel p, errs P (fst (consume_ws fuel p)).
  Proof.
    induction fuel as [|f IH]; intros p; cbn [consume_ws]; (destruct (_ <? _)%nat; [|easy]); pose proof (remaining_errs p) as H;
      destruct (remaining p) as [[|b a]|e| |]; cbn; try easy; try ((eapply errs_same; eassumption)); destruct (is_blank b); try easy.
  Qed.
  Lemma parse_token_errs p : errs P (fst (parse_token p)).
  Proof using HP.
    unfold parse_token. destruct (_ <=? _)%nat; [apply errs_err, HP; exact I|].
    pose proof (remaining_errs p) as H. destruct (remaining p) as [a|e| |]; try easy. cbv zeta.
    apply errs_sbind; [apply consume_ws_errs|easy].
  Qed.
  Lemma parse_remaining_errs p : errs P (fst (parse_remaining p)).
  Proof using HP.
    unfold parse_remaining. destruct (_ <? _)%nat; [apply errs_err, HP; exact I|].
    pose proof (remaining_errs p) as H. now destruct (remaining p) as [a|e| |].
  Qed.
  Lemma parse_method_errs s : errs P (parse_method s).
  Proof using HP. unfold parse_method. cbv zeta. repeat (destruct (beqb _ _); [easy|]). apply errs_err, HP. exact I. Qed.
  Lemma parse_version_errs s : errs P (parse_version s).
  Proof using HP.
    unfold parse_version. apply errs_sbind; [apply expect_errs|intros]. apply errs_sbind; [apply parse_digit_errs|intros].
    apply errs_sbind; [apply expect_errs|intros]. apply errs_sbind; [apply parse_digit_errs|easy].
  Qed.
  Lemma parse_status_errs s : errs P (parse_status s).
  Proof using HP.
    unfold parse_status. unfold parse_number. apply errs_rbind; [|easy].
    apply errs_sbind; [apply parse_token_errs|]. intros. apply from_str_radix_errs.
  Qed.
  Lemma header_errs s : errs P (header_deserialize s).
  Proof using HP.
    unfold header_deserialize. apply errs_sbind; [apply parse_until_errs|intros]. apply errs_sbind; [apply expect_errs|intros].
    apply errs_sbind; [apply parse_remaining_errs|easy].
  Qed.

  Section Reader.
    Context {St : Type} (bld : build) (rd : reader St) (Hrd : forall n s, errs P (fst (rd n s))).

    Lemma bytes_next_errs : forall fuel s, errs P (fst (bytes_next bld rd fuel s)).
    Proof using Hrd.
      induction fuel as [|f IH]; intros s; cbn [bytes_next]; [easy|]. pose proof (Hrd 1 s) as H.
      destruct (rd 1 s) as [[[|b g]|e| |] s']; cbn in *; try easy. destruct (is_retry bld e); [apply IH|(eapply errs_same; eassumption)].
    Qed.
    Lemma crlf_errs : forall fuel line s, errs P (fst (crlf_loop bld rd fuel line s)).
    Proof using Hrd HP.
      induction fuel as [|f IH]; intros line s; cbn [crlf_loop]; [easy|]. pose proof (bytes_next_errs (S f) s) as H.
      destruct (bytes_next bld rd (S f) s) as [[[b|]|e| |] s']; try easy.
      - cbv zeta. destruct (ends_crlf _); [|apply IH]. destruct (firstn _ _); [easy|]. destruct (utf8_valid _); [easy|].
        apply errs_err, HP. exact I.
      - apply errs_err, HP. exact I.
      - (eapply errs_same; eassumption).
    Qed.
  End Reader.

  Section Lines.
    Context {L : Type} (nl : L -> res (option bytes) * L) (Hnl : forall s, errs P (fst (nl s))).

    Lemma expect_next_errs s : errs P (fst (expect_next nl s)).
    Proof using Hnl HP.
      unfold expect_next. pose proof (Hnl s) as H. destruct (nl s) as [[[l|]|e| |] s']; try easy.
      - apply errs_err, HP. exact I.
      - (eapply errs_same; eassumption).
    Qed.
    Lemma cont_errs : forall fuel line s, match snd (fst (cont_loop nl fuel line s)) with Some r => errs P r | None => True end.
    Proof using Hnl.
      induction fuel as [|f IH]; intros line s; cbn [cont_loop]; [easy|]. pose proof (Hnl s) as H.
      destruct (nl s) as [[[l|]|e| |] s']; try easy. destruct (starts_blank l); [apply IH|easy].
    Qed.
    Lemma headers_errs : forall fuel acc pk s, match pk with Some r => errs P r | None => True end ->
      errs P (fst (headers_loop nl fuel acc pk s)).
    Proof using Hnl HP.
      induction fuel as [|f IH]; intros acc pk s Hpk; cbn [headers_loop]; [easy|].
      assert (H : errs P (fst (pk_next nl pk s))) by (destruct pk; cbn; auto).
      destruct (pk_next nl pk s) as [[[l|]|e| |] s']; try easy.
      - pose proof (cont_errs (S f) l s') as Hc. destruct (cont_loop nl (S f) l s') as [[line pk'] s''].
        pose proof (header_errs line) as He. destruct pk' as [[x|x| |]|]; try easy;
          (destruct (header_deserialize line) as [h|e| |]; try easy; [now apply IH|eapply errs_same; eassumption]).
      - (eapply errs_same; eassumption).
    Qed.
    Lemma content_length_errs h : errs P (content_length_of h).
    Proof using HP.
      unfold content_length_of. destruct (headers_get _ h); [|easy]. apply errs_rbind; [apply from_str_radix_errs|easy].
    Qed.
    Lemma request_head_errs fuel s : errs P (fst (request_head nl fuel s)).
    Proof using Hnl HP.
      unfold request_head. apply errs_sbind; [apply expect_next_errs|]. intros l s1.
      match goal with |- errs P (fst (match ?m with _ => _ end)) => assert (Hm : errs P (fst m)); [|destruct m as [[[[m0 u] v]|e| |] p]] end.
      - apply errs_sbind; [apply parse_token_errs|]. intros mt p1. pose proof (parse_method_errs mt) as H.
        destruct (parse_method mt) as [mm|e| |]; try easy; [|eapply errs_same; eassumption]. apply errs_sbind; [apply parse_token_errs|]. intros.
        apply errs_sbind; [apply parse_token_errs|]. intros. apply errs_rbind; [apply parse_version_errs|easy].
      - apply errs_sbind; [now apply headers_errs|]. intros. apply errs_rbind; [apply content_length_errs|easy].
      - (eapply errs_same; eassumption).
      - easy.
      - easy.
    Qed.
    Lemma response_head_errs fuel s : errs P (fst (response_head nl fuel s)).
    Proof using Hnl HP.
      unfold response_head. apply errs_sbind; [apply expect_next_errs|]. intros l s1.
      match goal with |- errs P (fst (match ?m with _ => _ end)) => assert (Hm : errs P (fst m)); [|destruct m as [[[v x]|e| |] p]] end.
      - apply errs_sbind; [apply parse_token_errs|]. intros mt p1. pose proof (parse_version_errs mt) as H.
        destruct (parse_version mt) as [mm|e| |]; try easy; [|eapply errs_same; eassumption]. apply errs_sbind; [apply parse_remaining_errs|]. intros.
        apply errs_rbind; [apply parse_status_errs|easy].
      - apply errs_sbind; [now apply headers_errs|]. intros. apply errs_rbind; [apply content_length_errs|easy].
      - (eapply errs_same; eassumption).
      - easy.
      - easy.
    Qed.
  End Lines.

  Section Messages.
    Context {St : Type} (bld : build) (rd : reader St) (Hrd : forall n s, errs P (fst (rd n s))).

    Lemma request_errs fuel s : errs P (fst (request_deserialize bld rd fuel s)).
    Proof using Hrd HP.
      unfold request_deserialize. apply errs_sbind; [|easy]. apply request_head_errs. intros. now apply crlf_errs.
    Qed.
    Lemma response_errs fuel s : errs P (fst (response_deserialize bld rd fuel s)).
    Proof using Hrd HP.
      unfold response_deserialize. apply errs_sbind; [|easy]. apply response_head_errs. intros. now apply crlf_errs.
    Qed.
    Lemma bufr_errs cap n s : errs P (fst (bufr_read bld cap rd n s)).
    Proof using Hrd.
      unfold bufr_read. destruct bld.
      - destruct (br_buf s); [|easy]. destruct (_ <=? _)%nat.
        + pose proof (Hrd n (br_inner s)) as H. now destruct (rd n (br_inner s)).
        + pose proof (Hrd cap (br_inner s)) as H. now destruct (rd cap (br_inner s)) as [[g|e| |] s'].
      - pose proof (Hrd n (br_inner s)) as H. now destruct (rd n (br_inner s)).
    Qed.
    Lemma read_exact_errs (Heof : P (io_eof bld)) : forall fuel n acc s, errs P (fst (read_exact bld rd fuel n acc s)).
    Proof using Hrd.
      induction fuel as [|f IH]; intros n acc s; destruct n as [|n]; cbn [read_exact]; try easy.
      pose proof (Hrd (S n) s) as H. destruct (rd (S n) s) as [[[|b g]|e| |] s']; cbn in *; try easy.
      - now apply errs_err.
      - destruct (_ <=? _)%nat; [apply IH|easy].
      - destruct (is_retry bld e); [apply IH|(eapply errs_same; eassumption)].
    Qed.
    Lemma take_errs n s : errs P (fst (take_read rd n s)).
    Proof using Hrd.
      destruct s as [l s]. unfold take_read. destruct (l =? 0)%N; [easy|]. pose proof (Hrd (N.to_nat (N.min (N.of_nat n) l)) s) as H.
      destruct (rd _ s) as [[g|e| |] s']; try easy. now destruct (_ <=? _)%N.
    Qed.
    Lemma chunked_errs (Hio : forall e, P e -> P (to_io bld e)) (Heof : P (io_eof bld)) :
      forall fuel n c, errs P (fst (chunked_read bld rd fuel n c)).
    Proof using Hrd HP.
      induction fuel as [|f IH]; intros n c; cbn [chunked_read]; [easy|]. destruct c as [t|l t|t]; [| |easy].
      - assert (H : errs P (fst (chunk_new bld rd (S f) t))).
        { unfold chunk_new. apply errs_sbind; [apply expect_next_errs; intros; now apply crlf_errs|]. intros.
          apply errs_rbind; [apply from_str_radix_errs|easy]. }
        destruct (chunk_new bld rd (S f) t) as [[[z|]|e| |] t1]; try easy. apply errs_err, Hio. now apply H.
      - pose proof (take_errs n (l, t)) as H. destruct (take_read rd n (l, t)) as [[[|b g]|e| |] [l1 t1]]; try easy.
        pose proof (read_exact_errs Heof (S f) 2 [] t1) as H2.
        destruct (read_exact bld rd (S f) 2 [] t1) as [[x|e| |] t2]; try easy.
    Qed.
    Lemma body_errs (Hio : forall e, P e -> P (to_io bld e)) (Heof : P (io_eof bld)) fuel n b : errs P (fst (body_read bld rd fuel n b)).
    Proof using Hrd HP.
      destruct b as [l c|l t|t]; cbn [body_read].
      - pose proof (chunked_errs Hio Heof fuel n c) as H. now destruct (chunked_read bld rd fuel n c).
      - pose proof (take_errs n (l, t)) as H. now destruct (take_read rd n (l, t)) as [x [l' t']].
      - pose proof (Hrd n t) as H. now destruct (rd n t).
    Qed.
  End Messages.
End Errs.
