(** More about C32, C33, C39, C43, C64, C65 and C82: cases at the edges of the model's definitions, stated without them. *)
From Verif Require Import Base Utf8 UnicodeTables Case Num Io Parser Types Message Outgoing Client Server Files Transport.
From Verif Require Import Lemmas ReadLemmas HeadLemmas BlockLemmas MsgLemmas SimLemmas OutLemmas PUrl PIo PPool PBody PHead POut PReuse PServer PFile.

(** C32: which error a short input gives. *)
Theorem C32_short : forall St bld (rd : reader St) s data n fuel, delivers rd s (map B data) -> length data < n -> length data < fuel ->
  exists s', read_exact bld rd fuel n [] s = (Err (match bld with Std => IoError KUnexpectedEof | NoStd => UnexpectedEof end), s').
Proof.
  intros St bld rd s data n fuel D Hn Hf.
  assert (Hy : noisy bld data (map B data)) by (clear; induction data; constructor; auto).
  destruct (C32_read_exact St bld rd s data (map B data) [] n fuel Hy) as (_ & H & _).
  { now rewrite app_nil_r. } { now rewrite app_nil_r, map_length. }
  destruct (H Hn eq_refl) as (s' & E & _). exists s'. rewrite E. now destruct bld.
Qed.
Print Assumptions C32_short.

(** C32: an interrupted read is repeated with std and ends the call without. *)
Theorem C32_interrupted : forall St (rd : reader St) s data rest n fuel,
  delivers rd s (Transport.E (IoError Interrupted) :: map B data ++ rest) -> length data = n -> 0 < n -> length (map B data ++ rest) + 1 < fuel ->
  (exists s', read_exact Std rd fuel n [] s = (Ok data, s') /\ delivers rd s' rest)
  /\ (exists s', read_exact NoStd rd fuel n [] s = (Err (IoError Interrupted), s') /\ delivers rd s' (map B data ++ rest)).
Proof.
  intros St rd s data rest n fuel D Hn H0 Hf. split.
  - assert (Hy : noisy Std data (Transport.E (IoError Interrupted) :: map B data)).
    { constructor; [reflexivity|]. clear. induction data; constructor; auto. }
    destruct (C32_read_exact St Std rd s data _ rest n fuel Hy D) as (H & _ & _); [cbn [app length]; lia|].
    apply H; [exact Hn|]. right. destruct data as [|b data] using rev_ind; [cbn in Hn; lia|]. rewrite map_app. cbn [map].
    exists (Transport.E (IoError Interrupted) :: map B data), b. reflexivity.
  - destruct (C32_read_exact St NoStd rd s [] [] (Transport.E (IoError Interrupted) :: map B data ++ rest) n fuel (noisy_nil NoStd) D) as (_ & _ & H).
    { cbn [app length]. lia. }
    exact (H ltac:(cbn; lia) _ _ eq_refl eq_refl).
Qed.
Print Assumptions C32_interrupted.

Example C32_edges_case :
  read_exact Std seg_read 9 3 [] [Seg x61 [x62]] = (Err (IoError KUnexpectedEof), [])
  /\ read_exact NoStd seg_read 9 3 [] [Seg x61 [x62]] = (Err UnexpectedEof, [])
  /\ read_exact NoStd seg_read 9 1 [] [Fail (IoError Interrupted); Seg x61 []] = (Err (IoError Interrupted), [Seg x61 []])
  /\ read_exact Std seg_read 9 1 [] [Fail (IoError Interrupted); Seg x61 []] = (Ok [x61], []).
Proof. repeat split. Qed.

(** C33: a writer that takes nothing is an error, and nothing more is offered to it. *)
Theorem C33_nothing_taken : forall W bld (wt : writer W) fuel data w w', data <> [] -> wr wt data w = (Ok 0, w') -> 0 < fuel ->
  write_all bld wt fuel data w = (Err (match bld with Std => IoError KWriteZero | NoStd => UnexpectedEof end), w').
Proof.
  intros W bld wt fuel data w w' Hd Hw Hf. destruct fuel; [lia|]. destruct data; [easy|]. cbn [write_all]. rewrite Hw. now destruct bld.
Qed.
Print Assumptions C33_nothing_taken.

(** C33: an interrupted write is repeated with std and ends the call without. *)
Theorem C33_interrupted : forall W (wt : writer W) fuel data w w', data <> [] -> wr wt data w = (Err (IoError Interrupted), w') ->
  write_all Std wt (S fuel) data w = write_all Std wt fuel data w'
  /\ write_all NoStd wt (S fuel) data w = (Err (IoError Interrupted), w').
Proof. intros W wt fuel data w w' Hd Hw. destruct data; [easy|]. cbn [write_all]. rewrite Hw. now split. Qed.
Print Assumptions C33_interrupted.

Example C33_edges_case :
  fst (write_all Std script_writer 9 (bs "abc") ([Accept 2; Accept 0], [])) = Err (IoError KWriteZero)
  /\ fst (write_all NoStd script_writer 9 (bs "abc") ([Accept 2; Accept 0], [])) = Err UnexpectedEof
  /\ fst (write_all NoStd script_writer 9 (bs "abc") ([Refuse (IoError Interrupted); Accept 9], [])) = Err (IoError Interrupted)
  /\ fst (write_all Std script_writer 9 (bs "abc") ([Refuse (IoError Interrupted); Accept 9], [])) = Ok tt.
Proof. repeat split. Qed.

(** C43: for a name without an address, or one that cannot be looked up, no connection is made, and the request is an error. *)
Theorem C43_no_address : forall Addr Tcp Tls Wd aeq (tcp_connect : Addr -> Wd -> res Tcp * Wd) resolve (tls_new : bytes -> Tcp -> Wd -> res Tls * Wd)
    bld cap wt wt' m fuel u h port p p' (w w1 : Wd),
  http_url_of u = Ok h -> hu_port h = Ok port ->
  resolve (hu_host h) port w = (Ok [], w1) \/ (exists e, resolve (hu_host h) port w = (Err e, w1)) ->
  client_start aeq (ssl_connector tcp_connect resolve tls_new) bld cap wt m fuel u p w = (Err (IoError KAddrNotAvailable), (p, w1))
  /\ client_start aeq (plain_connector tcp_connect resolve) bld cap wt' m fuel u p' w = (Err (IoError KAddrNotAvailable), (p', w1)).
Proof.
  intros Addr Tcp Tls Wd aeq tc rs tn bld cap wt wt' m fuel u h port p p' w w1 Eu Ep Hr.
  unfold client_start, get_stream. rewrite (builder_request u m h Eu). cbn [ssl_connector plain_connector c_addr]. unfold tcp_stream_addr. rewrite Eu, Ep.
  destruct Hr as [Hr|[e Hr]]; rewrite Hr; now split.
Qed.
Print Assumptions C43_no_address.

Example C43_no_address_case :
  let no (_ : bytes) (_ : N) (n : nat) : res (list nat) * nat := (Ok [], S n) in
  let conn := plain_connector (fun (_ : nat) n => (Ok ([Accept 9], [] : bytes), n)) no in
  fst (c_addr conn C45_url 0) = Err (IoError KAddrNotAvailable)
  /\ http_url_of C45_url = Ok (mkHttpUrl C45_url Https (bs "example.com")) /\ hu_port (mkHttpUrl C45_url Https (bs "example.com")) = Ok 443%N.
Proof. vm_compute. auto. Qed.

(** C82: where a capital sigma ends a word. [cs] is a word up to here: a letter with case, then only characters without influence. *)
Definition cased_then (cs : list N) : Prop :=
  exists a c ign, cs = a ++ c :: ign /\ in_ranges cased_ranges c = true /\ in_ranges ignorable_ranges c = false
    /\ Forall (fun x => in_ranges ignorable_ranges x = true) ign.
Lemma ignorable_spec l : ignorable_then_cased l = true <-> cased_then (rev l).
Proof.
  unfold cased_then. induction l as [|c l IH]; cbn [ignorable_then_cased rev].
  - split; [intros K; discriminate K|]. intros (a & c & ign & E & _). destruct a; discriminate E.
  - destruct (in_ranges ignorable_ranges c) eqn:Ei.
    + rewrite IH. split.
      * intros (a & d & ign & E & H1 & H2 & H3). exists a, d, (ign ++ [c]). rewrite E, <- app_assoc. repeat split; auto.
        apply Forall_app. split; auto.
      * intros (a & d & ign & E & H1 & H2 & H3). destruct ign as [|x ign _] using rev_ind.
        { apply app_inj_tail in E as [_ <-]. congruence. }
        change (a ++ d :: ign ++ [x]) with (a ++ (d :: ign) ++ [x]) in E. rewrite app_assoc in E. apply app_inj_tail in E as [-> <-].
        apply Forall_app in H3 as [H3 _]. now exists a, d, ign.
    + split.
      * intros H. exists (rev l), c, []. auto.
      * intros (a & d & ign & E & H1 & H2 & H3). destruct ign as [|x ign _] using rev_ind.
        { apply app_inj_tail in E as [_ ->]. exact H1. }
        change (a ++ d :: ign ++ [x]) with (a ++ (d :: ign) ++ [x]) in E. rewrite app_assoc in E. apply app_inj_tail in E as [_ <-].
        apply Forall_app in H3 as [_ H3]. apply Forall_inv in H3. congruence.
Qed.
Lemma lower_plain cs before : ~ In 931%N cs -> lower_chars before cs = flat_map lower_char cs.
Proof.
  revert before. induction cs as [|c cs IH]; intros before H; [reflexivity|]. cbn [lower_chars flat_map]. rewrite IH by (intros K; apply H; now right).
  destruct (c =? 931)%N eqn:Ec; [|reflexivity]. apply N.eqb_eq in Ec. elim H. now left.
Qed.
(** A capital sigma is lower-cased to its final form exactly at the end of a word, the rest character by character. *)
Theorem C82_sigma : forall s pre post, utf8_decode s = Some (pre ++ 931%N :: post) -> ~ In 931%N (pre ++ post) -> exists x,
  to_lowercase s = utf8_encode (flat_map lower_char pre ++ [x] ++ flat_map lower_char post)
  /\ (cased_then pre /\ ~ cased_then (rev post) -> x = 962%N) /\ (~ (cased_then pre /\ ~ cased_then (rev post)) -> x = 963%N).
Proof.
  intros s pre post Es Hn. unfold to_lowercase. rewrite Es.
  assert (Hl : forall before, lower_chars before (pre ++ 931%N :: post) = flat_map lower_char pre
    ++ [if negb (ignorable_then_cased post) && ignorable_then_cased (rev pre ++ before) then 962%N else 963%N] ++ flat_map lower_char post).
  { clear Es. induction pre as [|c pre IH]; intros before.
    - cbn [app lower_chars flat_map rev]. rewrite N.eqb_refl, (lower_plain post) by exact Hn. now destruct (_ && _).
    - cbn [app lower_chars flat_map rev]. rewrite IH by (intros K; apply Hn; now right). rewrite <- !app_assoc. cbn [app].
      destruct (c =? 931)%N eqn:Ec; [|reflexivity]. apply N.eqb_eq in Ec. elim Hn. now left. }
  rewrite Hl, app_nil_r. eexists. split; [reflexivity|].
  pose proof (ignorable_spec post) as H1. pose proof (ignorable_spec (rev pre)) as H2. rewrite rev_involutive in H2.
  destruct (ignorable_then_cased post), (ignorable_then_cased (rev pre)); cbn [negb andb]; split; auto; intros H.
  - destruct H as [_ H]. elim H. now apply H1.
  - destruct H as [_ H]. elim H. now apply H1.
  - elim H. split; [now apply H2|]. intros K. apply H1 in K. discriminate K.
  - destruct H as [H _]. apply H2 in H. discriminate H.
Qed.
Print Assumptions C82_sigma.

Example C82_sigma_case :
  let alpha := [xce; x91] in let sigma := [xce; xa3] in
  to_lowercase (alpha ++ sigma) = [xce; xb1; xcf; x82]
  /\ to_lowercase (sigma ++ alpha) = [xcf; x83; xce; xb1]
  /\ to_lowercase (alpha ++ bs "'" ++ sigma ++ bs "' ") = [xce; xb1] ++ bs "'" ++ [xcf; x82] ++ bs "' "
  /\ to_lowercase (alpha ++ sigma ++ bs "'" ++ alpha) = [xce; xb1; xcf; x83] ++ bs "'" ++ [xce; xb1]
  /\ utf8_decode (alpha ++ bs "'" ++ sigma ++ bs "' ") = Some ([913; 39] ++ 931 :: [39; 32])%N
  /\ cased_then [913; 39]%N /\ ~ cased_then (rev [39; 32])%N.
Proof.
  cbv zeta. do 5 (split; [vm_compute; reflexivity|]). split.
  - exists [], 913%N, [39%N]. repeat split. now repeat constructor.
  - intros K. rewrite <- ignorable_spec in K. vm_compute in K. discriminate K.
Qed.

(** C65: no file is made whose name is empty or consists of one or two dots, and nothing is changed by trying. *)
Lemma components_end v n : ~ In SLASH n -> components (v ++ SLASH :: n) = components v ++ [n].
Proof.
  intros H. induction v as [|b v IH]; [cbn [app components]; now rewrite (components_last n H)|]. cbn [app components]. rewrite IH.
  destruct (Byte.eqb b SLASH); [reflexivity|]. destruct (components v) as [|c cs] eqn:E; [|reflexivity].
  destruct v as [|x v]; cbn in E; [discriminate E|]. destruct (Byte.eqb x SLASH); [discriminate E|]. destruct (components v); discriminate E.
Qed.
Theorem C65_no_dot_files : forall root text n0 u v n t, In n [[]; bs "."; bs ".."] -> u = n \/ u = v ++ SLASH :: n ->
  exists e, h_put (file_handler root text n0) u t = Ret (file_error text e, t).
Proof.
  intros root text n0 u v n t Hn Hu. cbn [file_handler h_put]. unfold file_put.
  assert (Hs : ~ In SLASH n) by (intros K; destruct Hn as [<-|[<-|[<-|[]]]]; repeat (destruct K as [K|K]; [discriminate K|]); exact K).
  assert (Hd : is_dots n = true) by (destruct Hn as [<-|[<-|[<-|[]]]]; reflexivity).
  assert (Ht : trim_slashes n = n) by (destruct Hn as [<-|[<-|[<-|[]]]]; reflexivity).
  assert (Hl : last (components (trim_slashes u)) [] = n).
  { assert (K : trim_slashes u = n \/ exists v', trim_slashes u = v' ++ SLASH :: n).
    { destruct Hu as [->| ->]; [now left|]. clear -Ht. induction v as [|b v IH].
      - left. cbn. exact Ht.
      - cbn [app trim_slashes]. destruct (Byte.eqb b SLASH); [exact IH|]. right. now exists (b :: v). }
    destruct K as [->|[v' ->]]; [now rewrite (components_last n Hs)|]. rewrite (components_end v' n Hs). apply last_last. }
  unfold create. destruct (has_nul u); [eauto|]. rewrite Hl, Hd.
  assert (Hw : forall cs cur, (exists p, walk t cur cs = Ok p) \/ (exists e, walk t cur cs = Err e)).
  { clear. induction cs as [|c cs IH]; intros cur; cbn [walk]; [left; eauto|].
    destruct (at_path t cur) as [[d|es]|]; [right; eauto| |right; eauto].
    destruct (_ || _); [apply IH|]. destruct (beqb c (bs "..")); [apply IH|]. destruct (entry c es); [apply IH|right; eauto]. }
  destruct (Hw (removelast (components (trim_slashes u))) root) as [[p ->]|[e ->]]; cbn [rbind]; [|eauto].
  destruct (at_path t p) as [[d|es]|]; eauto.
Qed.
Print Assumptions C65_no_dot_files.

(** C64: the other methods are refused, and the files stay as they are. *)
Theorem C64_other_methods : forall S bld cap (rd : reader S) (wt : writer S) etext log root text n0 bufsz fuel t s first lines zs m u v h,
  0 < cap -> good_request first lines m u v h -> m <> Get -> m <> Put -> (m = Post -> sized h) ->
  delivers rd s (map B (head_bytes first lines) ++ zs) -> length (map B (head_bytes first lines) ++ zs) < fuel ->
  honest wt log -> reliable wt -> silent rd log -> 0 < bufsz -> bufsz <= fuel -> 50 <= fuel ->
  exists s2, serve_stream bld cap rd wt etext (file_handler root text n0) bufsz fuel t s = (Ok tt, [Called m u], t, s2)
    /\ log s2 = log s ++ reply (bs "405 Method Not Allowed") (match m with Post => bs "PUT" | _ => show_method m end ++ bs " not allowed").
Proof.
  intros S bld cap rd wt etext log root text n0 bufsz fuel t s first lines zs m u v h Hc Hg Hm1 Hm2 Hz D Hl Hh Hr Hs Hb Hbf Hf.
  assert (E : serve_stream bld cap rd wt etext (file_handler root text n0) bufsz fuel t s = serve_stream bld cap rd wt etext default_handler bufsz fuel t s).
  { destruct D as (R & HR & Hd).
    destruct (request_accepts_rel bld (bufr_read bld cap rd) (bufr_rel bld R) fuel (bufr_new s) first lines zs m u v h
      (bufr_read_pos bld cap rd R Hc HR) Hg (bufr_new_rel bld R s _ Hd) Hl) as (b & t' & Eq & _).
    unfold serve_stream.
    assert (Ei : serve_one_inner bld cap rd etext (file_handler root text n0) fuel t s = serve_one_inner bld cap rd etext default_handler fuel t s).
    { unfold serve_one_inner. rewrite Eq. cbn [rq_method rq_uri rq_body]. destruct m; try (now elim Hm1); try (now elim Hm2); reflexivity. }
    now rewrite Ei. }
  rewrite E. destruct (C49_refuses S node bld cap rd wt etext log bufsz fuel t s first lines zs m u v h Hc Hg ltac:(intros [K|K]; auto; congruence) D Hl) as [_ K].
  destruct (K Hh Hr Hs Hb Hbf Hf) as (s2 & E2 & L2). exists s2. split; [exact E2|]. rewrite L2. unfold default_text. now destruct m.
Qed.
Print Assumptions C64_other_methods.

Example C65_edges_case :
  serve_files disk [bs "HEAD /a.txt HTTP/1.1" ++ CRLF ++ CRLF]
    = (Ok tt, [Called Head (bs "/a.txt")], disk, reply (bs "405 Method Not Allowed") (bs "HEAD not allowed"))
  /\ serve_files disk [bs "POST /a.txt HTTP/1.1" ++ CRLF ++ bs "Content-Length: 2" ++ CRLF ++ CRLF ++ bs "he"]
    = (Ok tt, [Called Post (bs "/a.txt")], disk, reply (bs "405 Method Not Allowed") (bs "PUT not allowed"))
  /\ serve_files disk [bs "PUT /sub/.. HTTP/1.1" ++ CRLF ++ bs "Content-Length: 2" ++ CRLF ++ CRLF ++ bs "he"]
    = (Ok tt, [Called Put (bs "/sub/..")], disk, reply (bs "500 Internal Server Error") (bs "failed")).
Proof. split; [vm_compute; reflexivity|]. split; [vm_compute; reflexivity|]. vm_compute. reflexivity. Qed.

(** C39: dropping a request that could not be sent tries once more. A request without a body whose head is refused once, and then taken, is on
    the wire in full although [send] returned an error; without std it was written piece by piece and nothing is tried again. *)
Lemma pieces_buffered {W} cap (wt : writer W) fuel : forall ps b, length (bw_buf b) + length (concat ps) < cap ->
  bufw_pieces Std cap wt fuel ps b = (Ok tt, mkBufw (bw_inner b) (bw_buf b ++ concat ps)).
Proof.
  induction ps as [|p ps IH]; intros [w buf] Hl; cbn [bufw_pieces concat bw_buf bw_inner] in *; [now rewrite app_nil_r|]. rewrite app_length in Hl.
  unfold bufw_write_all. cbn [bw_buf bw_inner]. assert (E : (length p <? cap - length buf) = true) by (apply Nat.ltb_lt; lia). rewrite E. cbn [sbind].
  rewrite IH; cbn [bw_buf bw_inner]; [now rewrite <- app_assoc|rewrite app_length; lia].
Qed.
Theorem C39_sent_anyway : forall S cap (wt : writer S) fuel r s e s1 s2,
  let head := show_method (rq_method r) ++ bs " " ++ rq_uri r ++ bs " " ++ show_version (rq_version r) ++ CRLF
    ++ flat_map (fun h => fst h ++ bs ": " ++ snd h ++ CRLF) (rq_headers r) ++ CRLF in
  ~ In (rq_method r) [Delete; Post; Put] -> length head < cap -> 1 < fuel ->
  wr wt head s = (Err e, s1) -> e <> IoError Interrupted -> wr wt head s1 = (Ok (length head), s2) ->
  send Std cap wt fuel r s = (Err (IoError (KOther 0)), s2).
Proof.
  intros S cap wt fuel r s e s1 s2 head Hm Hl Hf W1 He W2.
  assert (Hh : concat (request_pieces r) = head).
  { assert (Hp : forall hs : headers, concat (headers_pieces hs) = flat_map (fun h => fst h ++ bs ": " ++ snd h ++ CRLF) hs).
    { induction hs as [|h hs IH]; [reflexivity|]. unfold headers_pieces in *. cbn [flat_map]. rewrite concat_app, IH. cbn [concat]. now rewrite <- !app_assoc. }
    rewrite request_pieces_wire, Hp. unfold request_line_of, head. change (bs " ") with [SP]. rewrite <- !app_assoc. cbn [app]. now rewrite <- !app_assoc. }
  assert (Hb : has_body (rq_method r) = false) by (destruct (rq_method r); try reflexivity; elim Hm; cbn; auto).
  unfold send, request_serialize. rewrite pieces_buffered by (rewrite Hh; cbn [bufw_new bw_buf length]; lia). rewrite Hb, Hh. cbn [bufw_new bw_inner bw_buf app bufw_into_inner].
  assert (Hn : head <> []) by (unfold head; destruct (rq_method r); discriminate).
  assert (F1 : flush_buf wt fuel (mkBufw s head) = (Err e, mkBufw s1 head)).
  { destruct fuel as [|f]; [lia|]. cbn [flush_buf bw_buf bw_inner]. destruct head as [|c t]; [easy|]. rewrite W1.
    assert (Hr : is_retry Std e = false) by (destruct e; auto; now destruct k). now rewrite Hr. }
  rewrite F1. cbn [fail_drop bufw_drop]. f_equal. destruct fuel as [|[|f]]; [lia|lia|]. cbn [flush_buf bw_buf bw_inner]. destruct head as [|c t]; [easy|].
  rewrite W2. cbn [length]. rewrite skipn_all2 by (cbn; lia). reflexivity.
Qed.
Print Assumptions C39_sent_anyway.

Example C39_sent_anyway_case :
  let r := mkRequest Get (bs "/") (mkVersion 1 1) [(bs "Host", bs "h")] tt in
  send Std 100 script_writer 50 r ([Refuse (IoError (KOther 4))], []) = (Err (IoError (KOther 0)), ([], bs "GET / HTTP/1.1" ++ CRLF ++ bs "Host: h" ++ CRLF ++ CRLF))
  /\ fst (send NoStd 100 script_writer 50 r ([Refuse (IoError (KOther 4))], [])) = Err (IoError (KOther 4))
  /\ snd (snd (send NoStd 100 script_writer 50 r ([Refuse (IoError (KOther 4))], []))) = [].
Proof.
  cbv zeta. split; [|split; vm_compute; reflexivity].
  apply (C39_sent_anyway _ 100 script_writer 50 _ _ (IoError (KOther 4)) ([], [])); try (vm_compute; lia); try reflexivity; try discriminate.
  cbn. intros H. repeat (destruct H as [H|H]; [discriminate H|]). exact H.
Qed.
