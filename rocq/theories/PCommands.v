(** Property C69: what the example programs print. *)
From Verif Require Import Base Utf8 Case Num Io Parser Types Message Outgoing Client Server Transport Commands.
From Verif Require Import Lemmas ReadLemmas NumLemmas ChunkSpec ChunkLemmas BodyLemmas WriteLemmas ParserLemmas CaseLemmas TypesLemmas HeadLemmas
  BlockLemmas MsgLemmas SimLemmas OutLemmas KeepLemmas PBody PIo PParse PHead POut PReuse PServer PEnd NetLemmas Net NetSock NetStep NetFav NetFacts PNet PPut.

(** Writing to the stream does not change what will be read from it. *)
Definition undisturbed {S} (rd : reader S) (wt : writer S) : Prop :=
  forall s xs, delivers rd s xs -> (forall d, delivers rd (snd (wr wt d s)) xs) /\ delivers rd (snd (fl wt s)) xs.

(** What the reader of the body of an answer sees, of what follows the head. *)
Inductive seen (h : headers) (zs : list item) : list item -> Prop :=
| seen_close : hm_get (bs "transfer-encoding") h <> Some (bs "chunked") -> hm_get (bs "content-length") h = None -> seen h zs zs
| seen_length w n : hm_get (bs "transfer-encoding") h <> Some (bs "chunked") -> hm_get (bs "content-length") h = Some w ->
    u64_text w n -> seen h zs (take_items n zs)
| seen_chunks payload wire rest : hm_get (bs "transfer-encoding") h = Some (bs "chunked") -> chunked_wire payload wire ->
    zs = map B wire ++ rest -> seen h zs (map B payload).

(** The result of copying what is seen: all bytes if there is no error (an interruption is none in the std build), and
    otherwise those before the first error. *)
Inductive outcome (bld : build) : list item -> res unit -> bytes -> Prop :=
| out_all xs d : noisy bld d xs -> outcome bld xs (Ok tt) d
| out_broken xs e ys d : noisy bld d xs -> is_retry bld e = false -> outcome bld (xs ++ E e :: ys) (Err e) d.

Lemma noisy_or_broken bld xs : exists x d, outcome bld xs x d.
Proof.
  induction xs as [|[b|e] xs (x & d & IH)].
  - exists (Ok tt), []. now constructor; constructor.
  - destruct IH as [xs d H|xs e ys d H1 H2].
    + exists (Ok tt), (b :: d). constructor. now constructor.
    + exists (Err e), (b :: d). change (B b :: xs ++ E e :: ys) with ((B b :: xs) ++ E e :: ys). constructor; auto. now constructor.
  - destruct (is_retry bld e) eqn:Ee.
    + destruct IH as [xs d H|xs e' ys d H1 H2].
      * exists (Ok tt), d. constructor. now constructor.
      * exists (Err e'), d. change (E e :: xs ++ E e' :: ys) with ((E e :: xs) ++ E e' :: ys). constructor; auto. now constructor.
    + exists (Err e), []. change (E e :: xs) with ([] ++ E e :: xs). constructor; auto. constructor.
Qed.

Lemma outcome_bytes bld d x d' : outcome bld (map B d) x d' -> x = Ok tt /\ d' = d.
Proof.
  intros H. remember (map B d) as xs eqn:Ex. destruct H as [xs d' H|xs e ys d' H He]; subst.
  - split; auto. revert d' H. induction d as [|b d IH]; intros d' H; inversion H; subst; auto. f_equal. auto.
  - exfalso. assert (Hi : In (E e) (map B d)) by (rewrite <- Ex; apply in_or_app; right; now left). apply in_map_iff in Hi as (b & Hb & _). discriminate.
Qed.
Lemma outcome_bytes_then bld d e x d' : is_retry bld e = false -> outcome bld (map B d ++ [E e]) x d' -> x = Err e /\ d' = d.
Proof.
  intros He H. remember (map B d ++ [E e]) as xs eqn:Ex. destruct H as [xs d' H|xs e' ys d' H He']; subst.
  - exfalso. revert d' H. induction d as [|b d IH]; intros d' H; cbn in H; inversion H; subst; [congruence|eauto].
  - revert xs d' Ex H. induction d as [|b d IH]; intros xs d' Ex H.
    + destruct xs as [|i xs]; cbn in Ex; [|destruct xs; discriminate]. injection Ex as -> _. inversion H. auto.
    + destruct xs as [|i xs]; [discriminate|]. cbn in Ex. injection Ex as -> Ex. inversion H as [|? d'' ? H3|]; subst.
      destruct (IH _ _ Ex H3) as [-> ->]. auto.
Qed.

Lemma copy_broken {St W} bld (rd : reader St) wall (log : W -> bytes) bufsz : 0 < bufsz ->
  (forall data w, length data <= bufsz -> exists w', wall data w = (Ok tt, w') /\ log w' = log w ++ data) ->
  forall fuel written s w xs e ys data, delivers rd s (xs ++ E e :: ys) -> noisy bld data xs -> is_retry bld e = false -> length xs < fuel ->
  exists s' w', copy_with bld rd wall bufsz fuel written s w = (Err e, (s', w')) /\ log w' = log w ++ data.
Proof.
  intros Hb Hw. induction fuel as [|f IH]; intros written s w xs e ys data Hs Hn He Hf; [lia|]. cbn [copy_with].
  pose proof (delivers_pos rd bufsz s _ Hb Hs) as Hr. destruct xs as [|[b|e1] xs]; cbn [app] in Hr.
  - destruct Hr as (s1 & E1 & _). rewrite E1, He. inversion Hn; subst. exists s1, w. now rewrite app_nil_r.
  - destruct Hr as (got & xs' & s1 & E1 & E2 & E3 & E4 & E5). rewrite E1. destruct got as [|g got]; [easy|]. set (gg := g :: got) in *.
    destruct (Hw gg w E3) as (w1 & -> & Hl).
    assert (Hx : exists xs1 data1, B b :: xs = map B gg ++ xs1 /\ xs' = xs1 ++ E e :: ys /\ data = gg ++ data1 /\ noisy bld data1 xs1).
    { clearbody gg. clear -E4 Hn. change (B b :: xs ++ E e :: ys) with ((B b :: xs) ++ E e :: ys) in E4. set (l := B b :: xs) in *. clearbody l.
      revert l data E4 Hn. induction gg as [|x gg IHg]; intros l data E4 Hn; cbn [map app] in *; [exists l, data; auto|].
      destruct l as [|i l]; [discriminate|]. cbn in E4. injection E4 as -> E4. inversion Hn as [|? d' ? H3|]; subst.
      destruct (IHg _ _ E4 H3) as (xs1 & data1 & -> & -> & -> & H4). exists xs1, data1. auto. }
    destruct Hx as (xs1 & data1 & Ex & -> & -> & Hn1).
    destruct (IH (written + N.of_nat (length gg))%N s1 w1 xs1 e ys data1 E5 Hn1 He) as (s' & w' & F1 & F2).
    { apply (f_equal (@length item)) in Ex. rewrite app_length, map_length in Ex. subst gg. cbn in *. lia. }
    exists s', w'. rewrite F1. split; auto. now rewrite F2, Hl, app_assoc.
  - destruct Hr as (s1 & E1 & E2). rewrite E1. inversion Hn as [| |? ? ? He1 Hn']; subst. rewrite He1.
    apply IH with (xs := xs) (ys := ys); auto. cbn in Hf. lia.
Qed.

(** ** Printing *)
Lemma take_items_length n xs : length (take_items n xs) <= length xs.
Proof. revert n. induction xs as [|[b|e] xs IH]; intros n; cbn [take_items]; auto; destruct (n =? 0)%N; cbn [length]; try lia; [specialize (IH (n - 1)%N)|specialize (IH n)]; lia. Qed.
Lemma written_pieces pieces : written (map Write pieces) = pieces.
Proof. unfold written. induction pieces as [|p t IH]; [reflexivity|]. cbn. now rewrite IH. Qed.
Lemma buf_some : 0 < default_buf_size.
Proof. apply Nat.ltb_lt. vm_compute. reflexivity. Qed.
Lemma payload_shorter payload wire : chunked_wire payload wire -> length payload + 2 <= length wire.
Proof. induction 1; rewrite !app_length; cbn [length CRLF]; lia. Qed.
(** The answer is read. *)
Lemma answer_framed {S} bld cap (rd : reader S) fuel s1 first lines v st h zs : 0 < cap -> good_head first lines v st h ->
  delivers rd s1 (map B (head_bytes first lines) ++ zs) -> length (map B (head_bytes first lines) ++ zs) + 3 < fuel ->
  exists b s2, response_deserialize bld rd fuel s1 = (Ok (mkResponse v st h b), s2)
    /\ framed h (bufr_new s2) b /\ delivers (bufr_read bld cap rd) (bufr_new s2) zs.
Proof.
  intros Hcap Hg (R & HR & Hs) Hf.
  destruct (response_accepts_rel bld rd R fuel s1 first lines zs v st h HR Hg Hs ltac:(lia)) as (b & s2 & E & Hb & Hs2).
  exists b, s2. split; auto. split; auto. exists (bufr_rel bld R). split; [now apply bufr_read_pos|now apply bufr_new_rel].
Qed.
Lemma framed_seen {T} bld (rd : reader T) fuel h t b zs ys : framed h t b -> delivers rd t zs -> seen h zs ys -> length zs + 3 < fuel ->
  delivers (body_read bld rd fuel) b ys /\ length ys < fuel.
Proof.
  intros Hb D Hy Hf. destruct Hy as [H1 H2|w n H1 H2 H3|payload wire rest H1 H2 ->].
  - destruct Hb as (len & Hlen & [[Hb _]|[_ ->]]); [congruence|]. destruct Hlen as [[_ ->]|(w & n & Hw & _)]; [|congruence].
    split; [now apply tilclose_delivers|lia].
  - destruct Hb as (len & Hlen & [[Hb _]|[_ ->]]); [congruence|]. destruct Hlen as [[Hx _]|(w' & n' & Hw' & Hn' & ->)]; [congruence|].
    pose proof (content_length_good h w n H2 H3) as K1. pose proof (content_length_good h w' n' Hw' Hn') as K2.
    assert (n' = n) by congruence. subst n'. split; [now apply C11_limited_items|]. pose proof (take_items_length n zs). lia.
  - destruct D as (R & HR & Hs). split.
    + apply (delivers_end_delivers _ _ _ (fun b' => R (body_reader b') rest)).
      apply (carries_read bld rd R t h payload wire rest b fuel); auto. now constructor.
    + rewrite map_length. rewrite app_length, !map_length in Hf. pose proof (payload_shorter _ _ H2). lia.
Qed.

Section Printing.
  Context {S O : Type} (bld : build) (cap : nat) (rd : reader S) (wt : writer S) (out : writer O) (log : S -> bytes) (olog : O -> bytes) (fuel : nat).
  Context (Hcap : 0 < cap <= fuel) (Hfuel : default_buf_size + 70 <= fuel).
  Context (Hh : honest wt log) (Hr : reliable wt) (He0 : forall s, exists k s', wr wt [] s = (Ok k, s')) (Hu : undisturbed rd wt) (Ho : honest out olog) (Hro : reliable out).

  Lemma print_outcome b ys o : delivers (body_read bld (bufr_read bld cap rd) fuel) b ys -> length ys < fuel ->
    exists x d o', print_body bld cap rd out fuel b o = (x, o') /\ outcome bld ys x d /\ olog o' = olog o ++ d.
  Proof using Hcap Hfuel Ho Hro.
    intros Hb Hl. unfold print_body, copy.
    pose proof buf_some as Hbuf.
    assert (Hw : forall data w, length data <= default_buf_size -> exists w', write_all bld out fuel data w = (Ok tt, w') /\ olog w' = olog w ++ data).
    { intros data w Hd. apply (write_all_reliable out olog Ho); auto. lia. }
    destruct (noisy_or_broken bld ys) as (x & d & Hx). destruct Hx as [ys d Hn|ys e zs d Hn He].
    - destruct (copy_complete bld _ _ olog default_buf_size Hbuf Hw fuel 0%N b o ys d Hb Hn Hl) as (s' & o' & -> & E & _).
      exists (Ok tt), d, o'. cbn. split; auto. split; auto. now constructor.
    - rewrite app_length in Hl. cbn in Hl.
      destruct (copy_broken bld _ _ olog default_buf_size Hbuf Hw fuel 0%N b o ys e zs d Hb Hn He ltac:(lia)) as (s' & o' & -> & E).
      exists (Err e), d, o'. cbn. split; auto. split; auto. now constructor.
  Qed.

  (** The request is sent, whatever its body is read from. *)
  Lemma send_all {Bd} (rdb : reader Bd) r s xs body bys data : 5 <= fuel -> length (concat (request_pieces r)) <= fuel ->
    has_body (rq_method r) = true \/ data = [] -> delivers rdb body bys -> noisy bld data bys -> length bys < fuel -> delivers rd s xs ->
    exists o sa n body' o1 s1, send bld cap wt fuel r s = (Ok o, sa)
      /\ copy bld rdb (outgoing_writer bld cap wt fuel) default_buf_size fuel body o = (Ok n, (body', o1))
      /\ finish_send bld cap wt fuel o1 = (Ok tt, s1) /\ delivers rd s1 xs.
  Proof using Hcap Hfuel Hh Hr He0 Hu.
    intros H5 Hp Hbody (R & HR & Hs) Hn Hl Hd.
    assert (Hnr : no_retry bld wt).
    { intros d s0 e s1 E. destruct d as [|x d].
      - destruct (He0 s0) as (k & w' & E'). congruence.
      - destruct (proj1 Hr (x :: d) s0 ltac:(easy)) as (k & w' & E' & _). congruence. }
    destruct (copy_with_ops bld cap wt rdb default_buf_size fuel Hnr ltac:(lia) buf_some R HR fuel body bys data Hs Hn Hl) as (pieces & Hc & Hfa & Hcp).
    assert (Hops : has_body (rq_method r) = true \/ map Write pieces = []).
    { destruct Hbody as [Hbody|Hbody]; auto. right. rewrite Hbody in Hc. destruct pieces as [|p pieces]; auto. apply Forall_cons_iff in Hfa as [[Hp0 _] _].
      cbn in Hc. apply app_eq_nil in Hc as [Hc _]. easy. }
    assert (Hwr : Forall (fun d => length (chunk_of d) <= fuel) (written (map Write pieces))).
    { rewrite written_pieces.
      eapply Forall_impl; [|exact Hfa]. intros d [_ Hd1]. etransitivity; [apply chunk_of_length|lia]. apply N.le_trans with (N.of_nat default_buf_size); [lia|]. vm_compute. discriminate. }
    destruct (client_send_reliable bld cap wt log fuel r (map Write pieces) s Hh Hr Hops ltac:(lia) H5 Hp Hwr) as (s1 & E & _).
    unfold client_send in E. destruct (send bld cap wt fuel r s) as [[o|e| |] sa] eqn:Es; try discriminate.
    destruct (run_ops bld cap wt fuel (map Write pieces) o) as [[u|e| |] ob] eqn:Eo; try discriminate.
    destruct (Hcp 0%N o) as (body' & Hcp'). unfold copy. rewrite Eo in Hcp'. cbn [rbind] in Hcp'.
    exists o, sa, (0 + N.of_nat (length data))%N, (body' (Ok u)), ob, s1. split; auto. split; auto. split; auto.
    (* what is to be read *)
    assert (K : kept (fun _ (s : S) => (@Ok bytes [], s)) wt (fun s => delivers rd s xs)) by (split; intros; auto; now apply Hu).
    pose proof (proj2 (send_keep bld cap _ wt _ K fuel r s Hd) o) as K1. rewrite Es in K1. specialize (K1 eq_refl).
    assert (K2 : okeep (fun s => delivers rd s xs) ob).
    { clear -Eo K K1. set (ops := map Write pieces) in *. clearbody ops. revert o K1 Eo. induction ops as [|[d|] ops IH]; intros o K1 Eo; cbn [run_ops] in Eo.
      - now injection Eo as _ <-.
      - pose proof (outgoing_write_keep bld cap _ wt _ K fuel d o K1) as K2. destruct (outgoing_write bld cap wt fuel d o) as [[k|e| |] o']; try discriminate. eapply IH; eauto.
      - pose proof (outgoing_flush_keep bld _ wt _ K fuel o K1) as K2. destruct (outgoing_flush bld wt fuel o) as [[k|e| |] o']; try discriminate. eapply IH; eauto. }
    pose proof (finish_send_keep bld cap _ wt _ K fuel ob K2) as K3. now rewrite E in K3.
  Qed.


  (** A whole exchange, with any answer: the body it returns, if the status is 200. *)
  Lemma exchange_framed {Bd} (rdb : reader Bd) r s body bys data first lines v st h zs : length (concat (request_pieces r)) <= fuel ->
    has_body (rq_method r) = true \/ data = [] -> delivers rdb body bys -> noisy bld data bys -> length bys < fuel ->
    good_head first lines v st h -> delivers rd s (map B (head_bytes first lines) ++ zs) ->
    length (map B (head_bytes first lines) ++ zs) + 3 < fuel ->
    exists b s2, framed h (bufr_new s2) b /\ delivers (bufr_read bld cap rd) (bufr_new s2) zs
      /\ fst (exchange bld cap rd wt default_buf_size rdb fuel r body s) = (match st with OK => Ok b | _ => Err (UnexpectedStatus st) end)
      /\ fst (put_body bld cap rd wt default_buf_size rdb fuel r body s) = Ok b.
  Proof using Hcap Hfuel Hh Hr He0 Hu.
    intros Hp Hbody Hrb Hn Hl Hg Hd Hf.
    destruct (send_all rdb r s _ body bys data ltac:(lia) Hp Hbody Hrb Hn Hl Hd) as (o & sa & n & body' & o1 & s1 & E1 & E2 & E3 & Hd1).
    destruct (answer_framed bld cap rd fuel s1 first lines v st h zs ltac:(lia) Hg Hd1 Hf) as (b & s2 & E4 & Hb & Hd2).
    exists b, s2. split; auto. split; auto. unfold exchange, put_body. rewrite E1. cbn [sbind]. rewrite E2.
    unfold finish. rewrite E3. cbn [sbind]. rewrite E4. cbn [sbind rs_status rs_body]. split; [now destruct st|reflexivity].
  Qed.
End Printing.
(** Without a body there is nothing to copy. *)
Lemma get_as_put {S} bld cap (rd : reader S) (wt : writer S) fuel r s : 0 < fuel ->
  get_body bld cap rd wt fuel r s = put_body bld cap rd wt default_buf_size empty_read fuel r tt s.
Proof. intros Hf. unfold get_body, put_body, copy. destruct (send bld cap wt fuel r s) as [[o|e| |] s1]; cbn [sbind]; auto. destruct fuel; [lia|]. reflexivity. Qed.

(** ** examples/client.rs *)
(** The request can be sent: the stream takes what is written, and for PUT the body can be read. *)
Record sends {Addr S Wd Fl} (conn : connector Addr S Wd) cap (rd : reader S) (wt : writer S) (open : bytes -> option Fl) (flrd : reader Fl)
    fuel m data u w (s : S) : Prop := {
  sd_cap : 0 < cap <= fuel;
  sd_fuel : default_buf_size + 70 <= fuel;
  sd_honest : exists log, honest wt log;
  sd_reliable : reliable wt;
  sd_empty : forall s, exists k s', wr wt [] s = (Ok k, s');
  sd_undisturbed : undisturbed rd wt;
  sd_request : exists r, builder_new u m = Ok r /\ length (concat (request_pieces r)) <= fuel;
  sd_reached : reached conn u w s;
  sd_body : m = Get \/ m = Put /\ (forall f, open data = Some f -> exists bys d, delivers flrd f bys /\ noisy Std d bys /\ length bys < fuel)
             /\ (open data = None -> length data < fuel) }.
(** Standard output takes what is written; [olog] is what it has got. *)
Definition prints {O} (out : writer O) (olog : O -> bytes) : Prop := honest out olog /\ reliable out.

Lemma empty_delivers : delivers empty_read tt [].
Proof. exists (fun _ xs => xs = []). split; [|reflexivity]. intros n [] xs Hn ->. exists tt. auto. Qed.
Lemma slice_delivers data : delivers slice_read data (map B data).
Proof. apply delivers0_delivers. apply C36_slice. Qed.

Section ClientMain.
  Context {Addr S Wd Fl O : Type} (conn : connector Addr S Wd) (cap : nat) (rd : reader S) (wt : writer S) (open : bytes -> option Fl) (flrd : reader Fl)
    (out : writer O) (olog : O -> bytes) (fuel : nat) (m : method) (data : bytes) (u : url) (w : Wd) (o : O) (s : S).
  Context (Hs : sends conn cap rd wt open flrd fuel m data u w s) (Hout : prints out olog).
  Context (first : bytes) (lines : list bytes) (v : version) (st : status) (h : headers) (zs : list item).
  Context (Hg : good_head first lines v st h) (Hd : delivers rd s (map B (head_bytes first lines) ++ zs)).
  Context (Hf : length (map B (head_bytes first lines) ++ zs) + 3 < fuel).
  Notation main := (client_main conn cap rd wt open flrd out fuel m data u w o).

  Lemma main_framed : exists w' b s2, framed h (bufr_new s2) b /\ delivers (bufr_read Std cap rd) (bufr_new s2) zs
    /\ main = then_print Std cap rd out fuel (match st with OK => Ok b | _ => Err (UnexpectedStatus st) end, w') o.
  Proof using Hs Hg Hd Hf.
    destruct Hs as [Hcap Hfuel [log Hh] Hr He0 Hu (r & Hb & Hp) (a & w1 & w2 & Ea & Ec) Hm].
    assert (Hrq : rq_method r = m).
    { unfold builder_new in Hb. destruct (http_url_of u); try discriminate. injection Hb as <-. now destruct m. }
    assert (Main : forall Bd (rdb : reader Bd) body bys d, has_body m = true \/ d = [] -> delivers rdb body bys -> noisy Std d bys -> length bys < fuel ->
      exists b s2, framed h (bufr_new s2) b /\ delivers (bufr_read Std cap rd) (bufr_new s2) zs
        /\ send_request conn cap rd wt default_buf_size rdb fuel r u body w = (match st with OK => Ok b | _ => Err (UnexpectedStatus st) end, w2)).
    { intros Bd rdb body bys d Hbody Hrb Hn Hl. rewrite <- Hrq in Hbody.
      destruct (exchange_framed Std cap rd wt log fuel Hcap Hfuel Hh Hr He0 Hu rdb r s body bys d first lines v st h zs Hp Hbody Hrb Hn Hl Hg Hd Hf)
        as (b & s2 & F & D & E & _).
      exists b, s2. split; auto. split; auto. unfold send_request. rewrite Ea. cbn [sbind]. rewrite Ec. cbn [sbind]. now rewrite E. }
    exists w2. unfold client_main. destruct Hm as [->|(-> & Hfile & Hdata)].
    - unfold client_get. rewrite Hb. destruct (Main unit empty_read tt [] []) as (b & s2 & F & D & E); auto using empty_delivers.
      + constructor.
      + cbn. lia.
      + exists b, s2. now rewrite E.
    - unfold client_put. destruct (open data) as [f|] eqn:Ef; rewrite Hb.
      + destruct (Hfile f eq_refl) as (bys & d & H1 & H2 & H3). destruct (Main Fl flrd f bys d) as (b & s2 & F & D & E); auto. exists b, s2. now rewrite E.
      + destruct (Main bytes slice_read data (map B data) data) as (b & s2 & F & D & E); auto using slice_delivers, noisy_map_B.
        * rewrite map_length. auto.
        * exists b, s2. now rewrite E.
  Qed.
  Lemma tail_short : length zs + 3 < fuel.
  Proof using Hf. rewrite app_length in Hf. lia. Qed.

  (** An answer with status 200: the program prints the body as far as it is delivered, and succeeds exactly if that is
      without an error. *)
  Theorem C69_prints : st = OK -> forall ys, seen h zs ys ->
    exists x d w' o', main = (x, (w', o')) /\ outcome Std ys x d /\ olog o' = olog o ++ d.
  Proof using Hs Hout Hg Hd Hf.
    intros Est ys Hy. destruct main_framed as (w' & b & s2 & F & D & ->). rewrite Est. destruct (framed_seen Std _ fuel h _ b zs ys F D Hy tail_short) as [Hb Hl].
    destruct Hout as [Ho Hro]. cbn [then_print].
    destruct (print_outcome Std cap rd out olog fuel (sd_cap _ _ _ _ _ _ _ _ _ _ _ _ Hs) (sd_fuel _ _ _ _ _ _ _ _ _ _ _ _ Hs) Ho Hro b ys o Hb Hl) as (x & d & o' & -> & H1 & H2).
    exists x, d, w', o'. auto.
  Qed.

  (** Any other status: nothing is printed, and the error names the status. *)
  Theorem C69_refuses : st <> OK -> exists w', main = (Err (UnexpectedStatus st), (w', o)).
  Proof using Hs Hg Hd Hf.
    intros Hst. destruct main_framed as (w' & b & s2 & _ & _ & ->). exists w'. now destruct st.
  Qed.

  (** The answer announces more bytes than come: the program prints what came, and succeeds. *)
  Theorem C69_short_succeeds : forall t n part, st = OK -> hm_get (bs "transfer-encoding") h <> Some (bs "chunked") ->
    hm_get (bs "content-length") h = Some t -> u64_text t n -> zs = map B part -> (N.of_nat (length part) < n)%N ->
    exists w' o', main = (Ok tt, (w', o')) /\ olog o' = olog o ++ part.
  Proof using Hs Hout Hg Hd Hf.
    intros t n part E1 H1 H2 H3 Ez Hn. destruct (C69_prints E1 _ (seen_length h _ t n H1 H2 H3)) as (x & d & w' & o' & E & Hx & Hl).
    rewrite Ez, take_items_short in Hx by lia. exists w', o'. apply outcome_bytes in Hx as [-> ->]. auto.
  Qed.

  (** A chunked answer is cut off: the program prints what came, and fails. *)
  Theorem C69_cut_fails : forall payload wire cut missing, st = OK -> hm_get (bs "transfer-encoding") h = Some (bs "chunked") ->
    chunked_wire payload wire -> wire = cut ++ missing -> missing <> [] -> zs = map B cut -> length wire < fuel ->
    exists p q e w' o', payload = p ++ q /\ main = (Err e, (w', o')) /\ olog o' = olog o ++ p.
  Proof using Hs Hout Hg Hd Hf.
    intros payload wire cut missing Est H1 H2 H3 H4 Ez Hw. destruct main_framed as (w' & b & s2 & (len & _ & [[_ ->]|[F _]]) & D & ->); [|congruence]. rewrite Est.
    rewrite Ez in D. pose proof tail_short as Hl0. rewrite Ez in Hl0.
    destruct (C06_truncated_is_error _ Std _ (bufr_new s2) payload wire cut missing len fuel H2 H3 H4 D Hl0) as (p & q & e & E & He & Hb & _).
    destruct Hout as [Ho Hro]. cbn [then_print].
    destruct (print_outcome Std cap rd out olog fuel (sd_cap _ _ _ _ _ _ _ _ _ _ _ _ Hs) (sd_fuel _ _ _ _ _ _ _ _ _ _ _ _ Hs) Ho Hro _ _ o Hb) as (x & d & o' & -> & Hx & Hl).
    { rewrite app_length, map_length. cbn [length]. pose proof (payload_shorter _ _ H2) as K. rewrite E, app_length in K. lia. }
    assert (Ee : is_retry Std e = false) by (destruct He as [-> | ->]; reflexivity).
    apply outcome_bytes_then in Hx as [-> ->]; auto. exists p, q, e, w', o'. auto.
  Qed.
End ClientMain.
Print Assumptions C69_prints.
Print Assumptions C69_refuses.
Print Assumptions C69_short_succeeds.
Print Assumptions C69_cut_fails.

(** With any other method than GET and PUT nothing is sent or printed. *)
Theorem C69_methods : forall Addr S Wd Fl O (conn : connector Addr S Wd) cap (rd : reader S) (wt : writer S) (open : bytes -> option Fl) flrd (out : writer O)
    fuel m data u w o, m <> Get -> m <> Put ->
  client_main conn cap rd wt open flrd out fuel m data u w o = (Err (UnexpectedMethod m), (w, o)).
Proof. intros. now destruct m. Qed.
Print Assumptions C69_methods.

(** What the first two programs sent when they succeed: the request of the builder, and for PUT all bytes of the named file or,
    if there is no such file, of the argument itself. *)
Theorem C69_sends : forall Addr S Wd Fl O (conn : connector Addr S Wd) cap (rd : reader S) (wt : writer S) log (open : bytes -> option Fl) flrd (out : writer O)
    fuel m data u w o w' o' xs,
  honest wt log -> 0 < fuel -> match open data with Some f => delivers flrd f xs | None => xs = map B data end ->
  client_main conn cap rd wt open flrd out fuel m data u w o = (Ok tt, (w', o')) ->
  exists r s pieces s1 s2 resp, builder_new u m = Ok r /\ reached conn u w s
    /\ log s1 = log s ++ whole_request r (map Write pieces)
    /\ match m with Put => noisy Std (concat pieces) xs | _ => m = Get /\ pieces = [] end
    /\ response_deserialize Std rd fuel s1 = (Ok resp, s2) /\ to_code (rs_status resp) = 200%N.
Proof.
  intros Addr S Wd Fl O conn cap rd wt log open flrd out fuel m data u w o w' o' xs Hh Hf Hx E. unfold client_main in E.
  assert (Hp : forall Bd (rdb : reader Bd) body, delivers rdb body xs ->
    (exists b, fst (client_put conn cap rd wt rdb fuel u body w) = Ok b) ->
    exists r s pieces s1 s2 resp, builder_new u Put = Ok r /\ reached conn u w s
      /\ log s1 = log s ++ whole_request r (map Write pieces) /\ noisy Std (concat pieces) xs
      /\ response_deserialize Std rd fuel s1 = (Ok resp, s2) /\ to_code (rs_status resp) = 200%N).
  { intros Bd rdb body Hd [b Hb]. apply C41_put in Hb as (r & s & resp & H1 & H2 & H3 & H4 & _).
    destruct (C40_exchange _ _ _ _ _ _ log _ _ _ _ _ _ _ _ Hh buf_some Hf Hd H3) as (ps & s1 & s2 & K1 & _ & K2 & _ & K3).
    exists r, s, ps, s1, s2, resp. auto 8. }
  assert (Hb : forall x : res (hbody (bufr S)) * Wd, then_print Std cap rd out fuel x o = (Ok tt, (w', o')) -> exists b, fst x = Ok b).
  { intros [[b|e| |] v] K; cbn in K; try discriminate K. now exists b. }
  apply Hb in E. destruct m; try (destruct E as [b E]; discriminate E).
  - destruct E as [b E]. apply C41_get in E as (r & s & resp & H1 & H2 & H3 & H4 & _).
    destruct (C40_exchange _ _ _ _ _ _ log _ _ _ _ _ _ _ _ Hh buf_some Hf empty_delivers H3) as (ps & s1 & s2 & K1 & _ & K2 & K4 & K3).
    assert (Hm : has_body (rq_method r) = false).
    { unfold builder_new in H1. destruct (http_url_of u); try discriminate H1. injection H1 as <-. reflexivity. }
    exists r, s, ps, s1, s2, resp. auto 10.
  - destruct (open data) as [f|]; [now apply (Hp Fl flrd f)|]. subst xs. apply (Hp bytes slice_read data); auto using slice_delivers.
Qed.
Print Assumptions C69_sends.

(** ** examples/advance_client.rs *)
(** The same for the program that connects by itself; it prints the body whatever the status is. *)
Theorem C69_advance : forall S Wd O cap (rd : reader S) (wt : writer S) (out : writer O) olog log
    (tcp : bytes * N -> Wd -> res S * Wd) fuel u hu p r w w1 o s first lines v st h zs ys,
  0 < cap <= fuel -> default_buf_size + 70 <= fuel ->
  honest wt log -> reliable wt -> (forall s, exists k s', wr wt [] s = (Ok k, s')) -> undisturbed rd wt -> prints out olog ->
  http_url_of u = Ok hu -> hu_port hu = Ok p -> tcp (hu_host hu, p) w = (Ok s, w1) ->
  builder_new u Get = Ok r -> length (concat (request_pieces r)) <= fuel ->
  good_head first lines v st h -> delivers rd s (map B (head_bytes first lines) ++ zs) ->
  length (map B (head_bytes first lines) ++ zs) + 3 < fuel -> seen h zs ys ->
  exists x d o', advance_main cap rd wt out tcp fuel (Ok u) w o = (x, (w1, o')) /\ outcome Std ys x d /\ olog o' = olog o ++ d.
Proof.
  intros S Wd O cap rd wt out olog log tcp fuel u hu p r w w1 o s first lines v st h zs ys Hcap Hfuel Hh Hr He0 Hu [Ho Hro] E1 E2 E3 E4 Hp Hg Hd Hf Hy.
  unfold advance_main. cbn [rbind]. rewrite E1. cbn [rbind]. rewrite E2. cbn [rbind]. rewrite E3, E4.
  assert (Hf0 : 0 < fuel) by (apply Nat.lt_le_trans with cap; apply Hcap). rewrite (get_as_put Std cap rd wt fuel r s Hf0).
  destruct (exchange_framed Std cap rd wt log fuel Hcap Hfuel Hh Hr He0 Hu empty_read r s tt [] [] first lines v st h zs Hp (or_intror eq_refl) empty_delivers
    ltac:(constructor) ltac:(cbn; lia) Hg Hd Hf) as (b & s2 & F & D & _ & E).
  destruct (put_body Std cap rd wt default_buf_size empty_read fuel r tt s) as [x s3]. cbn [fst] in E. subst x. cbn [then_print].
  assert (Hz : length zs + 3 < fuel) by (rewrite app_length in Hf; lia).
  destruct (framed_seen Std _ fuel h _ b zs ys F D Hy Hz) as [Hb Hl].
  destruct (print_outcome Std cap rd out olog fuel Hcap Hfuel Ho Hro b ys o Hb Hl) as (x & d & o' & -> & H1 & H2). cbn [snd]. eauto 8.
Qed.
Print Assumptions C69_advance.

(** ** examples/no_std.rs *)
Lemma fake_honest : honest fake_writer fst.
Proof.
  split.
  - intros d s r s' E. injection E as <- <-. split; auto. cbn. now rewrite firstn_all.
  - intros s r s' E. now injection E as <- <-.
Qed.
Lemma fake_reliable : reliable fake_writer.
Proof.
  split; [|intros s; eexists; reflexivity]. intros d s Hd. exists (length d). eexists. split; [reflexivity|]. destruct d; [easy|]. cbn. lia.
Qed.
Lemma fake_delivers a d : delivers fake_read (a, d) (map B d).
Proof.
  exists (fun s xs => xs = map B (snd s)). split; [|reflexivity]. intros n [b e] xs Hn ->. unfold fake_read. cbn [fst snd].
  destruct e as [|x e]; cbn [map]; [exists (b, []); now rewrite firstn_nil, skipn_nil|].
  exists (firstn n (x :: e)), (map B (skipn n (x :: e))), (b, skipn n (x :: e)). split; auto.
  split; [destruct n; [lia|easy]|]. split; [apply firstn_le_length|]. split; auto. now rewrite <- map_app, firstn_skipn.
Qed.
Lemma fake_undisturbed : undisturbed fake_read fake_writer.
Proof.
  intros s xs (R & HR & Hs). split; [|now exists R]. intros d. cbn [wr fake_writer snd].
  exists (fun s' ys => exists a, R (a, snd s') ys). split; [|exists (fst s); cbn; now destruct s].
  intros n [b e] ys Hn [a Ha]. pose proof (HR n (a, e) ys Hn Ha) as K. unfold fake_read in *. cbn [fst snd] in *.
  destruct ys as [|[y|er] ys].
  - destruct K as (s' & E & Hs'). injection E as E <-. exists (b, skipn n e). split; [now rewrite E|]. now exists a.
  - destruct K as (got & ys' & s' & E & H1 & H2 & H3 & H4). injection E as E <-. exists got, ys', (b, skipn n e). rewrite E. repeat (split; auto). now exists a.
  - destruct K as (s' & E & _). discriminate.
Qed.

Definition canned_lines : list bytes := [bs "Content-Length: 11"; bs "Content-Type: text/html"; bs "Connection: Closed"].
Definition canned_headers : headers := [(bs "connection", bs "Closed"); (bs "content-length", bs "11"); (bs "content-type", bs "text/html")].
Lemma canned_head : good_head (bs "HTTP/1.1 200 OK") canned_lines (mkVersion 1 1) OK canned_headers.
Proof.
  assert (TL : forall l, l <> [] -> forallb (fun b => bval b <? 128)%N l = true -> ~ In CR l -> text_line l).
  { intros l A1 A2 A3. split; auto. split; [now apply no_cr_no_crlf|]. now apply utf8_bs_ascii. }
  assert (T1 : text_line (bs "HTTP/1.1 200 OK")) by (apply TL; try reflexivity; cbn; intuition easy).
  split; auto. split; [repeat (apply Forall_cons; [apply TL; try reflexivity; cbn; intuition easy|]); apply Forall_nil|].
  split; [apply status_line_meaning; [apply T1|reflexivity]|]. split.
  - exists canned_lines, [(bs "content-length", bs "11"); (bs "content-type", bs "text/html"); (bs "connection", bs "Closed")]. split; [|split].
    + unfold canned_lines.
      change (folded (bs "Content-Length: 11" :: [] ++ (bs "Content-Type: text/html" :: [] ++ (bs "Connection: Closed" :: [] ++ [])))
        [bs "Content-Length: 11" ++ concat []; bs "Content-Type: text/html" ++ concat []; bs "Connection: Closed" ++ concat []]).
      constructor; [constructor|intros l' t K Kb; cbn [app] in K; injection K as <- <-; apply starts_blank_true in Kb; discriminate|].
      constructor; [constructor|intros l' t K Kb; cbn [app] in K; injection K as <- <-; apply starts_blank_true in Kb; discriminate|].
      constructor; [constructor|easy|]. constructor.
    + assert (HO : forall k v l h, l = k ++ bs ": " ++ v -> h = (to_lowercase k, v) -> ~ In COLON k -> header_of l h) by (intros k v l h -> -> ?; now exists k, v).
      apply Forall2_cons; [|apply Forall2_cons; [|apply Forall2_cons; [|apply Forall2_nil]]].
      * apply (HO (bs "Content-Length") (bs "11")); reflexivity || (vm_compute; intuition discriminate).
      * apply (HO (bs "Content-Type") (bs "text/html")); reflexivity || (vm_compute; intuition discriminate).
      * apply (HO (bs "Connection") (bs "Closed")); reflexivity || (vm_compute; intuition discriminate).
    + vm_compute. reflexivity.
  - intros w Hw. vm_compute in Hw. injection Hw as <-. exists 11%N.
    split; [reflexivity|]. left. split; [easy|]. exists [1%N; 1%N]. split; [|reflexivity]. repeat constructor; vm_compute; congruence.
Qed.

(** The upload of the third example over any stream and with any data: an answer is looked at only if all of the data could be
    read and the whole request went out. In particular data that cannot be read fail the upload. *)
Theorem C69_upload : forall S Bd bld cap (rd : reader S) (wt : writer S) log bufsz (rdb : reader Bd) fuel r body xs s b s',
  honest wt log -> 0 < bufsz -> 0 < fuel -> delivers rdb body xs ->
  put_body bld cap rd wt bufsz rdb fuel r body s = (Ok b, s') ->
  exists pieces s1 resp, noisy bld (concat pieces) xs
    /\ Forall (fun p => p <> [] /\ length p <= bufsz) pieces
    /\ log s1 = log s ++ whole_request r (map Write pieces)
    /\ response_deserialize bld rd fuel s1 = (Ok resp, s') /\ rs_body resp = b.
Proof.
  intros S Bd bld cap rd wt log bufsz rdb fuel r body xs s b s' Hh Hb Hf Hd E. unfold put_body in E.
  destruct (send bld cap wt fuel r s) as [[o|e| |] sa] eqn:E1; cbn [sbind] in E; try discriminate E.
  destruct (copy bld rdb (outgoing_writer bld cap wt fuel) bufsz fuel body o) as [[n|e| |] [b' o1]] eqn:E2; try discriminate E.
  destruct (finish bld cap rd wt fuel o1) as [[resp|e| |] s2] eqn:E3; cbn [sbind] in E; try discriminate E. injection E as <- <-.
  apply (request_serialize_log bld cap wt log Hh) in E1 as [_ E1]. destruct (E1 o eq_refl) as (L1 & I1 & _ & K1).
  unfold copy in E2. apply (copy_out_log bld cap wt log Hh rdb bufsz Hb fuel Hf) with (xs := xs) in E2; auto.
  destruct E2 as (ps & xs1 & xs2 & q & -> & N1 & N2 & N3 & N4 & N5 & N6 & N7 & -> & -> & _ & N8).
  unfold finish in E3. destruct (finish_send bld cap wt fuel o1) as [[[]|e| |] s1] eqn:E; cbn [sbind] in E3; try discriminate E3.
  apply (finish_send_log bld cap wt log Hh) in E as (_ & _ & L3); auto.
  exists ps, s1, resp. rewrite app_nil_r. rewrite K1 in *. split; [exact N1|]. split; [exact N2|]. split; [|now split].
  rewrite (L3 eq_refl), N4, L1, N6. unfold whole_request, terminator, encoded. rewrite written_pieces. destruct (has_body (rq_method r)).
  - now rewrite <- !app_assoc.
  - replace (flat_map _ ps) with (@nil byte) by (clear; induction ps; cbn; auto). now rewrite !app_nil_r.
Qed.
Print Assumptions C69_upload.

(** And what the second program sent. *)
Theorem C69_advance_sends : forall S Wd O cap (rd : reader S) (wt : writer S) log (out : writer O) tcp fuel u (w : Wd) o w' o',
  honest wt log -> 0 < fuel -> advance_main cap rd wt out tcp fuel (Ok u) w o = (Ok tt, (w', o')) ->
  exists h p r s s1 s2 resp, http_url_of u = Ok h /\ hu_port h = Ok p /\ tcp (hu_host h, p) w = (Ok s, w') /\ builder_new u Get = Ok r
    /\ log s1 = log s ++ concat (request_pieces r) /\ response_deserialize Std rd fuel s1 = (Ok resp, s2).
Proof.
  intros S Wd O cap rd wt log out tcp fuel u w o w' o' Hh Hf E. unfold advance_main in E. cbn [rbind] in E.
  destruct (http_url_of u) as [h|e| |] eqn:E1; cbn [rbind] in E; try discriminate E.
  destruct (hu_port h) as [p|e| |] eqn:E2; cbn [rbind] in E; try discriminate E.
  destruct (tcp (hu_host h, p) w) as [[s|e| |] w1] eqn:E3; try discriminate E.
  destruct (builder_new u Get) as [r|e| |] eqn:E4; try discriminate E.
  destruct (get_body Std cap rd wt fuel r s) as [[b|e| |] s0] eqn:E5; cbn [then_print] in E; try discriminate E.
  destruct (print_body Std cap rd out fuel b o) as [y o1]. injection E as _ <- _.
  rewrite (get_as_put Std cap rd wt fuel r s Hf) in E5.
  destruct (C69_upload _ _ _ _ _ _ log _ _ _ _ _ _ _ _ _ Hh buf_some Hf empty_delivers E5) as (ps & s1 & resp & U1 & _ & U3 & U4 & _).
  assert (Hm : has_body (rq_method r) = false).
  { unfold builder_new in E4. rewrite E1 in E4. injection E4 as <-. reflexivity. }
  exists h, p, r, s, s1, s0, resp. do 4 (split; [auto|]). split; [|exact U4]. rewrite U3. unfold whole_request. rewrite Hm, app_nil_r. reflexivity.
Qed.
Print Assumptions C69_advance_sends.

(** The example without std, with any URL that has a host and a port, and any data: GET and PUT (in any case) send the request of the
    builder, PUT with all the data in chunks, and print the body of the canned answer, without the line feed behind it; other
    methods are refused, and other words are not methods. *)
Theorem C69_no_std : forall O cap (out : writer O) olog fuel mtext data u hu p o,
  0 < cap <= fuel -> default_buf_size + 70 <= fuel -> prints out olog -> length data < fuel ->
  http_url_of u = Ok hu -> hu_port hu = Ok p ->
  (forall m r, builder_new u m = Ok r -> length (concat (request_pieces r)) <= fuel) ->
  match parse_method mtext with
  | Ok Get => exists r o', builder_new u Get = Ok r
      /\ no_std_main cap out fuel mtext data (Ok u) o = (Ok tt, (whole_request r [], o')) /\ olog o' = olog o ++ bs "hello world"
  | Ok Put => exists r pieces o', builder_new u Put = Ok r /\ concat pieces = data
      /\ no_std_main cap out fuel mtext data (Ok u) o = (Ok tt, (whole_request r (map Write pieces), o')) /\ olog o' = olog o ++ bs "hello world"
  | Ok m => no_std_main cap out fuel mtext data (Ok u) o = (Err (UnexpectedMethod m), ([], o))
  | _ => no_std_main cap out fuel mtext data (Ok u) o = (Err ParseError, ([], o))
  end.
Proof.
  intros O cap out olog fuel mtext data u hu p o Hcap Hfuel [Ho Hro] Hdata E1 E2 Hp.
  assert (H5 : 0 < fuel) by (apply Nat.lt_le_trans with cap; apply Hcap).
  assert (Hr : forall m, exists r, builder_new u m = Ok r /\ rq_method r = m).
  { intros m. unfold builder_new. rewrite E1. eexists. split; [reflexivity|]. now destruct m. }
  assert (Main : forall m r Bd (rdb : reader Bd) body bys d, builder_new u m = Ok r -> has_body (rq_method r) = true \/ d = [] -> delivers rdb body bys -> noisy NoStd d bys -> length bys < fuel ->
    exists pieces s' o', then_print NoStd cap fake_read out fuel (put_body NoStd cap fake_read fake_writer default_buf_size rdb fuel r body fake_connect) o = (Ok tt, (s', o'))
      /\ concat pieces = d /\ fst s' = whole_request r (map Write pieces) /\ olog o' = olog o ++ bs "hello world").
  { intros m r Bd rdb body bys d Hb Hbody Hrb Hn Hl. assert (Hlen : length canned_response + 3 < fuel).
    { apply Nat.lt_le_trans with (default_buf_size + 70); auto. apply Nat.ltb_lt. vm_compute. reflexivity. }
    assert (Hcan : map B canned_response = map B (head_bytes (bs "HTTP/1.1 200 OK") canned_lines) ++ map B (bs "hello world" ++ [LF])).
    { rewrite <- map_app. f_equal. }
    assert (Hlen2 : length (map B (head_bytes (bs "HTTP/1.1 200 OK") canned_lines) ++ map B (bs "hello world" ++ [LF])) + 3 < fuel).
    { rewrite <- Hcan, map_length. exact Hlen. }
    pose proof (fake_delivers [] canned_response) as Hd. rewrite Hcan in Hd.
    destruct (exchange_framed NoStd cap fake_read fake_writer fst fuel Hcap Hfuel fake_honest fake_reliable ltac:(intros s; eexists _, _; reflexivity) fake_undisturbed
      rdb r fake_connect body bys d _ _ _ _ _ _ (Hp m r Hb) Hbody Hrb Hn Hl canned_head Hd Hlen2) as (b & s2 & F & D & _ & E).
    destruct (put_body NoStd cap fake_read fake_writer default_buf_size rdb fuel r body fake_connect) as [x s3] eqn:Epb. cbn [fst] in E. subst x. cbn [then_print].
    destruct (C69_upload _ _ _ _ _ _ fst _ _ _ _ _ _ _ _ _ fake_honest buf_some H5 Hrb Epb) as (pieces & s1 & resp & U1 & _ & U3 & U4 & _).
    assert (U5 : fst s3 = fst s1).
    { apply (f_equal snd) in U4. cbn [snd] in U4. rewrite <- U4. apply (response_silent NoStd fake_read fst). now intros n s. }
    assert (Hy : seen canned_headers (map B (bs "hello world" ++ [LF])) (map B (bs "hello world"))).
    { rewrite <- (take_items_exact (bs "hello world") (map B [LF])). rewrite <- map_app. apply seen_length with (bs "11").
      - vm_compute. discriminate.
      - reflexivity.
      - split; [reflexivity|]. left. split; [easy|]. exists [1%N; 1%N]. split; [|reflexivity]. repeat constructor; vm_compute; congruence. }
    assert (Hz : length (map B (bs "hello world" ++ [LF])) + 3 < fuel).
    { apply Nat.lt_le_trans with (default_buf_size + 70); auto. apply Nat.ltb_lt. vm_compute. reflexivity. }
    destruct (framed_seen NoStd _ fuel _ _ b _ _ F D Hy Hz) as [Hb' Hl'].
    destruct (print_outcome NoStd cap fake_read out olog fuel Hcap Hfuel Ho Hro b _ o Hb' Hl') as (x & dd & o' & -> & Hx & Hlog).
    apply outcome_bytes in Hx as [-> ->]. exists pieces, s3, o'. split; [reflexivity|].
    split; [exact (noisy_det _ _ _ _ U1 Hn)|]. split; [rewrite U5; exact U3|exact Hlog]. }
  unfold no_std_main. cbn [rbind]. rewrite E1. cbn [rbind]. rewrite E2. cbn [rbind].
  destruct (parse_method mtext) as [m|e| |] eqn:Em; cbn [rbind].
  - destruct m; try reflexivity.
    + destruct (Hr Get) as (r & Er & Em'). rewrite Er. rewrite (get_as_put NoStd cap fake_read fake_writer fuel r fake_connect H5).
      destruct (Main Get r unit empty_read tt [] [] Er (or_intror eq_refl) empty_delivers ltac:(constructor) H5) as (ps & s' & o' & -> & K2 & K3 & K4).
      exists r, o'. cbn [fst snd]. rewrite K3. split; [reflexivity|]. split; [|exact K4]. unfold whole_request. rewrite Em'. reflexivity.
    + destruct (Hr Put) as (r & Er & Em'). rewrite Er.
      destruct (Main Put r bytes slice_read data (map B data) data Er) as (ps & s' & o' & -> & K2 & K3 & K4); auto using slice_delivers, noisy_map_B.
      { left. now rewrite Em'. } { now rewrite map_length. }
      exists r, ps, o'. cbn [fst snd]. rewrite K3. auto.
  - assert (e = ParseError) as ->; [|reflexivity]. unfold parse_method in Em.
    repeat match type of Em with context [if ?c then _ else _] => destruct c; try discriminate end. now injection Em.
  - unfold parse_method in Em. repeat match type of Em with context [if ?c then _ else _] => destruct c; try discriminate end.
  - unfold parse_method in Em. repeat match type of Em with context [if ?c then _ else _] => destruct c; try discriminate end.
Qed.
Print Assumptions C69_no_std.

(** The streams of the third example with other answers, a screen, and no files. *)
Definition C69_conn (answer : bytes) : connector nat fake nat :=
  mkConnector (fun a n => (Ok ([], answer), S n)) (fun u n => (Ok 7, n)).
Definition C69_screen : writer bytes := mkWriter (fun d s => (Ok (length d), s ++ d)) (fun s => (Ok tt, s)).
Definition C69_url : url := mkUrl (bs "http") (Some (bs "host")) None (bs "/a") None.
Definition C69_fuel : nat := default_buf_size + 100.
Definition C69_client (m : method) (data answer : bytes) : res unit * bytes :=
  let (x, wo) := client_main (C69_conn answer) 64 fake_read fake_writer (fun _ : bytes => @None unit) empty_read C69_screen C69_fuel m data C69_url 0 [] in
  (x, snd wo).
Definition C69_chunked (rest : bytes) : bytes := bs "HTTP/1.1 200 OK" ++ CRLF ++ bs "Transfer-Encoding: chunked" ++ CRLF ++ CRLF ++ rest.
Example C69_case :
  (* the hypotheses hold: of the first program *)
  (forall m data answer, m = Get \/ m = Put -> length data < C69_fuel ->
     sends (C69_conn answer) 64 fake_read fake_writer (fun _ : bytes => @None unit) empty_read C69_fuel m data C69_url 0 ([], answer))
  /\ prints C69_screen (fun s => s)
  /\ (good_head (bs "HTTP/1.1 200 OK") canned_lines (mkVersion 1 1) OK canned_headers
      /\ delivers fake_read ([], canned_response) (map B (head_bytes (bs "HTTP/1.1 200 OK") canned_lines) ++ map B (bs "hello world" ++ [LF]))
      /\ seen canned_headers (map B (bs "hello world" ++ [LF])) (map B (bs "hello world"))
      /\ seen canned_headers (map B (bs "hell")) (map B (bs "hell")))
  (* and of the third *)
  /\ (exists hu, http_url_of C69_url = Ok hu /\ hu_port hu = Ok 80%N)
  /\ (forall m r, builder_new C69_url m = Ok r -> length (concat (request_pieces r)) <= C69_fuel)
  /\ delivers seg_read (segs [bs "da"]) (map B (bs "da"))
  (* the whole answer, a short one, a cut one, and another status *)
  /\ C69_client Get [] canned_response = (Ok tt, bs "hello world")
  /\ C69_client Put (bs "data") canned_response = (Ok tt, bs "hello world")
  /\ C69_client Get [] (firstn (length canned_response - 8) canned_response) = (Ok tt, bs "hell")
  /\ C69_client Get [] (C69_chunked (bs "4" ++ CRLF ++ bs "hell" ++ CRLF)) = (Err (IoError (KOther 0)), bs "hell")
  /\ C69_client Get [] (bs "HTTP/1.1 404 Not Found" ++ CRLF ++ CRLF ++ bs "gone") = (Err (UnexpectedStatus NotFound), [])
  /\ (let (x, wo) := advance_main 64 fake_read fake_writer C69_screen
        (fun _ n => (Ok ([], bs "HTTP/1.1 404 Not Found" ++ CRLF ++ CRLF ++ bs "gone"), S n)) C69_fuel (Ok C69_url) 0 [] in (x, snd wo)) = (Ok tt, bs "gone")
  (* an upload of two bytes, and one whose second byte cannot be read *)
  /\ snd (put_body NoStd 64 fake_read fake_writer 4 seg_read C69_fuel (request_new Put (bs "/a")) (segs [bs "da"]) fake_connect)
     = (bs "PUT /a HTTP/1.1" ++ CRLF ++ CRLF ++ bs "2" ++ CRLF ++ bs "da" ++ CRLF ++ bs "0" ++ CRLF ++ CRLF, bs "hello world" ++ [LF])
  /\ fst (put_body NoStd 64 fake_read fake_writer 4 seg_read C69_fuel (request_new Put (bs "/a")) [Seg x64 []; Fail (IoError (KOther 3))] fake_connect)
     = Err (IoError (KOther 3))
  /\ no_std_main 64 C69_screen C69_fuel (bs "put") (bs "data") (Ok C69_url) [] = (Ok tt, (bs "PUT /a HTTP/1.1" ++ CRLF ++ bs "accept: */*" ++ CRLF ++ bs "host: host" ++ CRLF
        ++ bs "transfer-encoding: chunked" ++ CRLF ++ bs "user-agent: http_io" ++ CRLF ++ CRLF ++ bs "4" ++ CRLF ++ bs "data" ++ CRLF ++ bs "0" ++ CRLF ++ CRLF, bs "hello world"))
  /\ no_std_main 64 C69_screen C69_fuel (bs "HEAD") (bs "data") (Ok C69_url) [] = (Err (UnexpectedMethod Head), ([], []))
  /\ no_std_main 64 C69_screen C69_fuel (bs "PATCH") (bs "data") (Ok C69_url) [] = (Err ParseError, ([], [])).
Proof.
  assert (U11 : u64_text (bs "11") 11).
  { split; [reflexivity|]. left. split; [easy|]. exists [1%N; 1%N]. split; [|reflexivity]. repeat constructor; vm_compute; congruence. }
  assert (Hp : forall m r, builder_new C69_url m = Ok r -> length (concat (request_pieces r)) <= C69_fuel).
  { intros m r E. assert (K : match builder_new C69_url m with Ok r => length (concat (request_pieces r)) <=? C69_fuel | _ => true end = true)
      by (destruct m; vm_compute; reflexivity). rewrite E in K. now apply Nat.leb_le in K. }
  split; [|split; [|split; [|split; [|split; [|split; [exact (seg_delivers (segs [bs "da"]))|]]]]]].
  - intros m data answer Hm Hl. split.
    + split; apply Nat.leb_le; vm_compute; reflexivity.
    + apply Nat.leb_le; vm_compute; reflexivity.
    + exists fst. apply fake_honest.
    + apply fake_reliable.
    + intros s. eexists _, _. reflexivity.
    + apply fake_undisturbed.
    + assert (Hr : exists r, builder_new C69_url m = Ok r) by (eexists; reflexivity). destruct Hr as [r Er]. exists r. eauto.
    + exists 7, 0, 1. auto.
    + destruct Hm as [-> | ->]; [now left|right]. split; auto. split; [discriminate|auto].
  - split.
    + split; [intros d s r s' E; injection E as <- <-; split; auto; now rewrite firstn_all|intros s r s' E; now injection E as <- <-].
    + split; [|intros s; eexists; reflexivity]. intros d s Hd. exists (length d). eexists. split; [reflexivity|]. destruct d; [easy|]. cbn. lia.
  - split; [exact canned_head|]. split; [|split].
    + rewrite <- map_app. apply fake_delivers.
    + rewrite <- (take_items_exact (bs "hello world") (map B [LF])). rewrite <- map_app. apply seen_length with (bs "11"); [vm_compute; discriminate|reflexivity|exact U11].
    + change (map B (bs "hell")) with (take_items 11 (map B (bs "hell"))) at 2. apply seen_length with (bs "11"); [vm_compute; discriminate|reflexivity|exact U11].
  - eexists. split; reflexivity.
  - exact Hp.
  - vm_compute. repeat split.
Qed.
