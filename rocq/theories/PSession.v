(** Property C68: several requests over one kept connection. *)
From Verif Require Import PPool Base Utf8 Case Num Io Parser Types Message Outgoing Client Server Transport.
From Verif Require Import Lemmas ReadLemmas NumLemmas ChunkSpec ChunkLemmas BodyLemmas WriteLemmas ParserLemmas CaseLemmas TypesLemmas HeadLemmas
  BlockLemmas MsgLemmas SimLemmas OutLemmas KeepLemmas PBody PIo PParse PHead POut PReuse PServer PEnd NetLemmas Net NetSock NetStep NetFav NetFacts PNet
  PBodiless Session.

(** ** Readers that do what another one does *)
Definition mirrors {S T} (rd1 : reader S) (rd2 : reader T) (f : S -> T) (I : S -> Prop) : Prop :=
  forall n s, 0 < n -> I s -> let (x, s') := rd1 n s in rd2 n (f s) = (x, f s') /\ I s'.

Lemma mirrors_pos {S T} (rd1 : reader S) (rd2 : reader T) f I R : mirrors rd1 rd2 f I -> reader_pos rd2 R ->
  reader_pos rd1 (fun s xs => I s /\ R (f s) xs).
Proof.
  intros HM HR n s xs Hn [Hi Hs]. pose proof (HM n s Hn Hi) as M. pose proof (HR n (f s) xs Hn Hs) as H.
  destruct (rd1 n s) as [x s']. destruct M as [M1 M2]. rewrite M1 in H. destruct xs as [|[b|e] xs].
  - destruct H as (t & [= -> <-] & H). exists s'. auto.
  - destruct H as (got & xs' & t & [= -> <-] & H1 & H2 & H3 & H4). exists got, xs', s'. now repeat (split; auto).
  - destruct H as (t & [= -> <-] & H). exists s'. auto.
Qed.

Lemma mirrors_bufr {S T} bld cap (rd1 : reader S) (rd2 : reader T) f I : 0 < cap -> mirrors rd1 rd2 f I ->
  mirrors (bufr_read bld cap rd1) (bufr_read bld cap rd2) (fun r => mkBufr (f (br_inner r)) (br_buf r)) (fun r => I (br_inner r)).
Proof.
  intros Hc HM n [s buf] Hn Hi. cbn [br_inner br_buf] in *. unfold bufr_read. cbn [br_inner br_buf].
  pose proof (HM n s Hn Hi) as M. pose proof (HM cap s Hc Hi) as Mc.
  destruct bld.
  - destruct buf as [|b buf]; [|split; auto]. destruct (cap <=? n).
    + destruct (rd1 n s) as [x s']. destruct M as [-> M]. auto.
    + destruct (rd1 cap s) as [[g|e| |] s']; destruct Mc as [-> Mc]; auto.
  - destruct (rd1 n s) as [x s']. destruct M as [-> M]. auto.
Qed.

(** The socket that goes on as a list of segments. *)
Definition ev_of (x : item) : event := match x with B b => Seg b [] | E e => Fail e end.
Definition evs (s : fsock) : list event := segs (f_reads s) ++ map ev_of (f_more s).
Definition plain (s : fsock) : Prop := f_end s = false /\ Forall (fun d => d <> []) (f_reads s).
Lemma f_mirrors : mirrors f_read seg_read evs plain.
Proof.
  intros n s Hn [He Hr]. destruct n as [|n]; [lia|]. f_cases s. subst. unfold f_read, evs, plain. cbn [f_reads f_writes f_end f_more f_sent f_taken].
  destruct rs as [|[|x d] rs].
  - destruct mo as [|[b|e] mo]; cbn [segs flat_map app map ev_of seg_read]; try (now repeat split).
    rewrite firstn_nil, skipn_nil. now repeat split.
  - now inversion Hr.
  - inversion Hr as [|? ? _ Hrs]; subst. cbn [segs flat_map app seg_read firstn skipn f_end f_reads].
    destruct (skipn n d); cbn [flat_map app f_end f_reads]; split; auto. split; auto. constructor; auto. easy.
Qed.

Lemma segs_app x y : segs (x ++ y) = segs x ++ segs y.
Proof. unfold segs. apply flat_map_app. Qed.
Lemma segs_items l : items_of (segs l) = map B (concat l).
Proof.
  induction l as [|[|b d] l IH]; [reflexivity|exact IH|]. cbn. fold (segs l). fold (items_of (segs l)). now rewrite IH, map_app.
Qed.
Lemma ev_items l : items_of (map ev_of l) = l.
Proof. induction l as [|[b|e] l IH]; [reflexivity| |]; cbn; now f_equal. Qed.
Lemma items_of_app x y : items_of (x ++ y) = items_of x ++ items_of y.
Proof. apply flat_map_app. Qed.
Lemma segs_inj : forall x y, Forall (fun d => d <> []) x -> Forall (fun d => d <> []) y -> segs x = segs y -> x = y.
Proof.
  induction x as [|[|b d] x IH]; intros [|[|b' d'] y] Hx Hy H; try (now inversion Hx); try (now inversion Hy); try discriminate; auto.
  cbn in H. injection H as <- <- H. f_equal. apply IH; auto; [now inversion Hx|now inversion Hy].
Qed.

(** ** A program that reads to the end *)
Section ToEnd.
  Context {T A : Type} (bld : build) (rd : reader T) (bfuel : nat) (R : hbody T -> list item -> Prop) (HR : reader_pos (body_read bld rd bfuel) R)
    (P : hbody T -> Prop) (HP : forall n b, 0 < n -> R b [] -> P (snd (body_read bld rd bfuel n b))).
  Lemma past_end : forall fuel (p : prog A) b x b', R b [] -> P b -> reads_some p -> run_prog bld rd bfuel fuel p b = (x, b') -> P b'.
  Proof using HR HP.
    induction fuel as [|f IH]; intros p b x b' Hb Hz Hp H; cbn [run_prog] in H; [now injection H as <- <-|].
    destruct p as [a|n k|k]; [now injection H as <- <-| |].
    - inversion Hp as [|n' k' Hn Hk|]; subst. destruct (HR n b [] Hn Hb) as (b1 & E1 & Hb1). rewrite E1 in H.
      pose proof (HP n b Hn Hb) as Hz1. rewrite E1 in Hz1. exact (IH _ b1 _ _ Hb1 Hz1 (Hk _) H).
    - inversion Hp as [| |k' Hk]; subst. exact (IH _ _ _ _ Hb Hz (Hk _) H).
  Qed.
  Lemma reads_to_end : forall fuel (p : prog A) b data a b', R b (map B data) -> to_end p ->
    run_prog bld rd bfuel fuel p b = (Ok a, b') -> P b'.
  Proof using HR HP.
    induction fuel as [|f IH]; intros p b data a b' Hb Hp H; cbn [run_prog] in H; [discriminate|].
    destruct p as [a0|n k|k]; [inversion Hp| |].
    - inversion Hp as [n' k' Hn H1 H2 H3|]; subst. pose proof (HR n b (map B data) Hn Hb) as Hr.
      destruct data as [|d data]; cbn [map] in Hr.
      + destruct Hr as (b1 & E1 & Hb1). rewrite E1 in H. pose proof (HP n b Hn Hb) as Hz1. rewrite E1 in Hz1.
        exact (past_end _ _ b1 _ _ Hb1 Hz1 H2 H).
      + destruct Hr as (got & xs' & b1 & E1 & Hg & Hlen & Ex & Hb1). rewrite E1 in H.
        change (B d :: map B data) with (map B (d :: data)) in Ex. apply map_eq_app in Ex as (g & rest & _ & _ & <-).
        exact (IH _ b1 rest _ _ Hb1 (H1 _ Hg) H).
    - inversion Hp as [|k' Hk]; subst. exact (IH _ _ data _ _ Hb (Hk _) H).
  Qed.
End ToEnd.

(** ** One exchange *)
(** What the caller sends and does, and the answer: its head and its body. *)
Record exch (A : Type) := mkExch {
  x_req : request unit; x_ops : list op; x_prog : status -> headers -> prog A;
  x_first : bytes; x_lines : list bytes; x_version : version; x_status : status; x_headers : headers; x_out : bytes }.
Arguments mkExch {A}.
Arguments x_req {A}. Arguments x_ops {A}. Arguments x_prog {A}. Arguments x_first {A}. Arguments x_lines {A}.
Arguments x_version {A}. Arguments x_status {A}. Arguments x_headers {A}. Arguments x_out {A}.

Definition asks {A} (l : list (exch A)) := map (fun e => (x_req e, x_ops e, x_prog e)) l.
Definition x_wire {A} (e : exch A) : bytes := whole_request (x_req e) (x_ops e).
Definition x_answer {A} (e : exch A) : bytes := head_bytes (x_first e) (x_lines e) ++ x_out e.
(** The bytes of all requests, and of all answers. *)
Definition wires {A} (l : list (exch A)) : bytes := concat (map x_wire l).
Definition replies {A} (l : list (exch A)) : bytes := concat (map x_answer l).

(** The answer is well-formed and announces the length of its body, and the caller reads the body to its end. *)
Record good_exch {A} (fuel : nat) (e : exch A) : Prop := {
  gx_ops : has_body (rq_method (x_req e)) = true \/ x_ops e = [];
  gx_pieces : length (concat (request_pieces (x_req e))) <= fuel;
  gx_chunks : Forall (fun d => length (chunk_of d) <= fuel) (written (x_ops e));
  gx_head : good_head (x_first e) (x_lines e) (x_version e) (x_status e) (x_headers e);
  gx_plain : hm_get (bs "transfer-encoding") (x_headers e) <> Some (bs "chunked");
  gx_length : exists w, hm_get (bs "content-length") (x_headers e) = Some w /\ u64_text w (N.of_nat (length (x_out e)));
  gx_reads : to_end (x_prog e (x_status e) (x_headers e));
  gx_stops : stops (fun k => Some (N.of_nat k)) fuel (x_prog e (x_status e) (x_headers e)) (x_out e) }.
(** The result: status and headers as sent, and a run of the caller's program on the body. *)
Definition good_result {A} (e : exch A) (x : status * headers * A) : Prop :=
  exists y, x = (x_status e, x_headers e, y) /\ runs (fun k => Some (N.of_nat k)) (x_prog e (x_status e) (x_headers e)) (x_out e) y.

Lemma recv_boundary {A} bld cap fuel (e : exch A) b evs1 evs2 : 0 < cap -> good_exch fuel e -> plain b ->
  evs b = evs1 ++ evs2 -> items_of evs1 = map B (x_answer e) -> length (items_of (evs b)) + 3 < fuel ->
  exists x b2, client_recv bld cap f_read fuel (x_prog e) b = (Ok x, b2) /\ good_result e x /\ evs b2 = evs2 /\ plain b2.
Proof.
  intros Hcap G Hb He Hi Hf. destruct (gx_length _ _ G) as (w & Hw1 & Hw2).
  pose proof (carries_length (x_headers e) (x_out e) w (gx_plain _ _ G) Hw1 Hw2) as Hc.
  assert (Ei : items_of (evs b) = map B (head_bytes (x_first e) (x_lines e)) ++ map B (x_out e) ++ items_of evs2).
  { rewrite He, items_of_app, Hi. unfold x_answer. now rewrite map_app, <- app_assoc. }
  rewrite Ei in Hf.
  pose proof (mirrors_pos f_read seg_read evs plain (seg_pos evs2) f_mirrors (seg_pos_read evs2)) as HR.
  destruct (response_accepts_rel bld f_read _ fuel b (x_first e) (x_lines e) (map B (x_out e) ++ items_of evs2)
    (x_version e) (x_status e) (x_headers e) HR (gx_head _ _ G)) as (bd & s1 & E & Hfr & (Hp1 & Hs1 & Hs2)).
  { split; [exact Hb|]. split; [now rewrite Ei|]. left. now exists evs1. }
  { lia. }
  assert (HRb := mirrors_pos _ _ _ _ (buf_pos bld evs2) (mirrors_bufr bld cap f_read seg_read evs plain Hcap f_mirrors) (buf_pos_read bld cap evs2 Hcap)).
  cbv beta in HRb.
  destruct (carries_read bld (bufr_read bld cap f_read) _ (bufr_new s1) (x_headers e) (x_out e) (x_out e) (items_of evs2) bd fuel HRb Hfr Hc) as (R & A1 & A2 & A3).
  { split; [exact Hp1|]. split; [exact Hs1|]. split; [easy|]. exact Hs2. }
  { rewrite app_length in Hf. lia. }
  assert (Hbd : bd = BLimited (N.of_nat (length (x_out e))) (bufr_new s1)).
  { destruct Hfr as (l & Hlen & Hfb). destruct Hfb as [[Hfb _]|[_ ->]]; [now destruct (gx_plain _ _ G)|].
    destruct Hlen as [[Hl _]|(w' & n & Hl & Hn' & ->)]; [congruence|]. rewrite Hw1 in Hl. injection Hl as <-.
    pose proof (content_length_good (x_headers e) w _ Hw1 Hw2). pose proof (content_length_good (x_headers e) w _ Hw1 Hn'). congruence. }
  destruct (run_prog bld (bufr_read bld cap f_read) fuel fuel (x_prog e (x_status e) (x_headers e)) bd) as [x b'] eqn:Ep.
  set (I := fun (b0 : hbody (bufr fsock)) (d : bytes) => exists t, b0 = BLimited (N.of_nat (length d)) t).
  assert (HI : forall n0 b0 b1 got rest, I b0 (got ++ rest) -> body_read bld (bufr_read bld cap f_read) fuel n0 b0 = (Ok got, b1) -> I b1 rest).
  { intros n0 b0 b1 got rest (t0 & ->) Eb. apply body_length_step in Eb as (t1 & ->). exists t1. f_equal. rewrite app_length. lia. }
  assert (HL : forall b0 d, I b0 d -> body_content_length b0 = Some (N.of_nat (length d))) by (intros b0 d (t0 & ->); reflexivity).
  assert (Ib : I bd (x_out e)) by (subst bd; unfold I; eauto).
  destruct (run_prog_runs bld (bufr_read bld cap f_read) fuel (fun k => Some (N.of_nat k)) R I A1 HI HL fuel
    (x_prog e (x_status e) (x_headers e)) bd (x_out e) x b' A2 Ib (to_end_reads_some _ (gx_reads _ _ G)) Ep) as [[_ Hn]|(a & -> & Ha)].
  { destruct (Hn (gx_stops _ _ G)). }
  exists (x_status e, x_headers e, a), (br_inner (body_reader b')).
  split; [unfold client_recv; rewrite E; cbn [rs_body rs_status rs_headers]; rewrite Ep; reflexivity|].
  split; [exists a; auto|].
  destruct (reads_to_end bld (bufr_read bld cap f_read) fuel R A1
    (fun b0 => plain (br_inner (body_reader b0)) /\ buf_pos bld evs2 (mkBufr (evs (br_inner (body_reader b0))) (br_buf (body_reader b0))) (items_of evs2))
    A3 fuel _ bd (x_out e) a b' A2 (gx_reads _ _ G) Ep) as (K1 & K2 & K3 & [(e1 & K4)|K4]); [|lia].
  cbn [br_inner br_buf] in *. split; [|exact K1]. rewrite K4 in K2 |- *. rewrite items_of_app, app_assoc in K2.
  assert (K5 : map B (br_buf (body_reader b')) ++ items_of e1 = []) by (apply (app_inv_tail (items_of evs2)); now symmetry).
  apply app_eq_nil in K5 as [_ K5]. now destruct e1 as [|[b0 m|e0] e1].
Qed.

Section Aligned.
  Context {A : Type}.
  (** The answers given so far are [i] whole ones and a part of the next, cut where the next begins. *)
  Inductive aligned : list (exch A) -> nat -> list bytes -> Prop :=
  | al_done : aligned [] 0 []
  | al_part e t rs rest : rest <> [] -> x_answer e = concat rs ++ rest -> aligned (e :: t) 0 rs
  | al_next e t i g rs : concat g = x_answer e -> aligned t i rs -> aligned (e :: t) (S i) (g ++ rs).

  Lemma answer_some (e : exch A) : x_answer e <> [].
  Proof. unfold x_answer, head_bytes. destruct (x_first e); easy. Qed.
  Lemma aligned_given l i rs : aligned l i rs ->
    (i = length l /\ concat rs = replies l) \/ (i < length l /\ exists y rest, concat rs = replies (firstn i l) ++ y
        /\ rest <> [] /\ replies (firstn (S i) l) = concat rs ++ rest /\ (rs = [] -> y = [])).
  Proof.
    induction 1 as [|e t rs rest Hr Ha|e t i g rs Hg Ha IH].
    - now left.
    - right. split; [cbn; lia|]. exists (concat rs), rest. split; [reflexivity|]. split; [exact Hr|]. cbn. rewrite app_nil_r. split; auto. now intros ->.
    - rewrite concat_app, Hg. destruct IH as [[-> IH]|(Hi & y & rest & H1 & H2 & H3 & H4)].
      + left. split; [reflexivity|]. now rewrite IH.
      + right. split; [cbn; lia|]. exists y, rest. change (firstn (S (S i)) (e :: t)) with (e :: firstn (S i) t).
        change (firstn (S i) (e :: t)) with (e :: firstn i t). unfold replies in *. cbn [map concat]. rewrite H3, H1, <- !app_assoc. split; auto. split; auto. split; auto.
        intros Hn. apply app_eq_nil in Hn as [-> ->]. auto.
  Qed.
  Lemma aligned_more l i rs d : aligned l i rs -> d <> [] -> i < length l -> prefix (concat rs ++ d) (replies (firstn (S i) l)) ->
    aligned l i (rs ++ [d]) \/ (aligned l (S i) (rs ++ [d]) /\ concat (rs ++ [d]) = replies (firstn (S i) l)).
  Proof.
    induction 1 as [|e t rs rest Hr Ha|e t i g rs Hg Ha IH]; intros Hd Hi Hp.
    - cbn in Hi. lia.
    - cbn in Hp. rewrite app_nil_r in Hp. destruct Hp as [[|b r] Hp].
      + right. rewrite app_nil_r in Hp. cbn [firstn]. unfold replies. cbn [map concat]. rewrite app_nil_r, concat_app. cbn [concat]. rewrite app_nil_r.
        split; [|now symmetry]. rewrite <- (app_nil_r (rs ++ [d])). apply al_next; [now rewrite concat_app; cbn; rewrite app_nil_r|].
        destruct t as [|e' t]; [constructor|]. apply al_part with (x_answer e'); [apply answer_some|reflexivity].
      + left. apply al_part with (b :: r); [easy|]. rewrite concat_app. cbn [concat]. rewrite app_nil_r. exact Hp.
    - change (firstn (S (S i)) (e :: t)) with (e :: firstn (S i) t) in Hp. unfold replies in Hp. cbn [map concat] in Hp.
      rewrite concat_app, Hg, <- app_assoc in Hp. destruct Hp as [r Hp]. rewrite <- app_assoc in Hp. apply app_inv_head in Hp.
      rewrite <- app_assoc. destruct (IH Hd ltac:(cbn in Hi; lia) ltac:(now exists r)) as [K|[K1 K2]].
      + left. now apply al_next.
      + right. split; [now apply al_next|]. rewrite concat_app, Hg, K2. reflexivity.
  Qed.
End Aligned.

(** *** On the blocking socket *)
Section Client.
  Context {A : Type} (bld : build) (cap fuel : nat) (Hcap : 0 < cap <= fuel) (H5 : 5 <= fuel).

  Lemma send_facts (e : exch A) s : good_exch fuel e -> k_stop s = None ->
    let '(x, s1) := client_send bld cap sock_writer fuel (x_req e) (x_ops e) s in
    k_reads s1 = k_reads s /\ k_end s1 = k_end s /\ k_taken s1 = k_taken s
    /\ ((exists d y, k_stop s1 = Some (AWrite d) /\ k_sent s1 = k_sent s ++ y /\ prefix (y ++ d) (x_wire e))
        \/ (x = Ok tt /\ k_stop s1 = None /\ k_sent s1 = k_sent s ++ x_wire e)).
  Proof using Hcap H5.
    intros G Hs. set (F := send_process bld cap fuel (x_req e) (x_ops e)).
    pose proof (send_process_lax bld cap fuel (x_req e) (x_ops e) : lax_process F) as HF.
    destruct (writes_keep F s HF (send_only_writes bld cap fuel (x_req e) (x_ops e)) Hs) as (K1 & K2 & K3 & K4).
    change (client_send bld cap sock_writer fuel (x_req e) (x_ops e) s) with (F sock sock_read sock_writer s).
    pose proof (fav [] F s (goes_on [] s) HF (goes_on_R [] s Hs)) as Hfav.
    destruct (client_send_reliable bld cap f_writer f_sent fuel (x_req e) (x_ops e) (goes_on [] s) f_honest f_reliable
      (gx_ops _ _ G) ltac:(lia) H5 (gx_pieces _ _ G) (gx_chunks _ _ G)) as (s2 & E2 & L2).
    change (F fsock f_read f_writer (goes_on [] s)) with (client_send bld cap f_writer fuel (x_req e) (x_ops e) (goes_on [] s)) in Hfav.
    rewrite E2 in Hfav. cbn [fst snd] in Hfav. cbn [f_sent goes_on] in L2.
    pose proof (process_keep F sock_read sock_writer _ s HF (sent_only_kept (k_sent s)) ltac:(exists []; now rewrite app_nil_r)) as K5. cbv beta in K5.
    destruct (F sock sock_read sock_writer s) as [x s1]. cbn [fst snd] in *. split; [auto|]. split; [auto|]. split; [auto|].
    destruct Hfav as [[Hx (R1 & _ & _ & _ & R5 & _)]|HQ].
    - right. split; [exact Hx|]. split; [exact R1|]. now rewrite <- R5.
    - left. unfold fQ in HQ. destruct (k_stop s1) as [[n|d]|]; [now destruct (K1 n)| |contradiction].
      destruct K5 as [y K5]. exists d, y. split; auto. split; auto. rewrite L2, K5, <- app_assoc in HQ. destruct HQ as [t Ht].
      rewrite <- app_assoc in Ht. apply app_inv_head in Ht. exists t. exact Ht.
  Qed.

  (** The whole answer has been given: it is read up to its end. *)
  Lemma recv_whole (e : exch A) s g more : good_exch fuel e -> k_stop s = None -> k_end s = false -> Forall (fun d => d <> []) (k_reads s) ->
    k_reads s = g ++ more -> concat g = x_answer e -> length (concat (k_reads s)) + 4 < fuel ->
    exists x s2, client_recv bld cap sock_read fuel (x_prog e) s = (Ok x, s2) /\ good_result e x
      /\ k_stop s2 = None /\ k_end s2 = false /\ k_reads s2 = more /\ k_sent s2 = k_sent s.
  Proof using Hcap H5.
    intros G Hs He Hne Hr Hg Hf. set (F := recv_process bld cap fuel (x_prog e)).
    pose proof (recv_process_lax bld cap fuel (x_prog e) : lax_process F) as HF.
    destruct (reads_keep F s HF (recv_only_reads bld cap fuel (x_prog e)) Hs) as (K1 & _ & K3).
    pose proof (fav [E UnexpectedEof] F s (goes_on [E UnexpectedEof] s) HF (goes_on_R _ s Hs)) as Hfav.
    change (F fsock f_read f_writer (goes_on [E UnexpectedEof] s)) with (client_recv bld cap f_read fuel (x_prog e) (goes_on [E UnexpectedEof] s)) in Hfav.
    change (F sock sock_read sock_writer s) with (client_recv bld cap sock_read fuel (x_prog e) s) in *.
    assert (Ee : evs (goes_on [E UnexpectedEof] s) = segs g ++ segs more ++ [Fail UnexpectedEof]).
    { unfold evs, goes_on. cbn [f_reads f_more map ev_of]. now rewrite Hr, segs_app, <- app_assoc. }
    destruct (recv_boundary bld cap fuel e (goes_on [E UnexpectedEof] s) (segs g) (segs more ++ [Fail UnexpectedEof]))
      as (x & b2 & Erv & Hx & Hev & Hp); auto; try lia.
    { split; auto. }
    { rewrite segs_items. now rewrite Hg. }
    { rewrite Ee, !items_of_app, !segs_items, app_length. rewrite Hr, concat_app, app_length in Hf. rewrite app_length, !map_length. cbn. lia. }
    rewrite Erv in Hfav. cbn [fst snd] in Hfav. pose proof (process_keep F sock_read sock_writer _ s HF (end_kept false)) as K4.
    change (F sock sock_read sock_writer s) with (client_recv bld cap sock_read fuel (x_prog e) s) in K4.
    destruct (client_recv bld cap sock_read fuel (x_prog e) s) as [x' s2]. cbn [fst snd] in *.
    assert (Hm : length (f_more b2) <= 1 -> f_reads b2 = more /\ f_more b2 = [E UnexpectedEof]).
    { intros Hl. destruct Hp as [_ Hp]. unfold evs in Hev. destruct (f_more b2) as [|i [|]]; cbn in Hl; try lia.
      - exfalso. cbn in Hev. rewrite app_nil_r in Hev.
        assert (Hc : In (Fail UnexpectedEof) (segs (f_reads b2))) by (rewrite Hev; apply in_or_app; right; now left).
        unfold segs in Hc. apply in_flat_map in Hc as (d & _ & Hd). destruct d; [destruct Hd|]. destruct Hd as [Hd|[]]. discriminate.
      - cbn [map] in Hev. apply app_inj_tail in Hev as [Hev Hi]. split; [|destruct i; [discriminate|now injection Hi as ->]].
        apply segs_inj; auto. rewrite Hr in Hne. apply Forall_app in Hne. tauto. }
    destruct Hfav as [[-> (R1 & R2 & R3 & R4 & R5 & R6 & R7)]|HQ].
    - destruct Hm as [Hm _]; [rewrite R7; cbn; lia|]. exists x, s2. split; auto. split; auto. split; auto.
      split; [destruct Hp as [Hp _]; congruence|]. split; [congruence|exact K3].
    - exfalso. unfold fQ in HQ. destruct (k_stop s2) as [[n|d]|] eqn:Est; [|now destruct (K1 d)|contradiction].
      destruct HQ as [HQ|HQ]; [discriminate|]. destruct Hm as [_ Hm]; [cbn in HQ; lia|]. rewrite Hm in HQ. cbn in HQ. lia.
  Qed.

  (** A part of the answer has been given: it is still being read. *)
  Lemma recv_part (e : exch A) s rest : good_exch fuel e -> k_stop s = None -> k_end s = false -> Forall (fun d => d <> []) (k_reads s) ->
    x_answer e = concat (k_reads s) ++ rest -> rest <> [] -> length (x_answer e) + 4 < fuel ->
    exists n, k_stop (snd (client_recv bld cap sock_read fuel (x_prog e) s)) = Some (ARead n)
      /\ k_sent (snd (client_recv bld cap sock_read fuel (x_prog e) s)) = k_sent s.
  Proof using Hcap H5.
    intros G Hs He Hne Hr Hrest Hf. set (F := recv_process bld cap fuel (x_prog e)).
    pose proof (recv_process_lax bld cap fuel (x_prog e) : lax_process F) as HF.
    destruct (reads_keep F s HF (recv_only_reads bld cap fuel (x_prog e)) Hs) as (K1 & _ & K3).
    set (M := map B rest ++ [E UnexpectedEof]).
    pose proof (fav M F s (goes_on M s) HF (goes_on_R _ s Hs)) as Hfav.
    change (F fsock f_read f_writer (goes_on M s)) with (client_recv bld cap f_read fuel (x_prog e) (goes_on M s)) in Hfav.
    change (F sock sock_read sock_writer s) with (client_recv bld cap sock_read fuel (x_prog e) s) in *.
    destruct (recv_boundary bld cap fuel e (goes_on M s) (segs (k_reads s) ++ map ev_of (map B rest)) [Fail UnexpectedEof])
      as (x & b2 & Erv & Hx & Hev & Hp); auto; try lia.
    { split; auto. }
    { unfold evs, goes_on, M. cbn [f_reads f_more]. now rewrite map_app, app_assoc. }
    { rewrite items_of_app, segs_items, ev_items, Hr. now rewrite map_app. }
    { unfold evs, goes_on, M. cbn [f_reads f_more]. rewrite items_of_app, segs_items, ev_items, !app_length, !map_length. cbn [length].
      rewrite Hr, app_length in Hf. lia. }
    rewrite Erv in Hfav. cbn [fst snd] in Hfav.
    destruct (client_recv bld cap sock_read fuel (x_prog e) s) as [x' s2]. cbn [fst snd] in *.
    destruct Hfav as [[_ (_ & _ & _ & _ & _ & _ & R7)]|HQ].
    - exfalso. unfold evs in Hev. rewrite R7 in Hev. apply (f_equal (@length event)) in Hev. unfold M in Hev.
      rewrite app_length, map_length, app_length, map_length in Hev. destruct rest; [easy|]. cbn in Hev. lia.
    - unfold fQ in HQ. destruct (k_stop s2) as [[n|d]|]; [exists n; auto|now destruct (K1 d)|contradiction].
  Qed.

  Definition session_process (l : list (exch A)) : process (list (status * headers * A)) := fun S rd wt => session bld cap rd wt fuel (asks l).
  Lemma session_lax l : lax_process (session_process l).
  Proof.
    intros S1 S2 R Q rd1 rd2 wt1 wt2 HR HW HF. unfold session_process, asks. induction l as [|e t IH]; cbn [map session]; [now apply lg_ret|].
    apply lg_sbind; [now apply client_run_lax|]. intros x. apply lg_sbind; [exact IH|]. intros xs. now apply lg_ret.
  Qed.
  Lemma stuck_keep (l : list (exch A)) (x : res unit) (p : status -> headers -> prog A) s q : k_stop s = Some q ->
    snd (sbind (sbind (x, s) (fun _ s => client_recv bld cap sock_read fuel p s))
           (fun a s1 => sbind (session bld cap sock_read sock_writer fuel (asks l) s1) (fun xs s2 => (Ok (a :: xs), s2)))) = s.
  Proof.
    intros H.
    assert (K : snd (sbind (x, s) (fun _ s => client_recv bld cap sock_read fuel p s)) = s).
    { destruct x; cbn [sbind]; auto. apply (stopped_keep (recv_process bld cap fuel p) s q (recv_process_lax bld cap fuel p) H). }
    destruct (sbind (x, s) (fun _ s => client_recv bld cap sock_read fuel p s)) as [[a| | |] s1]; cbn [snd] in K; subst s1; cbn [sbind]; auto.
    pose proof (stopped_keep (session_process l) s q (session_lax l) H) as K. unfold session_process in K.
    destruct (session bld cap sock_read sock_writer fuel (asks l) s) as [[xs| | |] s2]; cbn [sbind snd] in *; auto.
  Qed.

  (** How far the caller gets. *)
  Lemma session_facts (l : list (exch A)) i rs : aligned l i rs -> forall s, Forall (good_exch fuel) l -> length (replies l) + 4 < fuel ->
    k_stop s = None -> k_end s = false -> k_reads s = rs -> Forall (fun d => d <> []) rs ->
    let (x, s') := session bld cap sock_read sock_writer fuel (asks l) s in
    spent s' ->
    (i = length l /\ k_stop s' = None /\ k_sent s' = k_sent s ++ wires l /\ exists ys, x = Ok ys /\ Forall2 good_result l ys)
    \/ (exists e t d y, skipn i l = e :: t /\ k_stop s' = Some (AWrite d) /\ k_sent s' = k_sent s ++ wires (firstn i l) ++ y
          /\ prefix (y ++ d) (x_wire e) /\ concat rs = replies (firstn i l))
    \/ (i < length l /\ exists n, k_stop s' = Some (ARead n) /\ k_sent s' = k_sent s ++ wires (firstn (S i) l)).
  Proof using Hcap H5.
    induction 1 as [|e t rs rest Hr Ha|e t i g rs Hg Ha IH]; intros s Hgood Hf Hs He Hrs Hne.
    - cbn [asks map session]. intros _. left. rewrite app_nil_r. repeat split; auto. now exists [].
    - apply Forall_cons_iff in Hgood as [G _]. cbn [asks map session]. fold (asks t). unfold client_run.
      pose proof (send_facts e s G Hs) as K. destruct (client_send bld cap sock_writer fuel (x_req e) (x_ops e) s) as [x1 s1].
      destruct K as (K1 & K2 & K3 & [(d & y & K4 & K5 & K6)|(-> & K4 & K5)]).
      + pose proof (stuck_keep t x1 (x_prog e) s1 _ K4) as Hk.
        destruct (sbind (sbind (x1, s1) _) _) as [x s']. cbn [snd] in Hk. subst s'. intros [Hsp _]. right. left.
        exists e, t, d, y. split; [reflexivity|]. split; auto. split; auto. split; auto. rewrite K1, Hrs in Hsp. now rewrite Hsp.
      + cbn [sbind].
        destruct (recv_part e s1 rest G K4 ltac:(congruence) ltac:(now rewrite K1, Hrs) ltac:(now rewrite K1, Hrs) Hr) as (n & K6 & K7).
        { unfold replies in Hf. cbn in Hf. rewrite app_length in Hf. lia. }
        pose proof (stuck_keep t (Ok tt) (x_prog e) (snd (client_recv bld cap sock_read fuel (x_prog e) s1)) _ K6) as Hk.
        assert (Hk' : snd (sbind (client_recv bld cap sock_read fuel (x_prog e) s1)
           (fun a s1 => sbind (session bld cap sock_read sock_writer fuel (asks t) s1) (fun xs s2 => (Ok (a :: xs), s2)))) = snd (client_recv bld cap sock_read fuel (x_prog e) s1)).
        { clear Hk. destruct (client_recv bld cap sock_read fuel (x_prog e) s1) as [[a| | |] s2]; cbn [snd] in *; auto. cbn [sbind].
          pose proof (stopped_keep (session_process t) s2 _ (session_lax t) K6) as K. unfold session_process in K.
          destruct (session bld cap sock_read sock_writer fuel (asks t) s2) as [[xs| | |] s3]; cbn [sbind snd] in *; auto. }
        destruct (sbind (client_recv bld cap sock_read fuel (x_prog e) s1) _) as [x s']. cbn [snd] in Hk'. subst s'. intros _. right. right.
        split; [cbn; lia|]. exists n. split; auto. rewrite K7, K5. unfold wires. cbn. now rewrite app_nil_r.
    - apply Forall_cons_iff in Hgood as [G Hgood]. cbn [asks map session]. fold (asks t). unfold client_run.
      pose proof (send_facts e s G Hs) as K. destruct (client_send bld cap sock_writer fuel (x_req e) (x_ops e) s) as [x1 s1].
      destruct K as (K1 & K2 & K3 & [(d & y & K4 & K5 & K6)|(-> & K4 & K5)]).
      + pose proof (stuck_keep t x1 (x_prog e) s1 _ K4) as Hk.
        destruct (sbind (sbind (x1, s1) _) _) as [x s']. cbn [snd] in Hk. subst s'. intros [Hsp _]. exfalso.
        rewrite K1, Hrs in Hsp. apply app_eq_nil in Hsp as [-> _]. now apply (answer_some e).
      + cbn [sbind].
        assert (Hlen : length (concat (g ++ rs)) + 4 < fuel).
        { destruct (aligned_given _ _ _ Ha) as [[_ E]|(_ & y & r & _ & _ & E & _)].
          - rewrite concat_app, Hg, E. exact Hf.
          - rewrite concat_app, Hg, app_length. assert (length (concat rs) <= length (replies t)).
            { rewrite <- (firstn_skipn (S i) t). unfold replies in *. rewrite map_app, concat_app, E, !app_length. lia. }
            unfold replies in Hf, H. cbn [map concat] in Hf. rewrite app_length in Hf. lia. }
        destruct (recv_whole e s1 g rs G K4 ltac:(congruence) ltac:(now rewrite K1, Hrs) ltac:(now rewrite K1) Hg ltac:(rewrite K1, Hrs; exact Hlen))
          as (x & s2 & -> & Hx & L1 & L2 & L3 & L4). cbn [sbind].
        specialize (IH s2 Hgood). 
        assert (Hf' : length (replies t) + 4 < fuel) by (unfold replies in *; cbn [map concat] in Hf; rewrite app_length in Hf; lia).
        apply Forall_app in Hne as [_ Hne]. specialize (IH Hf' L1 L2 L3 Hne).
        destruct (session bld cap sock_read sock_writer fuel (asks t) s2) as [z s3]. 
        assert (Hz : snd (sbind (z, s3) (fun xs s2 => (Ok (x :: xs), s2))) = s3) by (now destruct z).
        destruct (sbind (z, s3) (fun xs s2 => (Ok (x :: xs), s2))) as [z' s4] eqn:Ez. cbn [snd] in Hz. subst s4. intros Hsp.
        destruct (IH Hsp) as [(-> & J1 & J2 & ys & -> & J3)|[(e' & t' & d & y & J1 & J2 & J3 & J4 & J5)|(J1 & n & J2 & J3)]].
        * left. cbn [sbind] in Ez. injection Ez as <-. split; [reflexivity|]. split; auto. split; [|exists (x :: ys); split; auto].
          rewrite J2, L4, K5, <- app_assoc. reflexivity.
        * right. left. exists e', t', d, y. split; [exact J1|]. split; auto. split; [|split; auto].
          -- rewrite J3, L4, K5. unfold wires. cbn [firstn map concat]. now rewrite <- !app_assoc.
          -- rewrite concat_app, Hg, J5. reflexivity.
        * right. right. split; [cbn; lia|]. exists n. split; auto. rewrite J3, L4, K5. unfold wires. cbn [firstn map concat]. now rewrite <- !app_assoc.
  Qed.
End Client.

Lemma prefix_trans (x y z : bytes) : prefix x y -> prefix y z -> prefix x z.
Proof. intros [t ->] [u ->]. rewrite <- app_assoc. now eexists. Qed.
Lemma prefix_head (x y z : bytes) : prefix (x ++ y) z -> prefix x z.
Proof. intros [t ->]. rewrite <- app_assoc. now eexists. Qed.
Lemma prefix_refl (x : bytes) : prefix x x.
Proof. exists []. now rewrite app_nil_r. Qed.
Lemma prefix_len (x y : bytes) : prefix x y -> length x <= length y.
Proof. intros [t ->]. rewrite app_length. lia. Qed.
Lemma prefix_of_len (x y z : bytes) : prefix x z -> prefix y z -> length x <= length y -> prefix x y.
Proof.
  intros [t ->] [u E] H. exists (skipn (length x) y). apply (f_equal (firstn (length y))) in E.
  rewrite firstn_app, firstn_all2, firstn_app, firstn_all, Nat.sub_diag in E by exact H. cbn in E. rewrite app_nil_r in E.
  rewrite <- (firstn_skipn (length x) y) at 1. f_equal. rewrite <- E. now rewrite firstn_app, firstn_all, Nat.sub_diag, firstn_O, app_nil_r.
Qed.

Lemma firstn_step {Y} : forall i (l : list Y) e t, skipn i l = e :: t -> firstn (S i) l = firstn i l ++ [e].
Proof.
  induction i as [|i IH]; intros [|x l] e t H; try discriminate; cbn in H.
  - injection H as -> ->. reflexivity.
  - change (firstn (S (S i)) (x :: l)) with (x :: firstn (S i) l). now rewrite (IH l e t H).
Qed.

(** ** A server that keeps the connection *)
Lemma wire_some {A} (e : exch A) : x_wire e <> [].
Proof. unfold x_wire, whole_request, request_pieces. destruct (rq_method (x_req e)); easy. Qed.
Lemma lens_mono {A} (l : list (exch A)) (f : exch A -> bytes) i j : i <= j -> length (concat (map f (firstn i l))) <= length (concat (map f (firstn j l))).
Proof.
  intros H. rewrite <- (firstn_skipn i (firstn j l)), firstn_firstn, Nat.min_l by exact H. rewrite map_app, concat_app, app_length. lia.
Qed.
Lemma lens_strict {A} (l : list (exch A)) i j : i < j -> i < length l -> length (wires (firstn i l)) < length (wires (firstn j l)).
Proof.
  intros H Hl. apply Nat.lt_le_trans with (length (wires (firstn (S i) l))); [|apply (lens_mono l x_wire); lia].
  destruct (nth_error l i) as [e|] eqn:E; [|apply nth_error_None in E; lia]. apply nth_error_split in E as (l1 & l2 & -> & <-).
  rewrite firstn_app, firstn_all, Nat.sub_diag, firstn_O, app_nil_r. replace (S (length l1)) with (length l1 + 1) by lia.
  rewrite firstn_app_2. cbn [firstn]. unfold wires. rewrite map_app, concat_app, app_length. cbn [map concat]. rewrite app_nil_r.
  pose proof (wire_some e). destruct (x_wire e); [easy|]. apply Nat.lt_add_pos_r. cbn [length]. lia.
Qed.

(** It answers the requests of [l] in order, each after it has read all of it, with the answers of [l]: whatever part of
    the requests it is given, it is reading the next request, having answered all before; or writing an answer, having
    read its request; or it is done with all of them. *)
Definition responsive {A X} (l : list (exch A)) (F : process X) : Prop :=
  forall a rest, wires l = concat (a_reads a) ++ rest -> Forall (fun d => d <> []) (a_reads a) -> a_end a = false ->
  let s := snd (F sock sock_read sock_writer (fresh a)) in spent s ->
  (exists i n, i < length l /\ k_stop s = Some (ARead n) /\ k_sent s = replies (firstn i l)
     /\ length (wires (firstn i l)) <= length (concat (a_reads a)) < length (wires (firstn (S i) l)))
  \/ (exists i d, i < length l /\ k_stop s = Some (AWrite d) /\ prefix (k_sent s ++ d) (replies (firstn (S i) l))
     /\ length (wires (firstn (S i) l)) <= length (concat (a_reads a)))
  \/ (k_stop s = None /\ k_sent s = replies l /\ rest = []).

Section Network.
  Context {A X : Type} (bld : build) (cap fuel : nat) (l : list (exch A)) (F : process X).
  Context (Hcap : 0 < cap <= fuel) (H5 : 5 <= fuel) (Hgood : Forall (good_exch fuel) l) (Hfuel : length (replies l) + 4 < fuel).
  Context (HF : lax_process F) (Hpeer : responsive l F).
  Notation client := (session bld cap sock_read sock_writer fuel (asks l)).
  Notation server := (F sock sock_read sock_writer).

  Definition client_at (i : nat) (c : conf) : Prop :=
    let s := side1 client c in
    (i = length l /\ k_stop s = None /\ k_sent s = wires l /\ k_taken s = replies l
       /\ exists ys, fst (client (fresh (fst c))) = Ok ys /\ Forall2 good_result l ys)
    \/ (i < length l /\ exists d, k_stop s = Some (AWrite d) /\ d <> [] /\ prefix (k_sent s ++ d) (wires (firstn (S i) l)) /\ k_taken s = replies (firstn i l))
    \/ (i < length l /\ exists n rest, k_stop s = Some (ARead n) /\ 0 < n /\ k_sent s = wires (firstn (S i) l)
          /\ replies (firstn (S i) l) = k_taken s ++ rest /\ rest <> []).
  Definition server_at (c : conf) : Prop :=
    let s := side2 server c in
    (exists i n, i < length l /\ k_stop s = Some (ARead n) /\ 0 < n /\ k_sent s = replies (firstn i l)
       /\ length (wires (firstn i l)) <= length (k_taken s) < length (wires (firstn (S i) l)))
    \/ (exists i d, i < length l /\ k_stop s = Some (AWrite d) /\ d <> [] /\ prefix (k_sent s ++ d) (replies (firstn (S i) l))
         /\ length (wires (firstn (S i) l)) <= length (k_taken s))
    \/ (k_stop s = None /\ k_sent s = replies l /\ k_taken s = wires l).

  Lemma part_prefix (f : exch A -> bytes) i : prefix (concat (map f (firstn i l))) (concat (map f l)).
  Proof. exists (concat (map f (skipn i l))). now rewrite <- concat_app, <- map_app, firstn_skipn. Qed.
  Lemma client_stands i c : half (fst c) (side1 client c) (side2 server c) -> aligned l i (a_reads (fst c)) -> a_end (fst c) = false -> client_at i c.
  Proof using Hcap H5 Hgood Hfuel.
    intros [Hsp _ Hgi Hso _] Ha He. pose proof (session_facts bld cap fuel Hcap H5 l i _ Ha (fresh (fst c)) Hgood Hfuel eq_refl He eq_refl Hso) as K.
    pose proof (process_keep (session_process bld cap fuel l) sock_read sock_writer _ (fresh (fst c)) (session_lax bld cap fuel l) write_kept ltac:(easy)) as W1.
    destruct (process_keep (session_process bld cap fuel l) sock_read sock_writer _ (fresh (fst c)) (session_lax bld cap fuel l) (end_kept (a_end (fst c))) ltac:(split; easy)) as [_ W3].
    unfold session_process in W1, W3. unfold client_at, side1 in *.
    destruct (client (fresh (fst c))) as [x s']. cbn [fst snd k_sent fresh app] in *.
    destruct (aligned_given l i _ Ha) as [[Hi Hg]|(Hi & y & rest & Hg1 & Hg2 & Hg3 & _)].
    - destruct (K Hsp) as [(_ & K1 & K2 & ys & -> & K3)|[(e & t & d & y & K0 & _)|(Hx & _)]].
      + left. split; auto. split; auto. split; auto. split; [congruence|]. eauto.
      + rewrite Hi, skipn_all in K0. discriminate.
      + lia.
    - destruct (K Hsp) as [(-> & _)|[(e & t & d & z & K0 & K1 & K2 & K3 & K4)|(_ & n & K1 & K2)]].
      + lia.
      + right. left. split; auto. exists d. split; auto. split; [apply (W1 d K1)|]. split; [|congruence].
        rewrite K2. destruct K3 as [u K3]. exists u. rewrite (firstn_step i l e t K0).
        unfold wires. rewrite map_app, concat_app. cbn [map concat]. rewrite app_nil_r, K3. now rewrite <- !app_assoc.
      + right. right. split; auto. exists n, rest. split; auto. split; [apply (W3 n K1)|]. split; auto. split; auto. congruence.
  Qed.
  Lemma client_sent i c : client_at i c -> prefix (k_sent (side1 client c)) (wires (firstn (S i) l)).
  Proof.
    intros [(-> & _ & -> & _)|[(_ & d & _ & _ & H & _)|(_ & n & rest & _ & _ & -> & _)]]; [|now apply prefix_head in H|apply prefix_refl].
    rewrite firstn_all2 by lia. apply prefix_refl.
  Qed.
  Lemma server_stands i c : half (snd c) (side2 server c) (side1 client c) -> client_at i c -> a_end (snd c) = false -> server_at c.
  Proof using Hcap H5 Hgood Hfuel HF Hpeer.
    intros [Hsp Hfr Hgi Hso _] Hc He.
    assert (Hp : prefix (k_taken (side2 server c)) (wires l)).
    { eapply prefix_trans; [exact Hfr|]. eapply prefix_trans; [exact (client_sent i c Hc)|]. apply part_prefix. }
    destruct Hp as [rest Hp]. rewrite <- Hgi in Hp. specialize (Hpeer (snd c) rest Hp Hso He Hsp).
    pose proof (process_keep F sock_read sock_writer _ (fresh (snd c)) HF write_kept ltac:(easy)) as W1.
    destruct (process_keep F sock_read sock_writer _ (fresh (snd c)) HF (end_kept (a_end (snd c))) ltac:(split; easy)) as [_ W3].
    unfold server_at, side2 in *. rewrite <- Hgi.
    destruct Hpeer as [(j & n & K1 & K2 & K3 & K4)|[(j & d & K1 & K2 & K3 & K4)|(K1 & K2 & K3)]].
    - left. exists j, n. repeat (split; auto); try tauto. now apply (W3 n).
    - right. left. exists j, d. repeat (split; auto). now apply (W1 d).
    - right. right. split; auto. split; auto. subst rest. now rewrite app_nil_r in Hp.
  Qed.
  (** The server never sends more than it has been asked for. *)
  Lemma server_sent i c : i <= length l -> server_at c -> length (k_taken (side2 server c)) <= length (wires (firstn i l)) ->
    prefix (k_sent (side2 server c)) (replies (firstn i l)).
  Proof.
    intros Hi Hs Ht.
    assert (Hm : forall j, j <= i -> prefix (replies (firstn j l)) (replies (firstn i l))).
    { intros j Hj. apply prefix_of_len with (replies l); try apply (part_prefix x_answer). now apply (lens_mono l x_answer). }
    assert (Hlt : forall j, j <= length l -> length (wires (firstn j l)) <= length (wires (firstn i l)) -> j <= i).
    { intros j Hj H. destruct (le_lt_dec j i) as [|Hgt]; auto. pose proof (lens_strict l i j Hgt ltac:(lia)). lia. }
    destruct Hs as [(j & n & K1 & K2 & _ & -> & K4)|[(j & d & K1 & K2 & _ & K3 & K4)|(K1 & -> & K3)]].
    - apply Hm, Hlt; lia.
    - apply prefix_head in K3. eapply prefix_trans; [exact K3|]. apply Hm, Hlt; lia.
    - rewrite K3 in Ht. rewrite <- (firstn_all l) in Ht at 1. apply Hlt in Ht; [|lia]. replace i with (length l) by lia. rewrite firstn_all. apply prefix_refl.
  Qed.

  Context (room1 room2 : nat).
  Lemma session_reach n c : reach client server room1 room2 n c ->
    exists i, aligned l i (a_reads (fst c)) /\ a_end (fst c) = false /\ a_end (snd c) = false.
  Proof using Hcap H5 Hgood Hfuel HF Hpeer.
    induction 1 as [|n c c' Hr (i & Ha & E1 & E2) Hst].
    - exists 0. split; [|split; reflexivity]. destruct l as [|e t]; [constructor|]. apply al_part with (x_answer e); [apply answer_some|reflexivity].
    - destruct (reach_half (session_process bld cap fuel l) F (session_lax bld cap fuel l) HF room1 room2 n c Hr) as (Hh1 & Hh2 & _).
      pose proof (client_stands i c Hh1 Ha E1) as Hc. pose proof (server_stands i c Hh2 Hc E2) as Hs.
      change (side1 (session_process bld cap fuel l sock sock_read sock_writer) c) with (side1 client c) in Hh1, Hh2.
      destruct Hh1 as [_ [q2 Hq2] Hgi _ _], Hh2 as [_ [q1 Hq1] Hgi2 _ _].
      destruct Hst as [c f Hans|c f Hans]; cbn [fst snd].
      + destruct Hans as [m d rest Es Ei Hd Hm|m Es Ei Hp|data k Es Hk Hroom]; cbn [got closed took a_reads a_end].
        * destruct Hc as [(_ & Hx & _)|[(_ & d' & Hx & _)|(Hi & n' & r & _ & _ & Hsn & Hrep & Hr0)]]; [congruence|congruence|].
          unfold queue2 in Ei. rewrite Hq2, skipn_app, skipn_all2, Nat.sub_diag in Ei by lia. cbn in Ei. subst q2.
          assert (Hp : prefix (concat (a_reads (fst c)) ++ d) (replies (firstn (S i) l))).
          { rewrite Hgi. apply prefix_trans with (k_sent (side2 server c)).
            - rewrite Hq2, app_assoc. now eexists.
            - apply server_sent; auto. rewrite <- Hsn, Hq1, app_length. lia. }
          destruct (aligned_more l i _ d Ha Hd Hi Hp) as [K|[K _]]; eauto.
        * exfalso. destruct Hc as [(_ & Hx & _)|[(_ & d' & Hx & _)|(Hi & n' & r & _ & _ & Hsn & Hrep & Hr0)]]; [congruence|congruence|].
          unfold queue2 in Ei. rewrite Hq2, skipn_app, skipn_all2, Nat.sub_diag in Ei by lia. cbn in Ei. subst q2. rewrite app_nil_r in Hq2.
          unfold ended in Hp. destruct Hs as [(j & z & _ & K2 & _)|[(j & d & _ & K2 & _)|(_ & K2 & _)]]; [congruence|congruence|].
          rewrite <- Hq2, K2 in Hrep. pose proof (prefix_len _ _ (part_prefix x_answer (S i))) as L. apply (f_equal (@length byte)) in Hrep.
          rewrite app_length in Hrep. change (length (replies (firstn (S i) l)) <= length (replies l)) in L. destruct r; [easy|]. cbn [length] in Hrep. lia.
        * eauto.
      + exists i. split; [exact Ha|]. split; [exact E1|].
        destruct Hans as [m d rest Es Ei Hd Hm|m Es Ei Hp|data k Es Hk Hroom]; cbn [got closed took a_reads a_end]; auto.
        exfalso. unfold queue1 in Ei. rewrite Hq1, skipn_app, skipn_all2, Nat.sub_diag in Ei by lia. cbn in Ei. subst q1. rewrite app_nil_r in Hq1.
        unfold ended in Hp. destruct Hc as [(_ & _ & Hx & _)|[(_ & d' & Hx & _)|(_ & n' & r & Hx & _)]]; [|congruence|congruence].
        destruct Hs as [(j & z & _ & _ & _ & _ & K2)|[(j & d & _ & K2 & _)|(K2 & _)]]; [|congruence|congruence].
        rewrite <- Hq1, Hx in K2. pose proof (prefix_len _ _ (part_prefix x_wire (S j))) as L. change (length (wires (firstn (S j) l)) <= length (wires l)) in L. lia.
  Qed.

  Lemma session_stands n c : reach client server room1 room2 n c ->
    exists i, client_at i c /\ server_at c
      /\ k_sent (side1 client c) = k_taken (side2 server c) ++ queue1 client server c
      /\ k_sent (side2 server c) = k_taken (side1 client c) ++ queue2 client server c
      /\ n <= length (k_sent (side1 client c)) + length (k_taken (side1 client c)) + (length (k_sent (side2 server c)) + length (k_taken (side2 server c))).
  Proof using Hcap H5 Hgood Hfuel HF Hpeer.
    intros Hr. destruct (session_reach n c Hr) as (i & Ha & E1 & E2).
    destruct (reach_half (session_process bld cap fuel l) F (session_lax bld cap fuel l) HF room1 room2 n c Hr) as (Hh1 & Hh2 & Hn).
    pose proof (client_stands i c Hh1 Ha E1) as Hc. pose proof (server_stands i c Hh2 Hc E2) as Hs.
    exists i. split; auto. split; auto. destruct Hh1 as [_ [q2 Hq2] _ _ _], Hh2 as [_ [q1 Hq1] _ _ _].
    unfold count in Hn. rewrite E1, E2 in Hn. cbn [Nat.b2n] in Hn.
    change (side1 (session_process bld cap fuel l sock sock_read sock_writer) c) with (side1 client c) in *.
    split; [unfold queue1; rewrite Hq1 at 2; rewrite skipn_app, skipn_all2, Nat.sub_diag by lia; exact Hq1|].
    split; [unfold queue2; rewrite Hq2 at 2; rewrite skipn_app, skipn_all2, Nat.sub_diag by lia; exact Hq2|]. lia.
  Qed.

  (** Every run has at most as many steps as there are bytes to write and to read. *)
  Theorem C68_bounded : forall n c, reach client server room1 room2 n c -> n <= 2 * length (wires l) + 2 * length (replies l).
  Proof using Hcap H5 Hgood Hfuel HF Hpeer.
    intros n c Hr. destruct (session_stands n c Hr) as (i & Hc & Hs & Q1 & Q2 & Hn).
    apply client_sent, prefix_len in Hc. pose proof (prefix_len _ _ (part_prefix x_wire (S i))) as L.
    change (length (wires (firstn (S i) l)) <= length (wires l)) in L.
    assert (L2 : length (k_sent (side2 server c)) <= length (replies l)).
    { pose proof (fun j => prefix_len _ _ (part_prefix x_answer j)) as Lr.
      change (forall j, length (replies (firstn j l)) <= length (replies l)) in Lr.
      destruct Hs as [(j & m & _ & _ & _ & -> & _)|[(j & d & _ & _ & _ & Ep & _)|(_ & -> & _)]]; auto.
      apply prefix_head, prefix_len in Ep. specialize (Lr (S j)). lia. }
    apply (f_equal (@length byte)) in Q1, Q2. rewrite app_length in Q1, Q2. lia.
  Qed.

  (** When both have returned, the server has read exactly the requests, in order, and the caller has for each of them its
      own answer. *)
  Theorem C68_result : forall n c, reach client server room1 room2 n c -> ended (side1 client c) -> ended (side2 server c) ->
    k_taken (side2 server c) = wires l /\ k_taken (side1 client c) = replies l
    /\ exists ys, fst (client (fresh (fst c))) = Ok ys /\ Forall2 good_result l ys.
  Proof using Hcap H5 Hgood Hfuel HF Hpeer.
    intros n c Hr E1 E2. unfold ended in *. destruct (session_stands n c Hr) as (i & Hc & Hs & _).
    destruct Hc as [(_ & _ & _ & Ht & Hy)|[(_ & d' & Hx & _)|(_ & m' & r & Hx & _)]]; [|congruence|congruence].
    destruct Hs as [(j & m & _ & Hx & _)|[(j & d & _ & Hx & _)|(_ & _ & Hx)]]; [congruence|congruence|]. auto.
  Qed.

  (** No answer is mixed up with another one at any time: what the server has sent is never ahead of the requests it has
      been sent. *)
  Theorem C68_in_step : forall n c i, reach client server room1 room2 n c -> i <= length l ->
    prefix (k_sent (side1 client c)) (wires (firstn i l)) -> prefix (k_sent (side2 server c)) (replies (firstn i l)).
  Proof using Hcap H5 Hgood Hfuel HF Hpeer.
    intros n c i Hr Hi Hp. destruct (session_stands n c Hr) as (j & _ & Hs & Q1 & _). apply server_sent; auto.
    apply prefix_len in Hp. rewrite Q1, app_length in Hp. lia.
  Qed.

  (** And the client sends the first byte of a request only when it has read the answers to all requests before it. *)
  Theorem C68_in_turn : forall n c i, reach client server room1 room2 n c -> i <= length l ->
    prefix (k_sent (side1 client c)) (wires (firstn i l)) \/ prefix (replies (firstn i l)) (k_taken (side1 client c)).
  Proof using Hcap H5 Hgood Hfuel HF Hpeer.
    intros n c i Hr Hi. destruct (session_reach n c Hr) as (j & Ha & E1 & _).
    destruct (reach_half (session_process bld cap fuel l) F (session_lax bld cap fuel l) HF room1 room2 n c Hr) as (Hh1 & _ & _).
    pose proof (client_sent j c (client_stands j c Hh1 Ha E1)) as Hc.
    destruct Hh1 as [_ _ Hgi _ _]. change (side1 (session_process bld cap fuel l sock sock_read sock_writer) c) with (side1 client c) in Hgi.
    destruct (le_lt_dec i j) as [Hij|Hij].
    - right. rewrite <- Hgi. apply prefix_trans with (replies (firstn j l)).
      + apply prefix_of_len with (replies l); try apply (part_prefix x_answer). now apply (lens_mono l x_answer).
      + destruct (aligned_given l j _ Ha) as [[-> ->]|(_ & y & rest & -> & _)]; [rewrite firstn_all; apply prefix_refl|now exists y].
    - left. eapply prefix_trans; [exact Hc|]. apply prefix_of_len with (wires l); try apply (part_prefix x_wire). apply (lens_mono l x_wire). lia.
  Qed.

  Context (Hroom1 : 1 <= room1) (Hroom2 : 1 <= room2).
  (** As long as one of them has not returned, something can happen. *)
  Theorem C68_progress : forall n c, reach client server room1 room2 n c ->
    (ended (side1 client c) /\ ended (side2 server c)) \/ exists c', step client server room1 room2 c c'.
  Proof using Hcap H5 Hgood Hfuel HF Hpeer Hroom1 Hroom2.
    intros n c Hr. destruct (session_stands n c Hr) as (i & Hc & Hs & Q1 & Q2 & _).
    assert (Read1 : forall m, k_stop (side1 client c) = Some (ARead m) -> 0 < m -> queue2 client server c <> [] -> exists c', step client server room1 room2 c c').
    { intros m Em Hm Hq. destruct (queue2 client server c) as [|b q] eqn:Eq; [easy|]. eexists. apply step1, (ans_read _ _ _ _ _ m [b] q); auto; easy. }
    assert (Read2 : forall m, k_stop (side2 server c) = Some (ARead m) -> 0 < m -> queue1 client server c <> [] -> exists c', step client server room1 room2 c c').
    { intros m Em Hm Hq. destruct (queue1 client server c) as [|b q] eqn:Eq; [easy|]. eexists. apply step2, (ans_read _ _ _ _ _ m [b] q); auto; easy. }
    assert (Write1 : forall d, k_stop (side1 client c) = Some (AWrite d) -> d <> [] -> queue1 client server c = [] -> exists c', step client server room1 room2 c c').
    { intros d Ed Hd Hq. eexists. apply step1, (ans_write _ _ _ _ _ d 1); auto; [destruct d; [easy|cbn; lia]|]. left. rewrite Hq. cbn. lia. }
    assert (Write2 : forall d, k_stop (side2 server c) = Some (AWrite d) -> d <> [] -> queue2 client server c = [] \/ ended (side1 client c) -> exists c', step client server room1 room2 c c').
    { intros d Ed Hd Hq. eexists. apply step2, (ans_write _ _ _ _ _ d 1); auto; [destruct d; [easy|cbn; lia]|]. destruct Hq as [Hq|Hq]; [left; rewrite Hq; cbn; lia|now right]. }
    pose proof (fun j => prefix_len _ _ (part_prefix x_wire j)) as Lw. pose proof (fun j => prefix_len _ _ (part_prefix x_answer j)) as Lr.
    change (forall j, length (wires (firstn j l)) <= length (wires l)) in Lw. change (forall j, length (replies (firstn j l)) <= length (replies l)) in Lr.
    pose proof (fun j k => lens_mono l x_answer j k) as Mr. change (forall j k, j <= k -> length (replies (firstn j l)) <= length (replies (firstn k l))) in Mr.
    pose proof (f_equal (@length byte) Q1) as N1. pose proof (f_equal (@length byte) Q2) as N2. rewrite app_length in N1, N2.
    assert (Hlt : forall j k, j < length l -> k < length l -> length (wires (firstn (S j) l)) < length (wires (firstn (S k) l)) -> j < k).
    { intros j k Hj Hk H. destruct (le_lt_dec k j) as [Hle|]; auto. pose proof (lens_mono l x_wire (S k) (S j) ltac:(lia)) as M. unfold wires in H. lia. }
    destruct Hs as [(j & m & Hj & Es & Hm & Esent & Et)|[(j & d & Hj & Es & Hd & Ep & Et)|(Es & Esent & Et)]].
    - (* the server reads *)
      right. destruct (queue1 client server c) as [|b q1] eqn:Eq; [|apply (Read2 m Es Hm); easy]. rewrite app_nil_r in Q1.
      destruct Hc as [(_ & _ & Hx & _)|[(_ & d' & Hx & Hd & _)|(Hi & m' & r & Hx & Hm' & Hsn & Hrep & Hr0)]].
      + exfalso. rewrite Hx in Q1. pose proof (Lw (S j)). rewrite <- Q1 in Et. lia.
      + now apply (Write1 d').
      + apply (Read1 m' Hx Hm'). intros E0. rewrite E0, app_nil_r in Q2. rewrite <- Q1, Hsn in Et.
        pose proof (Hlt i j Hi Hj ltac:(lia)) as Hij. rewrite <- Q2, Esent in Hrep. apply (f_equal (@length byte)) in Hrep. rewrite app_length in Hrep.
        pose proof (Mr (S i) j ltac:(lia)). destruct r; [easy|]. cbn [length] in Hrep. lia.
    - (* the server writes *)
      right. destruct Hc as [(_ & Hx & _)|[(Hi & d' & Hx & Hd' & Hp & Ht)|(Hi & m' & r & Hx & Hm' & _)]].
      + apply (Write2 d Es Hd). now right.
      + exfalso. apply prefix_len in Ep, Hp. rewrite app_length in Ep, Hp. destruct d as [|b d]; [easy|]. destruct d' as [|b' d']; [easy|]. cbn [length] in Ep, Hp.
        pose proof (Hlt j i Hj Hi ltac:(lia)) as Hij. rewrite Ht in N2. pose proof (Mr (S j) i ltac:(lia)). lia.
      + destruct (queue2 client server c) as [|b q2] eqn:Eq; [apply (Write2 d Es Hd); now left|]. apply (Read1 m' Hx Hm'). easy.
    - (* the server is done *)
      destruct Hc as [(_ & Hx & _)|[(Hi & d' & Hx & Hd' & Hp & Ht)|(Hi & m' & r & Hx & Hm' & _ & Hrep & Hr0)]].
      + left. now split.
      + exfalso. apply prefix_len in Hp. rewrite app_length in Hp. rewrite Et in N1. destruct d' as [|b' d']; [easy|]. cbn [length] in Hp. pose proof (Lw (S i)). lia.
      + right. apply (Read1 m' Hx Hm'). intros E0. rewrite E0, app_nil_r in Q2. rewrite <- Q2, Esent in Hrep. apply (f_equal (@length byte)) in Hrep.
        rewrite app_length in Hrep. pose proof (Lr (S i)). destruct r; [easy|]. cbn [length] in Hrep. lia.
  Qed.

  (** So every run ends. *)
  Theorem C68_ends : forall n c, reach client server room1 room2 n c -> exists m c', reach client server room1 room2 m c' /\ n <= m
    /\ ended (side1 client c') /\ ended (side2 server c').
  Proof using Hcap H5 Hgood Hfuel HF Hpeer Hroom1 Hroom2.
    intros n c Hr. remember (2 * length (wires l) + 2 * length (replies l) - n) as k eqn:Ek.
    revert n c Hr Ek. induction k as [k IH] using lt_wf_ind. intros n c Hr Ek.
    destruct (C68_progress n c Hr) as [[E1 E2]|[c' Hst]]; [exists n, c; auto|].
    assert (Hr' : reach client server room1 room2 (S n) c') by (econstructor; eauto). pose proof (C68_bounded _ _ Hr').
    destruct (IH (2 * length (wires l) + 2 * length (replies l) - S n) ltac:(lia) (S n) c' Hr' eq_refl) as (m & c2 & H1 & H2 & H3 & H4).
    exists m, c2. repeat split; auto. lia.
  Qed.
End Network.
Print Assumptions C68_progress.
Print Assumptions C68_bounded.
Print Assumptions C68_result.
Print Assumptions C68_in_step.
Print Assumptions C68_in_turn.
Print Assumptions C68_ends.

(** *** Such a server *)
(** It knows how long the requests are, and what to answer. *)
Fixpoint steady (fuel : nat) (l : list (nat * bytes)) : process unit := fun S rd wt s =>
  match l with
  | [] => (Ok tt, s)
  | (n, d) :: t => dos _, s1 <- read_exact Std rd fuel n [] s; dos _, s2 <- write_all Std wt fuel d s1; steady fuel t S rd wt s2
  end.
Definition steady_for {A} (l : list (exch A)) : list (nat * bytes) := map (fun e => (length (x_wire e), x_answer e)) l.
Lemma steady_lax fuel l : lax_process (steady fuel l).
Proof.
  intros S1 S2 R Q rd1 rd2 wt1 wt2 HR HW HF. induction l as [|[n d] t IH]; cbn [steady]; [now apply lg_ret|].
  apply lg_sbind; [now apply (read_exact_lax Q)|]. intros _. apply lg_sbind; [now apply (write_all_lax R Q)|]. intros _. exact IH.
Qed.

Lemma read_all_of fuel : forall n acc s x y, k_stop s = None -> Forall (fun d => d <> []) (k_reads s) ->
  concat (k_reads s) = x ++ y -> length x = n -> n <= fuel ->
  exists s', read_exact Std sock_read fuel n acc s = (Ok (acc ++ x), s') /\ k_stop s' = None /\ k_end s' = k_end s
    /\ concat (k_reads s') = y /\ Forall (fun d => d <> []) (k_reads s') /\ k_sent s' = k_sent s.
Proof.
  induction fuel as [|f IH]; intros [|n] acc s x y Hs Hr Hx Hl Hf; try lia.
  1,2: destruct x; [|discriminate]; cbn [read_exact]; exists s; rewrite app_nil_r; auto 7.
  cbn [read_exact]. unfold sock_read at 1. rewrite Hs. destruct (k_reads s) as [|d t] eqn:E; [destruct x; discriminate|].
  apply Forall_cons_iff in Hr as [Hd Ht]. destruct d as [|b d]; [easy|]. cbn [concat] in Hx.
  set (g := firstn (S n) (b :: d)). assert (Hg : g = b :: firstn n d) by reflexivity.
  assert (Lg : length g <= S n) by (unfold g; rewrite firstn_length; lia).
  assert (Hx2 : x = g ++ skipn (length g) x /\ concat (match skipn (S n) (b :: d) with [] => t | d' => d' :: t end) = skipn (length g) x ++ y).
  { assert (Ec : (b :: d) ++ concat t = g ++ concat (match skipn (S n) (b :: d) with [] => t | d' => d' :: t end)).
    { unfold g. rewrite <- (firstn_skipn (S n) (b :: d)) at 1. rewrite <- app_assoc. f_equal. now destruct (skipn (S n) (b :: d)). }
    rewrite Ec in Hx. assert (Ex : x = g ++ skipn (length g) x).
    { rewrite <- (firstn_skipn (length g) x) at 1. f_equal. apply (f_equal (firstn (length g))) in Hx. rewrite !firstn_app, firstn_all, Nat.sub_diag, firstn_O, app_nil_r in Hx.
      replace (length g - length x) with 0 in Hx by lia. rewrite firstn_O, app_nil_r in Hx. now symmetry. }
    split; auto. rewrite Ex in Hx. rewrite <- app_assoc in Hx. now apply app_inv_head in Hx. }
  destruct Hx2 as [Hx2 Hx3]. clearbody g. destruct g as [|g0 g1] eqn:Eg; [discriminate|]. rewrite <- Eg in *.
  destruct (Nat.leb_spec (length g) (S n)); [|lia].
  destruct (IH (S n - length g) (acc ++ g) (mkSock (match skipn (S n) (b :: d) with [] => t | d' => d' :: t end) (k_writes s) (k_end s) (k_sent s) (k_taken s ++ g) None)
    (skipn (length g) x) y) as (s' & E1 & K); auto.
  - cbn [k_reads]. destruct (skipn (S n) (b :: d)) eqn:Es; auto. constructor; auto. easy.
  - rewrite skipn_length. lia.
  - rewrite Hg. cbn [length]. lia.
  - exists s'. rewrite <- app_assoc, <- Hx2 in E1. split; [exact E1|exact K].
Qed.
Lemma write_all_at fuel : forall data s, k_stop s = None -> length data <= fuel ->
  let (x, s') := write_all Std sock_writer fuel data s in
  k_reads s' = k_reads s /\ k_end s' = k_end s
  /\ ((x = Ok tt /\ k_stop s' = None /\ k_sent s' = k_sent s ++ data)
      \/ (x = Fuel /\ exists d, k_stop s' = Some (AWrite d) /\ prefix (k_sent s' ++ d) (k_sent s ++ data))).
Proof.
  induction fuel as [|f IH]; intros [|b data] s Hs Hl; cbn [write_all length] in *; try lia.
  1,2: rewrite app_nil_r; auto 6.
  unfold sock_writer at 1, sock_write. cbn [wr]. rewrite Hs. destruct (k_writes s) as [|k t].
  - cbn [k_sent k_reads k_end k_stop]. split; auto. split; auto. right. split; auto. exists (b :: data). split; [reflexivity|apply prefix_refl].
  - destruct (clip_bounds k b data) as [C1 C2]. destruct (clip k (b :: data)) as [|c] eqn:Ec; [lia|].
    assert (Hle : (S c <=? S (length data)) = true) by (apply Nat.leb_le; exact C2). rewrite Hle.
    specialize (IH (skipn (S c) (b :: data))
      (mkSock (k_reads s) t (k_end s) (k_sent s ++ firstn (S c) (b :: data)) (k_taken s) None) eq_refl).
    rewrite skipn_length in IH. specialize (IH ltac:(cbn [length]; lia)).
    destruct (write_all Std sock_writer f _ _) as [x s']. cbn [k_sent k_reads k_end] in IH. rewrite <- app_assoc, firstn_skipn in IH. exact IH.
Qed.

Lemma steady_facts {A} fuel (l : list (exch A)) : forall s rest, length (wires l) <= fuel -> length (replies l) <= fuel ->
  k_stop s = None -> k_end s = false -> Forall (fun d => d <> []) (k_reads s) -> wires l = concat (k_reads s) ++ rest ->
  let s' := snd (steady fuel (steady_for l) sock sock_read sock_writer s) in
  (exists i n, i < length l /\ k_stop s' = Some (ARead n) /\ k_sent s' = k_sent s ++ replies (firstn i l)
     /\ length (wires (firstn i l)) <= length (concat (k_reads s)) < length (wires (firstn (S i) l)))
  \/ (exists i d, i < length l /\ k_stop s' = Some (AWrite d) /\ prefix (k_sent s' ++ d) (k_sent s ++ replies (firstn (S i) l))
     /\ length (wires (firstn (S i) l)) <= length (concat (k_reads s)))
  \/ (k_stop s' = None /\ k_sent s' = k_sent s ++ replies l /\ rest = []).
Proof.
  induction l as [|e t IH]; intros s rest Hw Hr Hs He Hne Hg; cbv zeta.
  - right. right. cbn in *. split; auto. split; [now rewrite app_nil_r|]. symmetry in Hg. now apply app_eq_nil in Hg.
  - assert (Ew : wires (e :: t) = x_wire e ++ wires t) by reflexivity. assert (Er : replies (e :: t) = x_answer e ++ replies t) by reflexivity.
    rewrite Ew in Hw, Hg. rewrite Er in Hr. rewrite app_length in Hw, Hr.
    assert (W1 : wires (firstn 1 (e :: t)) = x_wire e) by (unfold wires; cbn [firstn map concat]; now rewrite app_nil_r).
    assert (R1 : replies (firstn 1 (e :: t)) = x_answer e) by (unfold replies; cbn [firstn map concat]; now rewrite app_nil_r).
    unfold steady_for. cbn [map steady]. fold (steady_for t).
    destruct (le_lt_dec (length (x_wire e)) (length (concat (k_reads s)))) as [Hle|Hlt].
    + assert (Hx : exists y, concat (k_reads s) = x_wire e ++ y).
      { assert (Hp : prefix (x_wire e) (concat (k_reads s))); [|destruct Hp as [y Hp]; eauto].
        apply prefix_of_len with (x_wire e ++ wires t); [now eexists|rewrite Hg; now eexists|exact Hle]. }
      destruct Hx as [y Hx].
      destruct (read_all_of fuel (length (x_wire e)) [] s (x_wire e) y) as (s1 & E1 & K1 & K2 & K3 & K4 & K5); auto; try lia.
      rewrite E1. cbn [sbind]. pose proof (write_all_at fuel (x_answer e) s1 K1 ltac:(lia)) as K.
      destruct (write_all Std sock_writer fuel (x_answer e) s1) as [x s2]. destruct K as (L1 & L2 & [(-> & L3 & L4)|(-> & d & L3 & L4)]); cbn [sbind snd].
      * assert (Hg2 : wires t = y ++ rest) by (rewrite Hx, <- app_assoc in Hg; now apply app_inv_head in Hg).
        specialize (IH s2 rest ltac:(lia) ltac:(lia) L3 ltac:(congruence) ltac:(now rewrite L1) ltac:(rewrite L1, K3; exact Hg2)).
        cbv zeta in IH. rewrite L1, K3, L4, K5 in IH. rewrite Hx, app_length.
        destruct IH as [(i & n & J1 & J2 & J3 & J4)|[(i & d & J1 & J2 & J3 & J4)|(J1 & J2 & J3)]].
        -- left. exists (S i), n. split; [cbn; lia|]. split; auto. change (firstn (S (S i)) (e :: t)) with (e :: firstn (S i) t).
           change (firstn (S i) (e :: t)) with (e :: firstn i t). unfold replies, wires in *. cbn [map concat]. rewrite J3, !app_length, <- app_assoc. split; auto. lia.
        -- right. left. exists (S i), d. split; [cbn; lia|]. split; auto. change (firstn (S (S i)) (e :: t)) with (e :: firstn (S i) t).
           unfold replies, wires in *. cbn [map concat]. rewrite <- app_assoc in J3. rewrite app_length. split; auto. lia.
        -- right. right. rewrite <- app_assoc in J2. auto.
      * right. left. exists 0, d. split; [cbn; lia|]. split; auto. rewrite W1, R1. rewrite K5 in L4. auto.
    + left. pose proof (sock_read_exact fuel (length (x_wire e)) [] s Hs He Hne Hlt ltac:(lia)) as K.
      pose proof (reads_keep (fun S rd wt => read_exact Std rd fuel (length (x_wire e)) []) s
        ltac:(intros S1 S2 R Q rd1 rd2 wt1 wt2 HR HW HF; now apply (read_exact_lax Q)) ltac:(easy) Hs) as (K1 & _ & K2). cbv beta in K1, K2.
      destruct (read_exact Std sock_read fuel (length (x_wire e)) [] s) as [x s1]. cbn [snd] in *.
      destruct (k_stop s1) as [[n|d]|] eqn:Es1; [|now destruct (K1 d)|easy].
      assert (Hk : snd (sbind (x, s1) (fun _ s1 => sbind (write_all Std sock_writer fuel (x_answer e) s1) (fun _ s2 => steady fuel (steady_for t) sock sock_read sock_writer s2))) = s1).
      { destruct x; cbn [sbind]; auto.
        refine (stopped_keep (A := unit) (fun S rd wt s1 => sbind (write_all Std wt fuel (x_answer e) s1) (fun _ s2 => steady fuel (steady_for t) S rd wt s2)) s1 (ARead n) _ Es1).
        intros S1 S2 R Q rd1 rd2 wt1 wt2 HR HW HF. apply lg_sbind; [now apply (write_all_lax R Q)|]. intros _. now apply steady_lax. }
      rewrite Hk. exists 0, n. split; [cbn; lia|]. split; auto. split; [cbn; now rewrite app_nil_r|]. rewrite W1. split; [cbn; lia|exact Hlt].
Qed.
Theorem C68_steady : forall A fuel (l : list (exch A)), length (wires l) <= fuel -> length (replies l) <= fuel -> responsive l (steady fuel (steady_for l)).
Proof. intros A fuel l Hw Hr a rest Hg Hne He s _. exact (steady_facts fuel l (fresh a) rest Hw Hr eq_refl He Hne Hg). Qed.
Print Assumptions C68_steady.

(** ** The pool *)
Lemma update_update {Addr S} (aeq : forall x y : Addr, {x = y} + {x <> y}) a (s1 s2 : S) pl : pool_update aeq a s2 (pool_update aeq a s1 pl) = pool_update aeq a s2 pl.
Proof. induction pl as [|[a' s] pl IH]; cbn; auto. destruct (aeq a a') eqn:Ea; cbn; rewrite Ea; [reflexivity|now rewrite IH]. Qed.
Lemma get_update {Addr S} (aeq : forall x y : Addr, {x = y} + {x <> y}) a (s1 s2 : S) pl : pool_get aeq a pl = Some s1 -> pool_get aeq a (pool_update aeq a s2 pl) = Some s2.
Proof. induction pl as [|[a' s] pl IH]; cbn; [easy|]. destruct (aeq a a') eqn:Ea; cbn; rewrite Ea; auto. Qed.
Lemma update_same {Addr S} (aeq : forall x y : Addr, {x = y} + {x <> y}) a (s : S) pl : pool_get aeq a pl = Some s -> pool_update aeq a s pl = pl.
Proof. induction pl as [|[a' s'] pl IH]; cbn; [easy|]. destruct (aeq a a'); [now intros [= ->]|]. intros H. now rewrite IH. Qed.
Lemma get_set {Addr S} (aeq : forall x y : Addr, {x = y} + {x <> y}) a (s : S) pl : pool_get aeq a pl = None -> pool_get aeq a (pool_set aeq a s pl) = Some s.
Proof.
  induction pl as [|[a' s'] pl IH]; cbn; intros H; [now destruct (aeq a a)|]. destruct (aeq a a') eqn:Ea; [discriminate|]. cbn. rewrite Ea. auto.
Qed.

Lemma run_split {S A} bld cap (rd : reader S) wt fuel r ops (p : status -> headers -> prog A) s :
  client_run bld cap rd wt fuel r ops p s =
  match send bld cap wt fuel r s with
  | (Ok o, _) => request_rest bld cap rd wt fuel ops p o
  | (Err e, s1) => (Err e, s1) | (Panic, s1) => (Panic, s1) | (Fuel, s1) => (Fuel, s1)
  end.
Proof.
  unfold client_run, client_send, request_rest, finish. destruct (send bld cap wt fuel r s) as [[o|e| |] s1]; try reflexivity.
  destruct (run_ops bld cap wt fuel ops o) as [[u|e| |] ob]; try reflexivity.
  destruct (finish_send bld cap wt fuel ob) as [[u'|e| |] s2]; reflexivity.
Qed.

(** Requests to one address through the pool are requests one after the other on one stream: the one that is in the pool,
    or the one a single connect gives. *)
Theorem C68_pool : forall Addr S Wd aeq (conn : connector Addr S Wd) bld cap rd wt A fuel (l : list (url * (request unit * list op * (status -> headers -> prog A)))) a s pl pl' w,
  l <> [] -> Forall (fun q => builder_new (fst q) (rq_method (fst (fst (snd q)))) = Ok (fst (fst (snd q)))) l ->
  (forall q w, In q l -> exists w', c_addr conn (fst q) w = (Ok a, w')) ->
  (pool_get aeq a pl = Some s /\ pl' = pl)
  \/ (pool_get aeq a pl = None /\ pl' = pool_set aeq a s pl /\ forall w, exists w', c_connect conn a w = (Ok s, w')) ->
  let (x, s') := session bld cap rd wt fuel (map snd l) s in
  exists w', pooled aeq conn bld cap rd wt fuel (map (fun q => (rq_method (fst (fst (snd q))), fst q, snd (fst (snd q)), snd (snd q))) l) pl w
             = (x, (pool_update aeq a s' pl', w')).
Proof.
  intros Addr S Wd aeq conn bld cap rd wt A fuel l a.
  assert (Main : forall l s pl w, Forall (fun q : url * (request unit * list op * (status -> headers -> prog A)) => builder_new (fst q) (rq_method (fst (fst (snd q)))) = Ok (fst (fst (snd q)))) l ->
    (forall q w, In q l -> exists w', c_addr conn (fst q) w = (Ok a, w')) -> pool_get aeq a pl = Some s ->
    let (x, s') := session bld cap rd wt fuel (map snd l) s in
    exists w', pooled aeq conn bld cap rd wt fuel (map (fun q => (rq_method (fst (fst (snd q))), fst q, snd (fst (snd q)), snd (snd q))) l) pl w
               = (x, (pool_update aeq a s' pl, w'))).
  { clear l. induction l as [|[u [[r ops] p]] t IH]; intros s pl w Hb Ha Hg.
    - cbn. exists w. now rewrite update_same.
    - apply Forall_cons_iff in Hb as [Hb Hbt]. cbn [fst snd] in Hb. cbn [map session fst snd pooled]. rewrite run_split. unfold client_start, get_stream. rewrite Hb.
      destruct (Ha (u, (r, ops, p)) w (or_introl eq_refl)) as [w1 Ew]. cbn [fst] in Ew. rewrite Ew, Hg.
      destruct (send bld cap wt fuel r s) as [[o|e| |] s1]; cbn [sbind]; try (exists w1; reflexivity).
      destruct (request_rest bld cap rd wt fuel ops p o) as [[x|e| |] s2]; cbn [sbind]; try (exists w1; rewrite update_update; reflexivity).
      specialize (IH s2 (pool_update aeq a s2 (pool_update aeq a s1 pl)) w1 Hbt (fun q w0 Hq => Ha q w0 (or_intror Hq))).
      rewrite update_update in *. specialize (IH (get_update aeq a s s2 pl Hg)).
      destruct (session bld cap rd wt fuel (map snd t) s2) as [xs s3]. destruct IH as [w' ->]. rewrite update_update.
      destruct xs as [ys|e| |]; cbn [sbind]; eauto. }
  intros s pl pl' w Hl Hb Ha [[Hg ->]|(Hg & -> & Hc)]; [now apply Main|].
  destruct l as [|[u [[r ops] p]] t]; [easy|]. apply Forall_cons_iff in Hb as [Hb Hbt]. cbn [fst snd] in Hb.
  cbn [map session fst snd pooled]. rewrite run_split. unfold client_start, get_stream. rewrite Hb.
  destruct (Ha (u, (r, ops, p)) w (or_introl eq_refl)) as [w1 Ew]. cbn [fst] in Ew. rewrite Ew, Hg. destruct (Hc w1) as [w2 Ec]. rewrite Ec.
  pose proof (get_set aeq a s pl Hg) as Hg2.
  destruct (send bld cap wt fuel r s) as [[o|e| |] s1]; cbn [sbind]; try (exists w2; reflexivity).
  destruct (request_rest bld cap rd wt fuel ops p o) as [[x|e| |] s2]; cbn [sbind]; try (exists w2; rewrite update_update; reflexivity).
  specialize (Main t s2 (pool_update aeq a s2 (pool_set aeq a s pl)) w2 Hbt (fun q w0 Hq => Ha q w0 (or_intror Hq)) (get_update aeq a s s2 _ Hg2)).
  rewrite update_update. destruct (session bld cap rd wt fuel (map snd t) s2) as [xs s3]. destruct Main as [w' ->]. rewrite update_update.
  destruct xs as [ys|e| |]; cbn [sbind]; eauto.
Qed.
Print Assumptions C68_pool.

(** ** Chunked answers *)
(** A way to run the network in which nobody gets or puts more than [k] bytes at a time. *)
Section Upto.
  Context {A1 A2 : Type} (p1 : sock -> res A1 * sock) (p2 : sock -> res A2 * sock) (room1 room2 k : nat).
  Definition reply_upto (s : sock) (inq outq : bytes) (room : nat) (peer : sock) : option (answers -> answers) :=
    match k_stop s with
    | Some (ARead n) =>
        match inq with
        | [] => match k_stop peer with None => Some closed | Some _ => None end
        | _ => match Nat.min n k with O => None | m => Some (got (firstn m inq)) end
        end
    | Some (AWrite d) =>
        match Nat.min k (match k_stop peer with None => length d | Some _ => Nat.min (length d) (room - length outq) end) with
        | O => None | j => Some (took j)
        end
    | None => None
    end.
  Definition next_upto (c : conf) : option conf :=
    let s1 := side1 p1 c in
    let s2 := side2 p2 c in
    match reply_upto s1 (queue2 p1 p2 c) (queue1 p1 p2 c) room1 s2 with
    | Some f => Some (f (fst c), snd c)
    | None => match reply_upto s2 (queue1 p1 p2 c) (queue2 p1 p2 c) room2 s1 with
              | Some f => Some (fst c, f (snd c))
              | None => None
              end
    end.
  Fixpoint run_upto (n : nat) (c : conf) : nat * conf :=
    match n with
    | O => (O, c)
    | S m => match next_upto c with Some c' => let (j, d) := run_upto m c' in (S j, d) | None => (O, c) end
    end.
  Lemma upto_sound s inq outq room peer f : reply_upto s inq outq room peer = Some f -> answer s inq outq room peer f.
  Proof.
    unfold reply_upto. destruct (k_stop s) as [[n|d]|] eqn:Es; [| |discriminate].
    - destruct inq as [|x inq].
      + destruct (k_stop peer) eqn:Ep; [discriminate|]. intros [= <-]. now apply (ans_end _ _ _ _ _ n).
      + destruct (Nat.min n k) as [|m] eqn:Em; [discriminate|]. intros [= <-]. apply (ans_read _ _ _ _ _ n _ (skipn (S m) (x :: inq))); auto.
        * symmetry. exact (firstn_skipn (S m) (x :: inq)).
        * easy.
        * pose proof (firstn_le_length (S m) (x :: inq)). change (length (firstn (S m) (x :: inq)) <= n). lia.
    - destruct (Nat.min k (match k_stop peer with None => length d | Some _ => Nat.min (length d) (room - length outq) end)) as [|j] eqn:Ek; [discriminate|].
      intros [= <-]. apply (ans_write _ _ _ _ _ d (S j)); auto.
      + destruct (k_stop peer); lia.
      + destruct (k_stop peer) eqn:Ep; [left; lia|right; exact Ep].
  Qed.
  Lemma upto_reach : forall n m c j d, reach p1 p2 room1 room2 m c -> run_upto n c = (j, d) -> reach p1 p2 room1 room2 (j + m) d.
  Proof.
    induction n as [|n IH]; intros m c j d Hr E; cbn [run_upto] in E; [now injection E as <- <-|].
    destruct (next_upto c) as [c'|] eqn:En; [|now injection E as <- <-].
    destruct (run_upto n c') as [j' d'] eqn:E'. injection E as <- <-.
    assert (Hst : step p1 p2 room1 room2 c c').
    { unfold next_upto in En. destruct (reply_upto (side1 p1 c) _ _ _ _) as [f|] eqn:E1; [injection En as <-; now apply step1, upto_sound|].
      destruct (reply_upto (side2 p2 c) _ _ _ _) as [f|] eqn:E2; [injection En as <-; now apply step2, upto_sound|discriminate]. }
    change (S j' + m) with (S (j' + m)). rewrite plus_n_Sm. apply (IH _ c'); auto. now apply (reach_step _ _ _ _ m c).
  Qed.
End Upto.

(** The three requests of examples/connection_reuse.rs, to some host. *)
Definition C68_url (path : bytes) : url := mkUrl (bs "http") (Some (bs "h")) None path None.
Definition C68_get (path : bytes) : request unit :=
  mkRequest Get path (mkVersion 1 1) [(bs "accept", bs "*/*"); (bs "host", bs "h"); (bs "user-agent", bs "http_io")] tt.
Definition C68_exch (path first : bytes) (lines : list bytes) (h : headers) (out : bytes) : exch bytes :=
  mkExch (C68_get path) [] (fun _ _ => slurp 5 (fun d => Ret d) (fun _ => Ret []) []) first lines (mkVersion 1 1) OK h out.
Definition C68_by_length (path out : bytes) : exch bytes :=
  C68_exch path (bs "HTTP/1.1 200 OK") [bs "Content-Length: 2"] [(bs "content-length", bs "2")] out.
Definition C68_chunked (path out : bytes) : exch bytes :=
  C68_exch path (bs "HTTP/1.1 200 OK") [bs "Transfer-Encoding: chunked"] [(bs "transfer-encoding", bs "chunked")]
    (bs "2" ++ CRLF ++ out ++ CRLF ++ bs "0" ++ CRLF ++ CRLF).
Definition C68_list (mk : bytes -> bytes -> exch bytes) : list (exch bytes) :=
  [mk (bs "/") (bs "ab"); mk (bs "/favicon.ico") (bs "cd"); mk (bs "/robots.txt") (bs "ef")].
Definition C68_client bld (l : list (exch bytes)) := session bld 16 sock_read sock_writer 600 (asks l).
Definition C68_server (l : list (exch bytes)) : process unit := steady 600 (steady_for l).
Definition C68_run bld l room1 room2 k : nat * conf := run_upto (C68_client bld l) (C68_server l sock sock_read sock_writer) room1 room2 k 4000 start.
Definition C68_bodies (x : res (list (status * headers * bytes))) : res (list bytes) := do l <- x; Ok (map snd l).

Example C68_builder : map (fun u => builder_new u Get) (map C68_url [bs "/"; bs "/favicon.ico"; bs "/robots.txt"])
  = map (fun p => Ok (C68_get p)) [bs "/"; bs "/favicon.ico"; bs "/robots.txt"].
Proof. vm_compute. reflexivity. Qed.

Definition C68_outcome bld l room1 room2 k : option (nat * res (list bytes)) :=
  let (n, c) := C68_run bld l room1 room2 k in
  match k_stop (side1 (C68_client bld l) c) with None => Some (n, C68_bodies (fst (C68_client bld l (fresh (fst c))))) | Some _ => None end.
Lemma C68_outcome_reach bld l room1 room2 k n x : C68_outcome bld l room1 room2 k = Some (n, x) ->
  exists c, reach (C68_client bld l) (C68_server l sock sock_read sock_writer) room1 room2 n c
    /\ C68_bodies (fst (C68_client bld l (fresh (fst c)))) = x /\ ended (side1 (C68_client bld l) c).
Proof.
  unfold C68_outcome, C68_run. intros H.
  destruct (run_upto (C68_client bld l) (C68_server l sock sock_read sock_writer) room1 room2 k 4000 start) as [j c] eqn:E.
  destruct (k_stop (side1 (C68_client bld l) c)) eqn:Es; [discriminate|]. injection H as -> <-. exists c. split; [|split; [reflexivity|exact Es]].
  rewrite <- (Nat.add_0_r n). apply (upto_reach _ _ _ _ k 4000 0 start n c (reach_start _ _ _ _) E).
Qed.

Lemma C68_text_line l : l <> [] -> forallb (fun b => bval b <? 128)%N l = true -> ~ In CR l -> text_line l.
Proof. intros A1 A2 A3. split; auto. split; [now apply no_cr_no_crlf|]. now apply utf8_bs_ascii. Qed.
Lemma C68_chunked_head : good_head (bs "HTTP/1.1 200 OK") [bs "Transfer-Encoding: chunked"] (mkVersion 1 1) OK [(bs "transfer-encoding", bs "chunked")].
Proof.
  assert (T1 : text_line (bs "HTTP/1.1 200 OK")) by (apply C68_text_line; try reflexivity; cbn; intuition easy).
  assert (T2 : text_line (bs "Transfer-Encoding: chunked")) by (apply C68_text_line; try reflexivity; cbn; intuition easy).
  split; auto. split; auto. split; [apply status_line_meaning; [apply T1|reflexivity]|]. split.
  - exists [bs "Transfer-Encoding: chunked"], [(bs "transfer-encoding", bs "chunked")]. repeat split.
    + change (folded (bs "Transfer-Encoding: chunked" :: [] ++ []) [bs "Transfer-Encoding: chunked" ++ concat []]). constructor; try easy. constructor.
    + constructor; auto. exists (bs "Transfer-Encoding"), (bs "chunked"). repeat split; auto. intros H. vm_compute in H.
      repeat (destruct H as [H|H]; [discriminate|]). destruct H.
  - intros w Hw. vm_compute in Hw. discriminate.
Qed.
Lemma C68_good : Forall (good_exch 600) (C68_list C68_by_length) /\ length (replies (C68_list C68_by_length)) + 4 < 600
  /\ lax_process (C68_server (C68_list C68_by_length)) /\ responsive (C68_list C68_by_length) (C68_server (C68_list C68_by_length)).
Proof.
  assert (H2 : u64_text (bs "2") 2).
  { split; [reflexivity|]. left. split; [easy|]. exists [2%N]. split; [|reflexivity]. repeat constructor; vm_compute; congruence. }
  assert (G : forall path out, length out = 2 -> length (concat (request_pieces (C68_get path))) <= 600 -> good_exch 600 (C68_by_length path out)).
  { intros path out Ho Hp. split; auto.
    - exact (Forall_nil _).
    - exact (proj1 C44_case).
    - vm_compute. discriminate.
    - exists (bs "2"). cbn [x_out C68_by_length C68_exch]. rewrite Ho. split; [reflexivity|exact H2].
    - cbn [x_prog C68_by_length C68_exch]. apply slurp_to_end; [lia| |]; intros; constructor.
    - cbn [x_prog x_out C68_by_length C68_exch]. apply (C52_reading_to_the_end bytes 5 (fun d => d) (fun _ => Ret [])); try lia; intros; constructor. }
  split; [|split; [apply Nat.ltb_lt; vm_compute; reflexivity|split]].
  - unfold C68_list. repeat (apply Forall_cons; [apply G; [reflexivity|apply Nat.leb_le; vm_compute; reflexivity]|]). apply Forall_nil.
  - apply steady_lax.
  - apply C68_steady; apply Nat.leb_le; vm_compute; reflexivity.
Qed.

(** [C68_result] and [C68_ends] need answers that announce their length. The same client and the same kind of server, but
    with chunked answers that end with the empty line RFC 9112 asks for: the runs of one and the same system end
    differently. If the network delivers the answers byte by byte, the client stops before that empty line, and finds it
    in place of the second answer; if it delivers them in one piece, the line is in the client's buffer, which is thrown
    away, and all is well. In the no_std build there is no such buffer, and the second request fails even then. *)
Theorem C68_chunked_refuted :
  exists (l : list (exch bytes)) (F : process unit),
    Forall (fun e => good_head (x_first e) (x_lines e) (x_version e) (x_status e) (x_headers e)
      /\ hm_get (bs "transfer-encoding") (x_headers e) = Some (bs "chunked")
      /\ exists d, length d = 2 /\ x_out e = bs "2" ++ CRLF ++ d ++ CRLF ++ bs "0" ++ CRLF ++ CRLF) l
    /\ lax_process F /\ responsive l F
    /\ (exists n c, reach (C68_client Std l) (F sock sock_read sock_writer) 200 200 n c
          /\ C68_bodies (fst (C68_client Std l (fresh (fst c)))) = Ok [bs "ab"; bs "cd"; bs "ef"] /\ ended (side1 (C68_client Std l) c))
    /\ (exists n c, reach (C68_client Std l) (F sock sock_read sock_writer) 200 200 n c
          /\ C68_bodies (fst (C68_client Std l (fresh (fst c)))) = Err UnexpectedEof /\ ended (side1 (C68_client Std l) c))
    /\ (exists n c, reach (C68_client NoStd l) (F sock sock_read sock_writer) 200 200 n c
          /\ C68_bodies (fst (C68_client NoStd l (fresh (fst c)))) = Err UnexpectedEof /\ ended (side1 (C68_client NoStd l) c)).
Proof.
  exists (C68_list C68_chunked), (C68_server (C68_list C68_chunked)).
  split; [|split; [apply steady_lax|split; [apply C68_steady; apply Nat.leb_le; vm_compute; reflexivity|split; [|split]]]].
  - unfold C68_list. repeat (apply Forall_cons; [split; [exact C68_chunked_head|split; [reflexivity|eexists; split; [|reflexivity]; reflexivity]]|]). apply Forall_nil.
  - assert (H : C68_outcome Std (C68_list C68_chunked) 200 200 200 = Some (166, Ok [bs "ab"; bs "cd"; bs "ef"])) by (vm_compute; reflexivity).
    exists 166. exact (C68_outcome_reach _ _ _ _ _ _ _ H).
  - assert (H : C68_outcome Std (C68_list C68_chunked) 200 200 1 = Some (444, Err UnexpectedEof)) by (vm_compute; reflexivity).
    exists 444. exact (C68_outcome_reach _ _ _ _ _ _ _ H).
  - assert (H : C68_outcome NoStd (C68_list C68_chunked) 200 200 200 = Some (106, Err UnexpectedEof)) by (vm_compute; reflexivity).
    exists 106. exact (C68_outcome_reach _ _ _ _ _ _ _ H).
Qed.
Print Assumptions C68_chunked_refuted.

(** The hypotheses hold for three requests with two-byte answers, in both builds and with any room; and one run of them,
    with seven bytes of room in one direction, five in the other, and three bytes per step. *)
Example C68_case :
  (Forall (good_exch 600) (C68_list C68_by_length) /\ length (replies (C68_list C68_by_length)) + 4 < 600
   /\ lax_process (C68_server (C68_list C68_by_length)) /\ responsive (C68_list C68_by_length) (C68_server (C68_list C68_by_length)))
  /\ C68_outcome Std (C68_list C68_by_length) 7 5 3 = Some (309, Ok [bs "ab"; bs "cd"; bs "ef"])
  /\ (exists c, reach (C68_client Std (C68_list C68_by_length)) (C68_server (C68_list C68_by_length) sock sock_read sock_writer) 7 5 309 c
        /\ C68_bodies (fst (C68_client Std (C68_list C68_by_length) (fresh (fst c)))) = Ok [bs "ab"; bs "cd"; bs "ef"]
        /\ ended (side1 (C68_client Std (C68_list C68_by_length)) c)).
Proof.
  assert (H : C68_outcome Std (C68_list C68_by_length) 7 5 3 = Some (309, Ok [bs "ab"; bs "cd"; bs "ef"])) by (vm_compute; reflexivity).
  split; [exact C68_good|split; [exact H|exact (C68_outcome_reach _ _ _ _ _ _ _ H)]].
Qed.

(** [HttpClient] as in examples/connection_reuse.rs: two of the requests, made with [get], go over the one connection
    ([C42_conn] counts them). *)
Example C68_pool_case :
  let ask path := (Get, mkUrl (bs "http") (Some (bs "host")) None path None, @nil op, fun (_ : status) (_ : headers) => slurp 5 (fun d => Ret d) (fun _ => Ret []) []) in
  let (x, pw) := pooled Nat.eq_dec C42_conn Std 64 duplex_read duplex_writer 99 [ask (bs "/"); ask (bs "/favicon.ico")] [] 0 in
  (do l <- x; Ok (map (fun r => (fst (fst r), snd r)) l)) = Ok [(OK, bs "x"); (NotFound, [])] /\ map fst (fst pw) = [4] /\ snd pw = 1.
Proof. vm_compute. auto. Qed.
