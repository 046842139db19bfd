(** Property C66: the file server of examples/server.rs with several clients at the same time. *)
From Verif Require Import Base Utf8 Case Num Io Parser Types Message Outgoing Client Server Files Transport.
From Verif Require Import Lemmas ReadLemmas NumLemmas ChunkSpec ChunkLemmas BodyLemmas WriteLemmas ParserLemmas CaseLemmas TypesLemmas HeadLemmas
  BlockLemmas MsgLemmas SimLemmas OutLemmas KeepLemmas PBody PIo PParse PHead POut PReuse PServer PEnd NetLemmas Net NetSock NetStep NetFav NetFacts PNet
  PReset PMany PFile.

(** ** What is stored *)
(** The contents of the files of a tree, by path. *)
Definition contents (t : node) (p : list bytes) : option bytes := match at_path t p with Some (File d) => Some d | _ => None end.
Definition is_dir (t : node) (p : list bytes) : Prop := exists es, at_path t p = Some (Dir es).

Lemma put_contents t dir n data : is_dir t dir -> ~ is_dir t (dir ++ [n]) ->
  let t' := put_at t (dir ++ [n]) (File data) in
  contents t' (dir ++ [n]) = Some data /\ (forall q, q <> dir ++ [n] -> contents t' q = contents t q) /\ (forall q, is_dir t' q <-> is_dir t q).
Proof.
  intros [es Hd] Hn t'. assert (Hg : at_path t' (dir ++ [n]) = Some (File data)) by exact (put_get dir n (File data) t es Hd).
  assert (Hbelow : forall s, s <> [] -> at_path t' ((dir ++ [n]) ++ s) = None /\ at_path t ((dir ++ [n]) ++ s) = None).
  { intros s Hs. rewrite (at_path_app t'), (at_path_app t (dir ++ [n])), Hg. split; [now destruct s|].
    destruct (at_path t (dir ++ [n])) as [[d|es']|] eqn:E; [now destruct s| |auto]. destruct Hn. now exists es'. }
  assert (Habove : forall q s, dir = q ++ s -> is_dir t' q /\ is_dir t q).
  { intros q s Hq. assert (Hup : forall t0 m s0 x, at_path t0 (q ++ m :: s0) = Some x -> is_dir t0 q).
    { intros t0 m s0 x H. rewrite at_path_app in H. destruct (at_path t0 q) as [[|es0]|] eqn:E; try discriminate. now exists es0. }
    split.
    - rewrite Hq, <- app_assoc in Hg. destruct s as [|m s]; cbn [app] in Hg; exact (Hup _ _ _ _ Hg).
    - destruct s as [|m s]; [rewrite app_nil_r in Hq; subst q; now exists es|]. rewrite Hq in Hd. exact (Hup _ _ _ _ Hd). }
  assert (Hcase : forall q, q = dir ++ [n] \/ (exists s, s <> [] /\ q = (dir ++ [n]) ++ s) \/ (exists s, dir = q ++ s) \/ at_path t' q = at_path t q).
  { intros q. destruct (list_eq_dec (list_eq_dec Byte.byte_eq_dec) (firstn (length (dir ++ [n])) q) (dir ++ [n])) as [E|E].
    - assert (Eq : q = (dir ++ [n]) ++ skipn (length (dir ++ [n])) q) by (rewrite <- E at 1; symmetry; apply firstn_skipn).
      destruct (skipn (length (dir ++ [n])) q) as [|m s]; [left; now rewrite app_nil_r in Eq|]. right. left. now exists (m :: s).
    - destruct (list_eq_dec (list_eq_dec Byte.byte_eq_dec) (firstn (length q) dir) q) as [E2|E2].
      + right. right. left. exists (skipn (length q) dir). rewrite <- E2 at 1. symmetry. apply firstn_skipn.
      + right. right. right. apply (put_new dir n (File data) t es Hd).
        * intros s ->. apply E. replace (dir ++ n :: s) with ((dir ++ [n]) ++ s) by (now rewrite <- app_assoc).
          rewrite firstn_app, Nat.sub_diag, firstn_all, firstn_O. apply app_nil_r.
        * intros s Hs. destruct s as [|m s] using rev_ind.
          -- rewrite app_nil_r in Hs. apply E. rewrite <- Hs. apply firstn_all.
          -- rewrite app_assoc in Hs. apply app_inj_tail in Hs as [Hs _]. apply E2. rewrite Hs, firstn_app, Nat.sub_diag, firstn_all, firstn_O. apply app_nil_r. }
  split; [unfold contents; now rewrite Hg|]. split.
  - intros q Hq. destruct (Hcase q) as [->|[(s & Hs & ->)|[(s & Hs)|E]]]; unfold contents; [easy| | |now rewrite E].
    + destruct (Hbelow s Hs) as [-> ->]. reflexivity.
    + destruct (Habove q s Hs) as [[e1 ->] [e2 ->]]. reflexivity.
  - intros q. destruct (Hcase q) as [->|[(s & Hs & ->)|[(s & Hs)|E]]]; unfold is_dir.
    + rewrite Hg. split; [now intros [es' H]|easy].
    + destruct (Hbelow s Hs) as [-> ->]. easy.
    + destruct (Habove q s Hs) as [H1 H2]. easy.
    + now rewrite E.
Qed.

(** ** The clients *)
(** A client uploads the bytes that [ops] writes, or downloads; both read the whole answer, with a buffer of [j_buf]
    bytes. *)
Inductive what := Upload (ops : list op) | Download.
Record job := mkJob { j_what : what; j_path : list bytes; j_req : request unit; j_bld : build; j_cap : nat; j_fuel : nat; j_buf : nat }.
Definition j_ops (j : job) : list op := match j_what j with Upload ops => ops | Download => [] end.
Definition whole_answer (n : nat) : status -> headers -> prog (option bytes) := fun _ _ => slurp n (fun d => Ret (Some d)) (fun _ => Ret None) [].
Definition run_job (j : job) : sock -> res (status * headers * option bytes) * sock :=
  client_run (j_bld j) (j_cap j) sock_read sock_writer (j_fuel j) (j_req j) (j_ops j) (whole_answer (j_buf j)).

(** The store that the clients should see: a map from paths to contents, changed by uploads. *)
Definition after (root : list bytes) (j : job) (c : list bytes -> option bytes) : list bytes -> option bytes :=
  match j_what j with
  | Upload ops => fun q => if list_eq_dec (list_eq_dec Byte.byte_eq_dec) q (root ++ j_path j) then Some (concat (written ops)) else c q
  | Download => c
  end.
(** What the answer to a client should hold. *)
Definition answer_to (root : list bytes) (j : job) (c : list bytes -> option bytes) : option bytes :=
  match j_what j with Upload _ => Some [] | Download => c (root ++ j_path j) end.
Fixpoint answers_to (root : list bytes) (js : list job) (c : list bytes -> option bytes) : list (option bytes) :=
  match js with [] => [] | j :: js => answer_to root j c :: answers_to root js (after root j c) end.
Definition after_all (root : list bytes) (js : list job) (c : list bytes -> option bytes) : list bytes -> option bytes :=
  fold_left (fun c j => after root j c) js c.

Section Share.
  Context (root : list bytes) (text : error -> bytes) (n0 : nat) (bld : build) (cap : nat) (etext : error -> bytes) (bufsz fuel : nat) (room1 room2 : nat).
  Notation hd := (file_handler root text n0).

  (** A well-formed request for a file in a directory that exists; a download of a file that is there at that time;
      buffers; and bounds on the number of steps. *)
  Record good_job (t : node) (c : list bytes -> option bytes) (j : job) : Prop := {
    gj_names : Forall plain_name (j_path j);
    gj_dir : exists dir n, j_path j = dir ++ [n] /\ is_dir t (root ++ dir) /\ ~ is_dir t (root ++ j_path j);
    gj_uri : rq_uri (j_req j) = uri_of (j_path j) /\ sendable_uri (uri_of (j_path j));
    gj_version : small_version (rq_version (j_req j));
    gj_headers : sendable (rq_headers (j_req j)) /\ good_length (rq_headers (j_req j));
    gj_method : match j_what j with
                | Upload ops => rq_method (j_req j) = Put /\ hm_get (bs "transfer-encoding") (rq_headers (j_req j)) = Some (bs "chunked")
                | Download => rq_method (j_req j) = Get
                end;
    gj_sizes : Forall (fun d => (N.of_nat (length d) <= u64_max)%N) (written (j_ops j));
    gj_cap : 0 < j_cap j <= j_fuel j /\ 0 < j_buf j;
    gj_answer : exists d, answer_to root j c = Some d /\ (N.of_nat (length d) < 2 ^ 64)%N
      /\ length d + length (show_dec (N.of_nat (length d))) + 50 < j_fuel j /\ length d + length (show_dec (N.of_nat (length d))) + 50 < fuel;
    gj_fuel : length (whole_request (j_req j) (j_ops j)) + 4 < fuel /\ length (concat (request_pieces (j_req j))) <= j_fuel j
      /\ Forall (fun d => length (chunk_of d) <= j_fuel j) (written (j_ops j)) /\ length (concat (written (j_ops j))) + 1 < fuel }.
  Fixpoint good_jobs (t : node) (c : list bytes -> option bytes) (js : list job) : Prop :=
    match js with [] => True | j :: js => good_job t c j /\ good_jobs t (after root j c) js end.

  Context (Hn0 : 0 < n0) (Hcap : 0 < cap) (Hbz : 0 < bufsz <= fuel) (Hroom1 : 2 <= room1) (Hroom2 : 1 <= room2).

  Lemma file_copy_to_end p t : forall acc, to_end (file_copy text n0 p t acc).
  Proof.
    cofix IH. intros acc. rewrite file_copy_eq. constructor; auto.
    - intros [|b d] Hd; [easy|apply IH].
    - constructor.
    - intros e. destruct e as [| | | | | | | | | |[]|]; try constructor. now apply file_copy_reads.
  Qed.

  Lemma length_header (d : bytes) : (N.of_nat (length d) < 2 ^ 64)%N ->
    sendable [(bs "content-length", show_dec (N.of_nat (length d)))] /\ u64_text (show_dec (N.of_nat (length d))) (N.of_nat (length d)).
  Proof.
    intros Hd. set (n := N.of_nat (length d)) in *. pose proof (show_radix_numeral 10 n ltac:(lia) ltac:(lia)) as Hn. fold (show_dec n) in Hn.
    split; [|split; auto].
    assert (Hdig : Forall (fun b => (48 <= bval b <= 57)%N) (show_dec n)).
    { destruct Hn as [_ (ds & Hf & _)]. clear -Hf. induction Hf as [|b x s ds [H1 H2] Hf IH]; constructor; auto. lia. }
    split; [constructor; [easy|constructor]|]. constructor; [|constructor]. cbn [fst snd].
    assert (Hk : sendable [(bs "content-length", bs "5")]).
    { apply sendable_check; [reflexivity|]. exact (headers_from_sorted [(bs "content-length", bs "5")]). }
    destruct Hk as [_ Hk]. apply Forall_cons_iff in Hk as [[Hk _] _]. split; [exact Hk|]. split.
    - apply utf8_bs_ascii. eapply numeral_ascii; eauto. lia.
    - apply no_cr_no_crlf. intros Hin. rewrite Forall_forall in Hdig. apply Hdig in Hin. revert Hin. vm_compute. intuition congruence.
  Qed.

  (** The answer to a client: empty for an upload. *)
  Definition share_answer (j : job) (d : bytes) : dyn_response :=
    match j_what j with
    | Upload _ => from_string OK []
    | Download => response_add_header (bs "Content-Length") (show_dec (N.of_nat (length d))) (from_string OK d)
    end.

  (** One client. *)
  Lemma job_good t0 t c j : good_job t0 c j -> (forall q, contents t q = c q) -> (forall q, is_dir t q <-> is_dir t0 q) ->
    exists d t', answer_to root j c = Some d
      /\ good_exchange (j_cap j) (j_fuel j) (j_req j) (j_ops j) (whole_answer (j_buf j)) bld cap hd bufsz fuel t room1 room2
           (share_answer j d) t' (map B d) d
      /\ (forall q, contents t' q = after root j c q) /\ (forall q, is_dir t' q <-> is_dir t0 q).
  Proof.
    intros G Hc Hd. destruct (gj_answer _ _ _ G) as (d & Ed & Hd64 & Hf1 & Hf2). destruct (gj_dir _ _ _ G) as (dir & n & Hp & Hdir & Hnd).
    destruct (gj_uri _ _ _ G) as [Hu1 Hu2]. destruct (gj_headers _ _ _ G) as [Hh1 Hh2]. pose proof (gj_method _ _ _ G) as Hm.
    destruct (gj_cap _ _ _ G) as [Hc1 Hc2]. destruct (gj_fuel _ _ _ G) as (Hl1 & Hl2 & Hl3 & Hl4). pose proof (gj_names _ _ _ G) as Hnm.
    pose proof (gj_sizes _ _ _ G) as Hsz. pose proof (gj_version _ _ _ G) as Hver. clear G.
    destruct (length_header d Hd64) as [Hsend Hu64].
    assert (Hne : j_path j <> []) by (rewrite Hp; now destruct dir).
    set (t' := match j_what j with Upload ops => put_at t (root ++ j_path j) (File (concat (written ops))) | Download => t end).
    assert (Hwire : forall x, response_wire (share_answer j d) x =
      bs "HTTP/1.1 200 OK" ++ CRLF ++ match j_what j with Upload _ => [] | Download => bs "content-length" ++ bs ": " ++ show_dec (N.of_nat (length d)) ++ CRLF end ++ CRLF ++ x).
    { intros x. unfold share_answer, response_wire. destruct (j_what j); [reflexivity|]. cbn [response_add_header from_string response_new rs_version rs_status rs_headers].
      change (status_line_of _ _) with (bs "HTTP/1.1 200 OK"). change (headers_pieces _) with [bs "content-length"; bs ": "; show_dec (N.of_nat (length d)); CRLF].
      cbn [concat]. now rewrite app_nil_r, <- !app_assoc. }
    assert (Hwl : forall x, length (response_wire (share_answer j d) x) <= length (show_dec (N.of_nat (length d))) + 39 + length x).
    { intros x. rewrite Hwire, !app_length. change (length (bs "HTTP/1.1 200 OK")) with 15. change (length CRLF) with 2.
      destruct (j_what j); [cbn [length]; lia|]. rewrite !app_length. change (length (bs "content-length")) with 14. change (length (bs ": ")) with 2.
      change (length CRLF) with 2. lia. }
    assert (Hdel : delivers (body_read bld (bufr_read bld cap dyn_read) fuel) (rs_body (share_answer j d)) (map B d)).
    { unfold share_answer, answer_to in *. destruct (j_what j).
      - injection Ed as <-. exact (from_string_delivers bld cap fuel OK [] Hcap).
      - exact (from_string_delivers bld cap fuel OK d Hcap). }
    exists d, t'. split; [exact Ed|]. split; [|].
    - split; auto; try lia.
      + unfold j_ops. destruct (j_what j); [left; destruct Hm as [-> _]; reflexivity|now right].
      + now rewrite Hu1.
      + exists (Ok (inl (share_answer j d))). split; [now left|]. unfold share_answer, answer_to, j_ops, t' in *. rewrite Hu1. destruct (j_what j) as [ops|].
        * right. destruct Hm as [-> Hte]. eexists. split; [reflexivity|]. split; [exact Hte|].
          assert (EP : h_put hd (uri_of (j_path j)) t = file_copy text n0 (root ++ j_path j) t []).
          { cbn [file_handler h_put]. unfold file_put. apply Hd in Hdir as [es Hdir]. rewrite Hp in *.
            rewrite (create_names root dir n t es Hnm Hdir); auto. intros es' He. apply Hnd, Hd. exists es'.
            rewrite app_assoc, at_path_app, Hdir. cbn [at_path]. now rewrite He. }
          rewrite EP. split; [intros len; now apply file_copy_stops|]. split.
          -- intros len a Ha. apply file_copy_runs in Ha. exact Ha.
          -- left. split; [apply file_copy_to_end|auto].
        * left. rewrite Hm. eexists. split; [reflexivity|]. split; [|unfold body_wire; rewrite Hm; cbn [has_body length]; lia]. cbn [file_handler h_get]. unfold file_get.
          rewrite <- Hc in Ed. unfold contents in Ed. destruct (at_path t (root ++ j_path j)) as [[d'|]|] eqn:Ex; try discriminate. injection Ed as ->.
          now rewrite (find_names root (j_path j) t (File d) Hnm Hne Ex).
      + apply noisy_map.
      + unfold share_answer. destruct (j_what j); split; reflexivity.
      + unfold share_answer. destruct (j_what j); reflexivity.
      + unfold share_answer. destruct (j_what j); [apply sendable_check; [reflexivity|exact (headers_from_sorted [])]|exact Hsend].
      + unfold share_answer. destruct (j_what j); (split; [discriminate|]); [now left|]. right. exists (show_dec (N.of_nat (length d))). auto.
      + intros st h. apply slurp_reads_some; auto; intros; constructor.
      + intros len st _. apply (C52_reading_to_the_end _ (j_buf j) Some (fun _ => Ret None) len (j_fuel j) d); auto; [lia|]. intros. constructor.
      + specialize (Hwl d). repeat split; auto; lia.
      + specialize (Hwl []). cbn [length] in Hwl. rewrite map_length. lia.
    - unfold t', after. destruct (j_what j) as [ops|]; [|split; [exact Hc|exact Hd]].
      rewrite Hp, app_assoc in *. apply Hd in Hdir. assert (Hnd' : ~ is_dir t ((root ++ dir) ++ [n])) by (intros H; now apply Hnd, Hd).
      destruct (put_contents t (root ++ dir) n (concat (written ops)) Hdir Hnd') as (P1 & P2 & P3). split.
      + intros q. destruct (list_eq_dec _ _ _) as [->|Hq]; [exact P1|]. rewrite P2 by auto. apply Hc.
      + intros q. now rewrite P3, Hd.
  Qed.

  (** All clients. *)
  Lemma jobs_good js : forall t0 t c, good_jobs t0 c js -> (forall q, contents t q = c q) -> (forall q, is_dir t q <-> is_dir t0 q) ->
    exists t' gs len, all_good bld cap hd bufsz fuel room1 room2 t (map run_job js)
        (map (fun j => Called (rq_method (j_req j)) (rq_uri (j_req j))) js) t' gs len
      /\ (forall q, contents t' q = after_all root js c q) /\ (forall q, is_dir t' q <-> is_dir t0 q)
      /\ forall cs, all_get gs (map run_job js) cs ->
           Forall2 (fun jc o => exists st h, fst (run_job (fst jc) (fresh (fst (snd jc)))) = Ok (st, h, o) /\ to_code st = 200%N)
             (combine js cs) (answers_to root js c).
  Proof.
    induction js as [|j js IH]; intros t0 t c Hg Hc Hd.
    - exists t, [], 0. split; [constructor|]. split; [exact Hc|]. split; [exact Hd|]. intros cs _. constructor.
    - destruct Hg as [Hj Hg]. destruct (job_good t0 t c j Hj Hc Hd) as (d & t1 & Ed & G & Hc1 & Hd1).
      destruct (IH t0 t1 (after root j c) Hg Hc1 Hd1) as (t' & gs & len & Ga & Hc' & Hd' & Hall).
      exists t', (gets (share_answer j d) d (whole_answer (j_buf j)) :: gs), (length (whole_request (j_req j) (j_ops j)) + length (response_wire (share_answer j d) d) + len).
      split; [cbn [map]; eapply all_good_cons; eauto|]. split; [exact Hc'|]. split; [exact Hd'|].
      intros [|cf cs] H; [destruct H|]. cbn [map all_get] in H. destruct H as [H1 H2]. cbn [combine answers_to]. constructor; [|now apply Hall].
      cbn [fst snd]. destruct H1 as (st & v & l & H1 & H3 & _ & H4). exists st, (rs_headers (share_answer j d)). rewrite Ed.
      assert (Hcode : to_code (rs_status (share_answer j d)) = 200%N) by (unfold share_answer; destruct (j_what j); reflexivity).
      split; [|congruence]. rewrite H1. do 2 f_equal.
      destruct (gj_cap _ _ _ Hj) as [_ Hb].
      apply (C52_reading_to_the_end _ (j_buf j) Some (fun _ => Ret None) l (length d + 2) d) in H4; auto. intros. constructor.
  Qed.

  (** However the clients and the server take turns: it never comes to a standstill, it ends, and when it has ended every
      client has an answer with code 200; a download has the bytes of the last upload to that path before it in the order
      of acceptance, or else what was in the file at the beginning; and so have the files in the end. *)
  Theorem C66_share : forall t js, good_jobs t (contents t) js ->
    (forall n cs, many_reach bld cap etext hd bufsz fuel room1 room2 t (map run_job js) n cs ->
       (all_ended bld cap etext hd bufsz fuel t (map run_job js) cs
        \/ exists cs', many_step room1 room2 (accepted bld cap etext hd bufsz fuel t cs) (map run_job js) cs cs')
       /\ exists m cs', many_reach bld cap etext hd bufsz fuel room1 room2 t (map run_job js) m cs' /\ n <= m
            /\ all_ended bld cap etext hd bufsz fuel t (map run_job js) cs')
    /\ (exists bound, forall n cs, many_reach bld cap etext hd bufsz fuel room1 room2 t (map run_job js) n cs -> n <= bound)
    /\ exists t', (forall q, contents t' q = after_all root js (contents t) q) /\ (forall q, is_dir t' q <-> is_dir t q)
       /\ forall n cs, many_reach bld cap etext hd bufsz fuel room1 room2 t (map run_job js) n cs ->
          all_ended bld cap etext hd bufsz fuel t (map run_job js) cs ->
          serve_forever bld cap sock_read sock_writer (fun e _ => etext e) hd bufsz fuel t (map (fun c => Ok (fresh (snd c))) cs)
            = (true, map (fun j => Called (rq_method (j_req j)) (rq_uri (j_req j))) js, t', map Some (accepted bld cap etext hd bufsz fuel t cs))
          /\ Forall2 (fun jc o => exists st h, fst (run_job (fst jc) (fresh (fst (snd jc)))) = Ok (st, h, o) /\ to_code st = 200%N)
               (combine js cs) (answers_to root js (contents t)).
  Proof.
    intros t js Hg. destruct (jobs_good js t t (contents t) Hg ltac:(reflexivity) ltac:(reflexivity)) as (t' & gs & len & Ga & Hc & Hd & Hall).
    split; [|split].
    - intros n cs Hr. split; [exact (C62_progress bld cap etext hd bufsz fuel room1 room2 _ _ _ _ _ _ Ga n cs Hr)|].
      exact (C62_ends bld cap etext hd bufsz fuel room1 room2 _ _ _ _ _ _ Ga n cs Hr).
    - eexists. exact (C62_bounded bld cap etext hd bufsz fuel room1 room2 _ _ _ _ _ _ Ga).
    - exists t'. split; [exact Hc|]. split; [exact Hd|]. intros n cs Hr He.
      destruct (C62_result bld cap etext hd bufsz fuel room1 room2 _ _ _ _ _ _ Ga n cs Hr He) as [H1 H2]. split; [exact H1|]. now apply Hall.
  Qed.
End Share.
Print Assumptions C66_share.

(** In particular: whoever downloads gets the bytes of the last upload to the same path that was accepted before it, all
    of them and nothing else; and if there was none, what the file held at the beginning. *)
Lemma answers_app root a b c : answers_to root (a ++ b) c = answers_to root a c ++ answers_to root b (after_all root a c).
Proof. revert c. induction a as [|j a IH]; intros c; [reflexivity|]. cbn [app answers_to]. unfold after_all. cbn [fold_left]. now rewrite IH. Qed.
Lemma answers_length root js c : length (answers_to root js c) = length js.
Proof. revert c. induction js as [|j js IH]; intros c; cbn [answers_to length]; auto. Qed.
Definition no_upload_to (p : list bytes) (j : job) : Prop := j_what j = Download \/ j_path j <> p.
Lemma after_others root p js : forall c, Forall (no_upload_to p) js -> after_all root js c (root ++ p) = c (root ++ p).
Proof.
  induction js as [|j js IH]; intros c H; [reflexivity|]. apply Forall_cons_iff in H as [H1 H2]. unfold after_all in *. cbn [fold_left].
  rewrite IH by auto. unfold after. destruct (j_what j) as [ops|] eqn:E; [|reflexivity]. destruct (list_eq_dec _ _ _) as [Eq|]; [|reflexivity].
  apply app_inv_head in Eq. destruct H1; [congruence|now subst].
Qed.

Theorem C66_last_upload : forall root text n0 bld cap etext bufsz fuel room1 room2 t js js1 js2 js3 down n cs,
  0 < n0 -> 0 < cap -> 0 < bufsz <= fuel -> 2 <= room1 -> 1 <= room2 ->
  good_jobs root fuel t (contents t) js -> js = js1 ++ js2 ++ down :: js3 -> j_what down = Download ->
  Forall (no_upload_to (j_path down)) js2 ->
  many_reach bld cap etext (file_handler root text n0) bufsz fuel room1 room2 t (map run_job js) n cs ->
  all_ended bld cap etext (file_handler root text n0) bufsz fuel t (map run_job js) cs ->
  exists c st h, nth_error cs (length (js1 ++ js2)) = Some c
    /\ (js1 = [] -> fst (run_job down (fresh (fst c))) = Ok (st, h, contents t (root ++ j_path down)))
    /\ (forall js0 up ops, js1 = js0 ++ [up] -> j_what up = Upload ops -> j_path up = j_path down ->
          fst (run_job down (fresh (fst c))) = Ok (st, h, Some (concat (written ops))))
    /\ to_code st = 200%N.
Proof.
  intros root text n0 bld cap etext bufsz fuel room1 room2 t js js1 js2 js3 down n cs Hn0 Hcap Hbz Hr1 Hr2 Hg Hjs Hdown H2 Hreach Hend.
  destruct (C66_share root text n0 bld cap etext bufsz fuel room1 room2 Hn0 Hcap Hbz Hr1 Hr2 t js Hg) as (_ & _ & t' & _ & _ & H).
  destruct (H n cs Hreach Hend) as [_ HF]. clear H.
  assert (Ha : nth_error (answers_to root js (contents t)) (length (js1 ++ js2))
     = Some (after_all root js2 (after_all root js1 (contents t)) (root ++ j_path down))).
  { rewrite Hjs, app_assoc, answers_app, nth_error_app2, answers_length, Nat.sub_diag by (now rewrite answers_length).
    cbn [answers_to nth_error]. unfold answer_to. rewrite Hdown. unfold after_all. now rewrite fold_left_app. }
  assert (Hj : nth_error js (length (js1 ++ js2)) = Some down).
  { now rewrite Hjs, app_assoc, nth_error_app2, Nat.sub_diag by auto. }
  rewrite after_others in Ha by auto. revert Ha Hj HF. generalize (length (js1 ++ js2)) as i. generalize (answers_to root js (contents t)) as ans.
  assert (Hgen : forall js i ans o cs, nth_error ans i = Some o -> nth_error js i = Some down ->
    Forall2 (fun jc o => exists st h, fst (run_job (fst jc) (fresh (fst (snd jc)))) = Ok (st, h, o) /\ to_code st = 200%N) (combine js cs) ans ->
    exists c st h, nth_error cs i = Some c /\ fst (run_job down (fresh (fst (c : conf)))) = Ok (st, h, o) /\ to_code st = 200%N).
  { clear. induction js as [|j js IH]; intros i ans o cs Ha Hj HF; [now destruct i|]. destruct cs as [|c cs].
    - inversion HF; subst. now destruct i.
    - cbn [combine] in HF. inversion HF as [|? ? ? ? [st [h [K1 K2]]] HF']; subst. destruct i as [|i]; cbn [nth_error] in *.
      + injection Ha as <-. injection Hj as ->. now exists c, st, h.
      + exact (IH i _ o cs Ha Hj HF'). }
  intros ans i Ha Hj HF. destruct (Hgen js i ans _ cs Ha Hj HF) as (c & st & h & K1 & K2 & K3). exists c, st, h. split; [exact K1|]. split; [|split; [|exact K3]].
  - intros ->. exact K2.
  - intros js0 up ops -> Hup Hpath. rewrite K2. do 2 f_equal. unfold after_all. rewrite fold_left_app. cbn [fold_left]. unfold after at 1. rewrite Hup, Hpath.
    now destruct (list_eq_dec _ _ _).
Qed.
Print Assumptions C66_last_upload.

(** ** Example *)
(** One client downloads, one replaces the file, one downloads again, one makes a new file in a subdirectory and one
    downloads that. *)
Definition up_req (u : bytes) : request unit := mkRequest Put u (mkVersion 1 1) [(bs "transfer-encoding", bs "chunked")] tt.
Definition down_req (u : bytes) : request unit := mkRequest Get u (mkVersion 1 1) [] tt.
Definition up_job (p : list bytes) (ops : list op) : job := mkJob (Upload ops) p (up_req (uri_of p)) Std 16 400 5.
Definition down_job (p : list bytes) : job := mkJob Download p (down_req (uri_of p)) NoStd 8 400 3.
Definition C66_jobs : list job :=
  [down_job [bs "a.txt"]; up_job [bs "a.txt"] C58_ops; down_job [bs "a.txt"]; up_job [bs "sub"; bs "new"] [Write (bs "x"); Flush]; down_job [bs "sub"; bs "new"]].

Lemma C66_uri u : u <> [] -> forallb (fun b => negb (is_blank b)) u = true -> ascii u = true -> forallb (fun b => negb (Byte.eqb b CR)) u = true -> sendable_uri u.
Proof.
  intros H0 H1 H2 H3. split; [exact H0|]. split; [now apply utf8_bs_ascii|]. split.
  - rewrite forallb_forall in H1. apply Forall_forall. intros b Hb. apply H1, negb_true_iff in Hb. now apply is_blank_false.
  - apply no_cr_no_crlf. rewrite forallb_forall in H3. intros Hin. apply H3 in Hin. now rewrite byte_eqb_refl in Hin.
Qed.

Ltac good_job_tac dir n :=
  split;
  [ repeat constructor; try discriminate; vm_compute; intuition discriminate
  | exists dir, n; split; [reflexivity|]; split; [eexists; reflexivity|intros [es Hes]; vm_compute in Hes; discriminate]
  | split; [reflexivity|]; apply C66_uri; [discriminate|reflexivity|reflexivity|reflexivity]
  | split; reflexivity
  | split; [apply sendable_check; [reflexivity|]; first [exact (headers_from_sorted [])|exact (headers_from_sorted [(bs "transfer-encoding", bs "chunked")])]
           |intros w Hw; vm_compute in Hw; discriminate]
  | first [reflexivity|split; reflexivity]
  | repeat constructor; vm_compute; discriminate
  | vm_compute; lia
  | eexists; split; [vm_compute; reflexivity|]; vm_compute; repeat split; lia
  | split; [vm_compute; lia|]; split; [vm_compute; lia|]; split; [repeat constructor; vm_compute; lia|vm_compute; lia] ].

Lemma C66_good : good_jobs [bs "srv"] 400 disk (contents disk) C66_jobs.
Proof.
  unfold C66_jobs. cbn [good_jobs].
  split; [good_job_tac (@nil bytes) (bs "a.txt")|]. split; [good_job_tac (@nil bytes) (bs "a.txt")|]. split; [good_job_tac (@nil bytes) (bs "a.txt")|].
  split; [good_job_tac [bs "sub"] (bs "new")|]. split; [good_job_tac [bs "sub"] (bs "new")|]. exact I.
Qed.

Example C66_case :
  good_jobs [bs "srv"] 400 disk (contents disk) C66_jobs
  /\ answers_to [bs "srv"] C66_jobs (contents disk) = [Some (bs "old text"); Some []; Some (bs "hello, world, how are you now?"); Some []; Some (bs "x")]
  /\ after_all [bs "srv"] C66_jobs (contents disk) [bs "srv"; bs "a.txt"] = Some (bs "hello, world, how are you now?")
  /\ after_all [bs "srv"] C66_jobs (contents disk) [bs "key"] = Some (bs "secret")
  /\ exists n cs, many_reach NoStd 8 (fun _ => []) (file_handler [bs "srv"] say 3) 4 400 7 3 disk (map run_job C66_jobs) n cs
       /\ all_ended NoStd 8 (fun _ => []) (file_handler [bs "srv"] say 3) 4 400 disk (map run_job C66_jobs) cs.
Proof.
  split; [exact C66_good|]. split; [vm_compute; reflexivity|]. split; [vm_compute; reflexivity|]. split; [vm_compute; reflexivity|].
  destruct (C66_share [bs "srv"] say 3 NoStd 8 (fun _ => []) 4 400 7 3 ltac:(lia) ltac:(lia) ltac:(lia) ltac:(lia) ltac:(lia) disk C66_jobs C66_good) as (H & _).
  destruct (H 0 _ (many_start _ _ _ _ _ _ _ _ _ _)) as (_ & m & cs & K1 & _ & K2). now exists m, cs.
Qed.
