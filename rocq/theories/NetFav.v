(** A socket that goes on where the blocking one stops. *)
From Verif Require Import Base Utf8 Case Num Io Parser Types Message Outgoing Client Server Transport.
From Verif Require Import Lemmas ReadLemmas SimLemmas OutLemmas KeepLemmas POut NetLemmas Net NetSock NetStep.

(** It has the answers of a blocking socket; after the last answer to a read it delivers [f_more], item by item, and
    after the last answer to a write it takes everything. *)
Record fsock := mkF { f_reads : list bytes; f_writes : list nat; f_end : bool; f_more : list item; f_sent : bytes; f_taken : bytes }.

Definition f_read : reader fsock := fun n s =>
  match n with
  | O => (Ok [], s)
  | _ =>
      match f_reads s with
      | d :: t =>
          (Ok (firstn n d),
           mkF (match skipn n d with [] => t | d' => d' :: t end) (f_writes s) (f_end s) (f_more s) (f_sent s) (f_taken s ++ firstn n d))
      | [] =>
          if f_end s then (Ok [], s)
          else match f_more s with
               | [] => (Ok [], s)
               | B b :: t => (Ok [b], mkF [] (f_writes s) (f_end s) t (f_sent s) (f_taken s ++ [b]))
               | E e :: t => (Err e, mkF [] (f_writes s) (f_end s) t (f_sent s) (f_taken s))
               end
      end
  end.
Definition f_write (data : bytes) (s : fsock) : res nat * fsock :=
  match data with
  | [] => (Ok 0, s)
  | _ =>
      match f_writes s with
      | k :: t => (Ok (clip k data), mkF (f_reads s) t (f_end s) (f_more s) (f_sent s ++ firstn (clip k data) data) (f_taken s))
      | [] => (Ok (length data), mkF (f_reads s) [] (f_end s) (f_more s) (f_sent s ++ data) (f_taken s))
      end
  end.
Definition f_writer : writer fsock := mkWriter f_write (fun s => (Ok tt, s)).

Ltac f_cases s := destruct s as [rs ws en mo se ta]; cbn [f_reads f_writes f_end f_more f_sent f_taken] in *.

Lemma clip_bounds k x data : 0 < clip k (x :: data) <= length (x :: data).
Proof. unfold clip. cbn [length]. lia. Qed.

Lemma f_honest : honest f_writer f_sent.
Proof.
  split.
  - intros data w r w' H. cbn in H. unfold f_write in H. destruct data as [|x data]; [injection H as <- <-; cbn; split; auto; now rewrite app_nil_r|].
    f_cases w. destruct ws as [|k ws]; injection H as <- <-; cbn [f_sent].
    + split; auto. f_equal. symmetry. apply (firstn_all (x :: data)).
    + split; auto. apply clip_bounds.
  - intros w r w' H. injection H as <- <-. auto.
Qed.
Lemma f_reliable : reliable f_writer.
Proof.
  split.
  - intros data w H. cbn. unfold f_write. destruct data as [|x data]; [easy|]. f_cases w.
    destruct ws as [|k ws]; do 2 eexists; (split; [reflexivity|]); [cbn; lia|apply clip_bounds].
  - intros w. cbn. eauto.
Qed.
Lemma f_silent : silent f_read f_sent.
Proof.
  intros n s. unfold f_read. destruct n; auto. f_cases s. destruct rs; auto. destruct en; auto. destruct mo as [|[b|e] mo]; auto.
Qed.

Definition fpos (s : fsock) (xs : list item) : Prop :=
  xs = map B (concat (f_reads s)) ++ (if f_end s then [] else f_more s) /\ Forall (fun d => d <> []) (f_reads s).
Lemma fpos_read : reader_pos f_read fpos.
Proof.
  intros n s xs Hn [-> Hr]. destruct n as [|n]; [lia|]. f_cases s. unfold f_read. cbn [f_reads f_writes f_end f_more f_sent f_taken].
  destruct rs as [|d rs]; cbn [concat map app].
  - destruct en.
    + eexists. split; [reflexivity|]. split; auto.
    + destruct mo as [|[b|e] mo].
      * eexists. split; [reflexivity|]. split; auto.
      * do 3 eexists. split; [reflexivity|]. split; [easy|]. split; [cbn; lia|]. split; [reflexivity|]. split; auto.
      * eexists. split; [reflexivity|]. split; auto.
  - inversion Hr as [|? ? Hd Hrs]; subst. destruct d as [|x d]; [easy|]. cbn [map app].
    do 3 eexists. split; [reflexivity|]. split; [easy|]. split; [rewrite firstn_length; lia|].
    split; [|split; [reflexivity|]].
    + cbn [f_reads f_end f_more]. change (B x :: map B (d ++ concat rs) ++ (if en then [] else mo))
        with (map B ((x :: d) ++ concat rs) ++ (if en then [] else mo)).
      rewrite <- (firstn_skipn (S n) (x :: d)) at 1. destruct (skipn (S n) (x :: d)); cbn [concat]; rewrite !map_app, ?app_nil_r, <- !app_assoc; auto.
    + cbn [f_reads]. destruct (skipn (S n) (x :: d)) eqn:E; auto. constructor; auto. easy.
Qed.

(** The one goes on as long as the other has answers. *)
Section Fav.
  Context (M : list item).
  Definition fR (a : sock) (b : fsock) : Prop :=
    k_stop a = None /\ f_reads b = k_reads a /\ f_writes b = k_writes a /\ f_end b = k_end a /\ f_sent b = k_sent a /\ f_taken b = k_taken a
    /\ f_more b = M.
  Definition fQ (a : sock) (b : fsock) : Prop :=
    match k_stop a with
    | Some (AWrite d) => prefix (k_sent a ++ d) (f_sent b)
    | Some (ARead n) => M = [] \/ length (f_more b) < length M
    | None => False
    end.
  Lemma f_more_less n s : length (f_more (snd (f_read n s))) <= length (f_more s).
  Proof.
    unfold f_read. destruct n; auto. f_cases s. destruct rs; auto. destruct en; auto. destruct mo as [|[b|e] mo]; cbn; lia.
  Qed.
  Lemma f_write_same x s : f_more (snd (f_write x s)) = f_more s /\ exists y, f_sent (snd (f_write x s)) = f_sent s ++ y.
  Proof.
    unfold f_write. destruct x as [|x0 x]; [split; auto; exists []; now rewrite app_nil_r|]. f_cases s.
    destruct ws; cbn; split; eauto.
  Qed.
  Lemma fQ_read n a b : fQ a b -> fQ a (snd (f_read n b)).
  Proof.
    unfold fQ. destruct (k_stop a) as [[m|d]|]; auto.
    - intros [H|H]; auto. right. pose proof (f_more_less n b). lia.
    - now rewrite f_silent.
  Qed.
  Lemma fQ_write x a b : fQ a b -> fQ a (snd (f_write x b)).
  Proof.
    unfold fQ. destruct (f_write_same x b) as [E1 [y E2]]. rewrite E1, E2. destruct (k_stop a) as [[m|d]|]; auto.
    intros [t ->]. rewrite <- app_assoc. now exists (t ++ y).
  Qed.
  Ltac frozen := let H := fresh in let Eq := fresh in
    intros a b H; unfold fQ in *; destruct (k_stop a) as [?q|] eqn:Eq; [|contradiction];
    unfold sock_read, sock_writer, sock_write; cbn [wr fl]; rewrite Eq; cbn [snd]; now rewrite Eq.
  Ltac open := unfold sock_read, f_read, sock_writer, f_writer, sock_write, f_write;
    cbn [wr fl k_reads k_writes k_end k_sent k_taken k_stop f_reads f_writes f_end f_more f_sent f_taken].
  Ltac pair a b := destruct a as [rs ws en se ta st], b as [rs' ws' en' mo se' ta']; cbn [k_reads k_writes k_end k_sent k_taken k_stop f_reads f_writes f_end f_more f_sent f_taken] in *.

  Lemma fav_read : laxr fQ (fun s => s) (fun s => s) fR sock_read f_read.
  Proof.
    intros n. split; [|frozen|intros a b; apply fQ_read].
    intros a b (K1 & K2 & K3 & K4 & K5 & K6 & K7). pair a b. subst. open. destruct n as [|n]; [left; now repeat split|].
    destruct rs as [|x rs].
    - destruct en; [left; now repeat split|]. right. unfold fQ. cbn [snd k_stop]. destruct M as [|[x|e] M'] eqn:EM; cbn; auto.
    - left. cbn [fst snd]. repeat split.
  Qed.
  Lemma fav_write d : laxg fQ (fun s => s) (fun s => s) fR (fun s => s) (fun s => s) fR (wr sock_writer d) (wr f_writer d).
  Proof.
    split; [|frozen|intros a b; apply fQ_write].
    intros a b (K1 & K2 & K3 & K4 & K5 & K6 & K7). pair a b. subst. open. destruct d as [|x d]; [left; now repeat split|].
    destruct ws as [|k ws].
    - right. unfold fQ. cbn [snd k_stop k_sent f_sent]. exists []. now rewrite app_nil_r.
    - left. now repeat split.
  Qed.
  Lemma fav_flush : laxg fQ (fun s => s) (fun s => s) fR (fun s => s) (fun s => s) fR (fl sock_writer) (fl f_writer).
  Proof.
    split; [|frozen|intros a b H; exact H].
    intros a b (K1 & K2 & K3 & K4 & K5 & K6 & K7). pair a b. subst. open. left. now repeat split.
  Qed.

  (** A program on both. *)
  Lemma fav {A} (F : process A) s b : lax_process F -> fR s b ->
    (fst (F sock sock_read sock_writer s) = fst (F fsock f_read f_writer b)
     /\ fR (snd (F sock sock_read sock_writer s)) (snd (F fsock f_read f_writer b)))
    \/ fQ (snd (F sock sock_read sock_writer s)) (snd (F fsock f_read f_writer b)).
  Proof. intros HF H. exact (lg_both _ _ _ _ _ _ _ _ _ (HF _ _ _ _ _ _ _ _ fav_read fav_write fav_flush) s b H). Qed.
End Fav.

Definition goes_on (M : list item) (s : sock) : fsock := mkF (k_reads s) (k_writes s) (k_end s) M (k_sent s) (k_taken s).
Lemma goes_on_R M s : k_stop s = None -> fR M s (goes_on M s).
Proof. intros H. now repeat split. Qed.

(** *** Programs that only write, and programs that only read *)
Definition no_reader {S} : reader S := fun n s => (Panic, s).
Definition no_writer {S} : writer S := mkWriter (fun _ s => (Panic, s)) (fun s => (Panic, s)).
(** The reader plays no part in [F]. *)
Definition only_writes {A} (F : process A) : Prop := forall S rd rd' (wt : writer S) s, F S rd wt s = F S rd' wt s.
Definition only_reads {A} (F : process A) : Prop := forall S rd (wt wt' : writer S) s, F S rd wt s = F S rd wt' s.

Lemma writes_keep {A} (F : process A) s : lax_process F -> only_writes F -> k_stop s = None ->
  let s' := snd (F sock sock_read sock_writer s) in
  (forall n, k_stop s' <> Some (ARead n)) /\ k_reads s' = k_reads s /\ k_end s' = k_end s /\ k_taken s' = k_taken s.
Proof.
  intros HF Ho Hs s'. unfold s'. rewrite (Ho _ _ no_reader).
  apply (process_keep F no_reader sock_writer
    (fun s' => (forall n, k_stop s' <> Some (ARead n)) /\ k_reads s' = k_reads s /\ k_end s' = k_end s /\ k_taken s' = k_taken s)); auto.
  - split; auto.
    + intros d a (H1 & H2 & H3 & H4). cbn. unfold sock_write. destruct (k_stop a) eqn:E; cbn [snd]; [now rewrite E|].
      destruct d; cbn [snd]; [now rewrite E|]. destruct (k_writes a); now cbn.
    + intros a H. cbn [fl sock_writer]. assert (E : forall x y : res unit, snd (match k_stop a with Some _ => (x, a) | None => (y, a) end) = a) by (now destruct (k_stop a)).
      now rewrite E.
  - rewrite Hs. now repeat split.
Qed.
Lemma reads_keep {A} (F : process A) s : lax_process F -> only_reads F -> k_stop s = None ->
  let s' := snd (F sock sock_read sock_writer s) in
  (forall d, k_stop s' <> Some (AWrite d)) /\ k_writes s' = k_writes s /\ k_sent s' = k_sent s.
Proof.
  intros HF Ho Hs s'. unfold s'. rewrite (Ho _ _ _ no_writer).
  apply (process_keep F sock_read no_writer
    (fun s' => (forall d, k_stop s' <> Some (AWrite d)) /\ k_writes s' = k_writes s /\ k_sent s' = k_sent s)); auto.
  - split; auto. intros n a (H1 & H2 & H3). unfold sock_read. destruct (k_stop a) eqn:E; cbn [snd]; [now rewrite E|].
    destruct n; cbn [snd]; [now rewrite E|]. destruct (k_reads a); [destruct (k_end a)|]; cbn; rewrite ?E; now auto.
  - rewrite Hs. now repeat split.
Qed.
Lemma stopped_keep {A} (F : process A) s q : lax_process F -> k_stop s = Some q -> snd (F sock sock_read sock_writer s) = s.
Proof. intros HF H. apply (process_keep F _ _ (fun x => x = s) s HF (frozen_kept s q H)). reflexivity. Qed.

(** *** Where a program leaves the body *)
From Verif Require Import NumLemmas ChunkSpec ChunkLemmas BodyLemmas HeadLemmas BlockLemmas MsgLemmas PBody PHead PReuse PServer.

Lemma items_exact_suffix bld xs : forall n acc, exists pre, xs = pre ++ snd (items_exact bld n acc xs).
Proof.
  induction xs as [|[b|e] xs IH]; intros [|n] acc; cbn [items_exact snd]; try (now exists []).
  - destruct (IH n (acc ++ [b])) as [pre H]. exists (B b :: pre). cbn. now rewrite <- H.
  - destruct (is_retry bld e); cbn [snd]; [|now exists [E e]]. destruct (IH (S n) acc) as [pre H]. exists (E e :: pre). cbn [app]. now rewrite <- H.
Qed.
Lemma chunk_head_suffix bld xs : exists pre, xs = pre ++ snd (chunk_head bld xs).
Proof.
  unfold chunk_head, expect_next. destruct (items_line_suffix bld xs []) as [pre H].
  destruct (items_line bld [] xs) as [[[l|]|e| |] ys]; cbn [sbind snd] in *; eauto.
Qed.
Lemma decodes_suffix bld o xs out rest : decodes bld o xs out rest -> exists pre, xs = pre ++ rest.
Proof.
  induction 1 as [xs rest H|xs e rest H|xs n xs1 out rest H Hd [pre IH]|n b xs out rest H Hd [pre IH]|n e xs H|n H|xs x xs1 out rest H Hd [pre IH]|xs e xs1 H].
  - destruct (chunk_head_suffix bld xs) as [pre K]. rewrite H in K. eauto.
  - destruct (chunk_head_suffix bld xs) as [pre K]. rewrite H in K. eauto.
  - destruct (chunk_head_suffix bld xs) as [pre' K]. rewrite H in K. cbn in K. exists (pre' ++ pre). now rewrite <- app_assoc, <- IH.
  - exists (B b :: pre). cbn. now rewrite <- IH.
  - now exists [E e].
  - now exists [].
  - destruct (items_exact_suffix bld xs 2 []) as [pre' K]. rewrite H in K. cbn in K. exists (pre' ++ pre). now rewrite <- app_assoc, <- IH.
  - destruct (items_exact_suffix bld xs 2 []) as [pre' K]. rewrite H in K. eauto.
Qed.

(** A bound on what is left never grows. *)
Lemma reader_pos_bound {T} (rd : reader T) R L : reader_pos rd R -> reader_pos rd (fun t xs => R t xs /\ length xs <= L).
Proof.
  intros HR n t xs Hn [H1 H2]. pose proof (HR n t xs Hn H1) as H. destruct xs as [|[b|e] xs].
  - destruct H as (t' & H3 & H4). exists t'. auto.
  - destruct H as (got & xs' & t' & H3 & H4 & H5 & H6 & H7). exists got, xs', t'. repeat split; auto.
    rewrite H6, app_length in H2. lia.
  - destruct H as (t' & H3 & H4). exists t'. cbn in H2. repeat split; auto. lia.
Qed.

(** Programs that have seen the end of the body when they return, unless a read fails. *)
CoInductive to_end {A} : prog A -> Prop :=
| end_read n k : 0 < n -> (forall d, d <> [] -> to_end (k (Got d))) -> reads_some (k (Got [])) -> (forall e, reads_some (k (Failed e))) ->
    to_end (ReadBody n k)
| end_length k : (forall o, to_end (k o)) -> to_end (BodyLength k).

Lemma to_end_reads_some {A} : forall p : prog A, to_end p -> reads_some p.
Proof.
  cofix IH. intros p H. destruct H as [n k Hn H1 H2 H3|k H1].
  - constructor; auto. intros [[|x d]|e]; auto. apply IH, H1. easy.
  - constructor. intros o. apply IH, H1.
Qed.
Lemma slurp_to_end {A} n (done : bytes -> prog A) failed : 0 < n ->
  (forall d, reads_some (done d)) -> (forall e, reads_some (failed e)) -> forall acc, to_end (slurp n done failed acc).
Proof.
  intros Hn Hd Hf. cofix IH. intros acc. rewrite slurp_eq. constructor; auto.
  intros [|x d] H; [easy|]. apply IH.
Qed.

Section Leaves.
  Context {T A : Type} (bld : build) (rd : reader T) (R : T -> list item -> Prop) (HR : reader_pos rd R) (bfuel : nat) (len : option N)
    (zs : list item).
  Definition bR (b : hbody T) (out : list item) : Prop := exists c, b = BChunked len c /\ chunk_rel bld R bfuel zs c out.
  Lemma bR_read : reader_pos (body_read bld rd bfuel) bR.
  Proof using HR.
    intros n b out Hn (c & -> & Hc). rewrite body_read_chunked. pose proof (chunked_read_pos bld rd R HR bfuel zs n c out Hn Hc) as H.
    destruct out as [|[x|e] out].
    - destruct H as (c' & -> & H). eexists. split; [reflexivity|]. now exists c'.
    - destruct H as (got & xs' & c' & -> & H1 & H2 & H3 & H4). exists got, xs'. eexists. split; [reflexivity|]. repeat split; auto. now exists c'.
    - destruct H as (c' & -> & H). eexists. split; [reflexivity|]. now exists c'.
  Qed.
  Lemma bR_end n b : 0 < n -> bR b [] -> R (body_reader (snd (body_read bld rd bfuel n b))) zs.
  Proof using HR.
    intros Hn (c & -> & Hc). rewrite body_read_chunked.
    pose proof (chunked_read_post bld rd R HR bfuel zs n c [] Hn Hc) as (t' & E & H). rewrite E. cbn. apply H.
  Qed.
  Lemma bR_left b out : bR b out -> exists pre, R (body_reader b) (pre ++ zs).
  Proof.
    intros (c & -> & Hc). destruct c as [t|lim t|t]; cbn [body_reader chunk_rel] in *.
    - destruct Hc as (xs & H1 & H2 & _). destruct (decodes_suffix _ _ _ _ _ H2) as [pre ->]. eauto.
    - destruct Hc as (xs & H1 & H2 & _). destruct (decodes_suffix _ _ _ _ _ H2) as [pre ->]. eauto.
    - exists []. apply Hc.
  Qed.

  Lemma run_prog_left : forall fuel (p : prog A) b data x b', bR b (map B data) -> reads_some p ->
    run_prog bld rd bfuel fuel p b = (x, b') -> exists data', bR b' (map B data').
  Proof using HR.
    induction fuel as [|f IH]; intros p b data x b' Hb Hp H; cbn [run_prog] in H; [injection H as <- <-; eauto|].
    destruct p as [a|n k|k]; [injection H as <- <-; eauto| |].
    - inversion Hp as [|n' k' Hn Hk|]; subst. pose proof (bR_read n b (map B data) Hn Hb) as Hr.
      destruct data as [|d data]; cbn [map] in Hr.
      + destruct Hr as (b1 & E1 & Hb1). rewrite E1 in H. exact (IH _ b1 [] _ _ Hb1 (Hk _) H).
      + destruct Hr as (got & xs' & b1 & E1 & Hg & Hlen & Ex & Hb1). rewrite E1 in H.
        change (B d :: map B data) with (map B (d :: data)) in Ex. apply map_eq_app in Ex as (g & rest & _ & _ & <-).
        exact (IH _ b1 rest _ _ Hb1 (Hk _) H).
    - inversion Hp as [| |k' Hk]; subst. exact (IH _ _ data _ _ Hb (Hk _) H).
  Qed.
  (** After the end. *)
  Lemma run_prog_past : forall fuel (p : prog A) b x b', bR b [] -> R (body_reader b) zs -> reads_some p ->
    run_prog bld rd bfuel fuel p b = (x, b') -> R (body_reader b') zs.
  Proof using HR.
    induction fuel as [|f IH]; intros p b x b' Hb Hz Hp H; cbn [run_prog] in H; [now injection H as <- <-|].
    destruct p as [a|n k|k]; [now injection H as <- <-| |].
    - inversion Hp as [|n' k' Hn Hk|]; subst. destruct (bR_read n b [] Hn Hb) as (b1 & E1 & Hb1). rewrite E1 in H.
      pose proof (bR_end n b Hn Hb) as Hz1. rewrite E1 in Hz1. exact (IH _ b1 _ _ Hb1 Hz1 (Hk _) H).
    - inversion Hp as [| |k' Hk]; subst. exact (IH _ _ _ _ Hb Hz (Hk _) H).
  Qed.
  Lemma run_prog_to_end : forall fuel (p : prog A) b data a b', bR b (map B data) -> to_end p ->
    run_prog bld rd bfuel fuel p b = (Ok a, b') -> R (body_reader b') zs.
  Proof using HR.
    induction fuel as [|f IH]; intros p b data a b' Hb Hp H; cbn [run_prog] in H; [discriminate|].
    destruct p as [a0|n k|k]; [inversion Hp| |].
    - inversion Hp as [n' k' Hn H1 H2 H3|]; subst. pose proof (bR_read n b (map B data) Hn Hb) as Hr.
      destruct data as [|d data]; cbn [map] in Hr.
      + destruct Hr as (b1 & E1 & Hb1). rewrite E1 in H. pose proof (bR_end n b Hn Hb) as Hz1. rewrite E1 in Hz1.
        exact (run_prog_past _ _ b1 _ _ Hb1 Hz1 H2 H).
      + destruct Hr as (got & xs' & b1 & E1 & Hg & Hlen & Ex & Hb1). rewrite E1 in H.
        change (B d :: map B data) with (map B (d :: data)) in Ex. apply map_eq_app in Ex as (g & rest & _ & _ & <-).
        exact (IH _ b1 rest _ _ Hb1 (H1 _ Hg) H).
    - inversion Hp as [|k' Hk]; subst. exact (IH _ _ data _ _ Hb (Hk _) H).
  Qed.
End Leaves.
