(** PropMany.v -- C115: any number of Senders, each with any number of connections, and one Receiver. *)
From Verif Require Import Base BaseFacts Spec MTime MTransport MSData MMessage MParse MTokenize MReceiver MSender
  LTime LTokenize LParse LRound LTransport PropMessage PropParse PropTransport LLines PropLines PropReceiver LReceiver PropRecvSys PropRecvLive LSender PropSender PropSender2 PropSender3 MSyslog MSenderFine PropProgram PropFine PropEndToEnd PropEndToEnd2 PropEndToEnd3 PropConcurrent PropGoroutines.

(** Sender with this history has sent the messages ms, all of them written, failing writes (if any)
    having stopped between two frames *)
Definition served (uni : N -> bool) (t : transport) (ms : list message) (sacts : list saction) (ss : sstate) : Prop :=
  srun sender_init sacts = Some ss /\ sends sacts = critical_sections uni t ms /\ clean_failures sacts /\ s_queue ss = [].

(** The reads of a connection of the receiver are the first bytes written on its other end; when
    end-of-file is read, all of them *)
Definition carried (reads : list (bytes * option read_err)) (written : bytes) : Prop :=
  exists unread, stream reads ++ unread = written /\ (ended reads = false \/ (unread = [] /\ eof_last reads)).

(** Connection i of the receiver, if it was ever read, is connection number [snd (peer i)] of sender number
    [fst (peer i)], one of n; no two are the same.  Sender j opened [width j] connections and wrote [wire j k]
    on the k-th. *)
Definition network (n : nat) (width : nat -> nat) (wire : nat -> nat -> bytes) (peer : nat -> nat * nat) (racts : list raction) : Prop :=
  (forall i, reads_of i racts <> [] -> (fst (peer i) < n)%nat /\ (snd (peer i) < width (fst (peer i)))%nat /\
     carried (reads_of i racts) (wire (fst (peer i)) (snd (peer i)))) /\
  (forall i i', reads_of i racts <> [] -> reads_of i' racts <> [] -> peer i = peer i' -> i = i').

Definition tag_dec : forall a b : nat * nat, {a = b} + {a <> b}.
Proof. decide equality; apply Nat.eq_dec. Defined.

(** What Receive returned, in the order it did (conn, pair), is this list of messages tagged with their
    sender and its connection *)
Definition came_from (uni : N -> bool) (order : nat -> list sdid) (n : nat) (width : nat -> nat) (peer : nat -> nat * nat)
    (x : (nat * nat) * message) (r : nat * pair_t) : Prop :=
  fst x = peer (fst r) /\ (fst (fst x) < n)%nat /\ (snd (fst x) < width (fst (fst x)))%nat /\ delivered_as uni order (snd x) (snd r).

(** ** lists *)
Lemma finite_choice {A} (P : nat -> A -> Prop) (d : A) n : (forall j, (j < n)%nat -> exists x, P j x) -> exists f, forall j, (j < n)%nat -> P j (f j).
Proof.
  induction n as [|n IH]; intros H; [exists (fun _ => d); intros j Hj; lia|].
  destruct IH as [f Hf]; [intros j Hj; apply H; lia|]. destruct (H n) as [x Hx]; [lia|].
  exists (fun j => if Nat.eq_dec j n then x else f j). intros j Hj. destruct (Nat.eq_dec j n) as [->|Hn]; [exact Hx|]. apply Hf. lia.
Qed.

Lemma snoc_prefix {A} (a b r : list A) x c r' : a ++ r = c -> (b ++ [x]) ++ r' = c -> length a = length b -> a = b /\ exists r'', r = x :: r''.
Proof.
  intros E1 E2 L. rewrite <- app_assoc in E2. assert (E : a ++ r = b ++ [x] ++ r') by congruence.
  pose proof (app_inv_length a _ _ _ E L) as ->. split; [reflexivity|]. apply app_inv_head in E. exists r'. exact E.
Qed.

Lemma f2_length {A B} (R : A -> B -> Prop) l l' : Forall2 R l l' -> length l = length l'.
Proof. induction 1; cbn; congruence. Qed.

(** If what was received from each connection is a prefix of its group, tag what was received. *)
Lemma tagging {B} (R : message -> B -> Prop) (peer : nat -> nat * nat) (group : nat * nat -> list message) (l : list (nat * B)) :
  (forall i i' b b', In (i, b) l -> In (i', b') l -> peer i = peer i' -> i = i') ->
  (forall i b, In (i, b) l -> exists g1 g2, group (peer i) = g1 ++ g2 /\ Forall2 R g1 (from Nat.eq_dec i l)) ->
  exists tagged, Forall2 (fun x r => fst x = peer (fst r) /\ R (snd x) (snd r)) tagged l /\
    (forall jk, exists later, group jk = from tag_dec jk tagged ++ later) /\
    (forall i b, In (i, b) l -> length (from tag_dec (peer i) tagged) = length (from Nat.eq_dec i l)) /\
    (forall jk, (forall i b, In (i, b) l -> peer i <> jk) -> from tag_dec jk tagged = []).
Proof.
  induction l as [|[i b] l IH] using rev_ind; intros Hinj Hg.
  - exists []. split; [constructor|]. split; [intros jk; exists (group jk); reflexivity|]. split; [intros i b []|reflexivity].
  - destruct IH as (tagged & T1 & T2 & T3 & T4).
    { intros i1 i2 b1 b2 H1 H2. apply (Hinj i1 i2 b1 b2); apply in_app_iff; left; assumption. }
    { intros i1 b1 H1. destruct (Hg i1 b1) as (g1 & g2 & E & F); [apply in_app_iff; left; exact H1|]. rewrite from_app in F.
      apply Forall2_app_inv_r in F as (u & v & F1 & _ & ->). exists u, (v ++ g2). rewrite app_assoc. auto. }
    destruct (Hg i b) as (g1 & g2 & E & F); [apply in_app_iff; right; left; reflexivity|]. rewrite from_app, from_one_same in F.
    apply Forall2_app_inv_r in F as (u & v & F1 & F2 & ->). inversion F2 as [|m ? ? ? Hm F3]; subst. inversion F3; subst. clear F2 F3.
    assert (L : length (from tag_dec (peer i) tagged) = length u).
    { rewrite (f2_length _ _ _ F1). destruct (in_dec Nat.eq_dec i (map fst l)) as [Hi|Hi].
      - apply in_map_iff in Hi as ([i' b'] & Ei & Hi). cbn in Ei. subst i'. exact (T3 i b' Hi).
      - rewrite T4.
        + clear -Hi. induction l as [|[i' b'] l IH]; [reflexivity|]. change ((i', b') :: l) with ([(i', b')] ++ l). rewrite from_app. rewrite from_one_other; [apply IH; intros Hx; apply Hi; right; exact Hx|].
          intros ->. apply Hi. left. reflexivity.
        + intros i' b' Hi' Ep. apply Hi, in_map_iff. exists (i', b'). split; [|exact Hi']. cbn. apply (Hinj i' i b' b); [apply in_app_iff; left; exact Hi'|apply in_app_iff; right; left; reflexivity|exact Ep]. }
    destruct (T2 (peer i)) as [later El]. symmetry in El, E. destruct (snoc_prefix _ _ _ _ _ _ El E L) as (Eu & r & Er).
    exists (tagged ++ [(peer i, m)]). split; [apply Forall2_app; [exact T1|constructor; [split; [reflexivity|exact Hm]|constructor]]|]. split; [|split].
    + intros jk. rewrite from_app. destruct (tag_dec (peer i) jk) as [<-|Hn].
      * rewrite from_one_same. exists r. rewrite <- app_assoc. cbn [app]. rewrite <- Er. symmetry. exact El.
      * rewrite from_one_other by congruence. rewrite app_nil_r. apply T2.
    + intros i' b' Hi'. rewrite !from_app, !app_length. apply in_app_iff in Hi' as [Hi'|[Hi'|[]]].
      * rewrite (T3 i' b' Hi'). f_equal. destruct (Nat.eq_dec i i') as [<-|Hn]; [rewrite !from_one_same; reflexivity|]. rewrite !from_one_other; try congruence; [reflexivity|].
        intros Ep. apply Hn. symmetry. apply (Hinj i' i b' b); [apply in_app_iff; left; exact Hi'|apply in_app_iff; right; left; reflexivity|symmetry; exact Ep].
      * injection Hi' as <- <-. rewrite L, (f2_length _ _ _ F1), !from_one_same. reflexivity.
    + intros jk Hn. rewrite from_app, T4, from_one_other; [reflexivity| |].
      * apply (Hn i b). apply in_app_iff. right. left. reflexivity.
      * intros i' b' Hi'. apply (Hn i' b'). apply in_app_iff. left. exact Hi'.
Qed.

(** ** one connection *)
(** What a connection of the receiver gave is the messages of a first part of its group, and its decoder
    does not crash; of the whole group, once all is read. *)
Definition gives (uni : N -> bool) (order : nat -> list sdid) (t : transport) (g : list message) (reads : list (bytes * option read_err)) : Prop :=
  o_next (tok_run t tok_init reads) <> TCrash /\
  exists g1 g2, g = g1 ++ g2 /\ Forall2 (delivered_as uni order) g1 (o_sent (tok_run t tok_init reads)) /\
    (stream reads = concat (map (encode t) (encodings uni g)) -> g2 = []).

Lemma open_eof_last reads : ended reads = false -> eof_last reads.
Proof. induction reads as [|[c e] more IH]; cbn; [auto|]. intros H. apply orb_false_iff in H as [H1 H2]. split; [congruence|auto]. Qed.

Lemma framed_gives uni order g reads : Forall fits (encodings uni g) -> Forall (deliverable uni order) g ->
  carried reads (concat (map (encode TRFC5425) (encodings uni g))) -> gives uni order TRFC5425 g reads.
Proof.
  intros Hf Hd (unread & Hs & Hor).
  assert (Hfull : stream reads = concat (map (encode TRFC5425) (encodings uni g)) -> eof_last reads ->
    Forall2 (delivered_as uni order) g (o_sent (tok_run TRFC5425 tok_init reads)) /\ o_next (tok_run TRFC5425 tok_init reads) <> TCrash).
  { intros Hst He. destruct (C30_reassembly (encodings uni g) reads Hf) as (H1 & _ & H3); [|exact Hst|exact He|].
    - destruct (encodings uni g) as [|d ds] eqn:Ed; [left; reflexivity|right]. pose proof (frame_length TRFC5425 (last (d :: ds) [])).
      assert (Hin : In (last (d :: ds) []) (encodings uni g)). { rewrite Ed. destruct (exists_last (l := d :: ds)) as (l & y & E); [discriminate|]. rewrite E, last_last. apply in_app_iff. right. left. reflexivity. }
      pose proof (encodings_length _ _ _ Hin). lia.
    - split; [apply deliverable_pairs; assumption|]. destruct (ended reads); [rewrite H3; discriminate|]. destruct H3 as (st & -> & _). discriminate. }
  assert (Hl : eof_last reads) by (destruct Hor as [Hor|[_ Hor]]; [apply open_eof_last; exact Hor|exact Hor]).
  destruct (list_eq_dec N.eq_dec (stream reads) (concat (map (encode TRFC5425) (encodings uni g)))) as [Heq|Hne].
  - destruct (Hfull Heq Hl) as [H1 H2]. split; [exact H2|]. exists g, []. rewrite app_nil_r. auto.
  - destruct Hor as [He|[-> _]]; [|rewrite app_nil_r in Hs; contradiction].
    destruct (C30_at_every_moment (encodings uni g) reads unread Hf Hs He) as (d1 & d2 & st & Ed & H2 & _ & H3 & _).
    split; [rewrite H3; discriminate|]. destruct (encodings_split uni order g Hd d1 d2 Ed) as (g1 & g2 & -> & E1 & E2). apply Forall_app in Hd as [Hd1 Hd2].
    exists g1, g2. split; [reflexivity|]. split; [apply deliverable_pairs; [exact Hd1|rewrite E1; exact H2]|]. intros; contradiction.
Qed.

Lemma lines_gives uni order t c g reads : delimiter t = Some c -> Forall (plain c) g -> ~ cut_at_dash uni t g reads ->
  carried reads (concat (map (encode t) (encodings uni g))) -> gives uni order t g reads.
Proof.
  intros Hc Hg Hn (unread & Hs & Hor). pose proof Hc as Hd. rewrite delimiter_delim in Hd.
  assert (Hl : eof_last reads) by (destruct Hor as [Hor|[_ Hor]]; [apply open_eof_last; exact Hor|exact Hor]).
  pose proof Hn as Hn'. rewrite (cut_stops uni t c g _ Hg) in Hn'.
  destruct (list_eq_dec N.eq_dec (stream reads) (concat (map (encode t) (encodings uni g)))) as [Heq|Hne].
  - rewrite (plain_encodings uni c g Hg) in Heq. destruct (C34_every_segmentation t c _ _ Hc (plain_lines c g Hg) Heq Hl Hn') as (H2 & _).
    split.
    + pose proof (C34_crash_iff t c (map line_of g) reads Hc (plain_lines c g Hg) Heq Hl) as Hcr. intros Hx. apply Hn', Hcr. exact Hx.
    + exists g, []. rewrite app_nil_r. split; [reflexivity|]. split; [|auto].
      apply deliverable_pairs; [eapply Forall_impl; [|exact Hg]; intros; eapply plain_deliverable; eassumption|].
      rewrite (plain_encodings uni c g Hg). clear -H2. induction H2 as [|l p ls sent (H & Hn & _) H2 IH]; [constructor|]. cbn [map]. constructor; [|exact IH]. rewrite Hn. exact H.
  - destruct Hor as [He|[-> _]]; [|rewrite app_nil_r in Hs; contradiction].
    rewrite (plain_encodings uni c g Hg), (wire_lines t c _ Hd) in Hs.
    destruct (run_lines_unread t c reads tok_init (map line_of g) unread Hd (plain_lines c g Hg) Hs) as [(Hb & _)|(_ & ls1 & ls2 & st & E1 & E2 & E3 & _)].
    { left. reflexivity. }
    { intros (before & ws & text & after & _ & E0). cbn in E0. symmetry in E0. apply app_eq_nil in E0 as [_ E0]. apply app_eq_nil in E0 as [_ E0]. discriminate. }
    { exact He. }
    { exfalso. apply Hn', (stops_bad t c _ _ Hd). exact Hb. }
    split; [rewrite E3; discriminate|]. apply map_eq_app in E1 as (g1 & g2 & -> & <- & <-). apply Forall_app in Hg as [Hg1 Hg2].
    exists g1, g2. split; [reflexivity|]. split; [|intros; contradiction].
    apply deliverable_pairs; [eapply Forall_impl; [|exact Hg1]; intros; eapply plain_deliverable; eassumption|].
    rewrite E2, (plain_encodings uni c g1 Hg1), !map_map. pose proof (plain_lines c g1 Hg1) as Hok. clear -Hok.
    induction g1 as [|m g1 IH]; [constructor|]. cbn [map] in *. inversion Hok; subst. constructor; [|auto]. apply (line_decodes c). assumption.
Qed.

(** ** the groups of messages, one per connection *)
Lemma nth_seq_map {A} (d : A) l : forall s, map (fun k => nth (k - s) l d) (seq s (length l)) = l.
Proof.
  induction l as [|x l IH]; intros s; [reflexivity|]. cbn [length seq map]. rewrite Nat.sub_diag. cbn [nth]. f_equal. rewrite <- (IH (S s)) at 2.
  apply map_ext_in. intros k Hk. apply in_seq in Hk. replace (k - s)%nat with (S (k - S s)) by lia. reflexivity.
Qed.

Lemma f2_seq_nth {A} (R : nat -> A -> Prop) (d : A) l : forall s m, Forall2 R (seq s m) l -> forall k, (k < m)%nat -> R (s + k)%nat (nth k l d).
Proof.
  induction l as [|x l IH]; intros s m H k Hk.
  - apply f2_length in H. rewrite seq_length in H. cbn in H. lia.
  - destruct m as [|m]; [lia|]. cbn [seq] in H. inversion H; subst. destruct k as [|k]; cbn [nth]; [rewrite Nat.add_0_r; assumption|].
    replace (s + S k)%nat with (S s + k)%nat by lia. apply (IH (S s) m); [assumption|lia].
Qed.

Definition grouped (uni : N -> bool) (t : transport) (ms : list message) (width : nat) (wire : nat -> bytes) (group : nat -> list message) : Prop :=
  ms = concat (map group (seq 0 width)) /\
  forall k, (k < width)%nat -> wire k = concat (map (encode t) (encodings uni (group k))).

Lemma served_grouped uni t ms sacts ss : served uni t ms sacts ss -> Forall (fun m => exists enc, message_marshal uni m = Val (inr enc)) ms ->
  exists group, grouped uni t ms (connects sacts) (fun k => on k (s_log ss)) group.
Proof.
  intros (Hs & Hm & Hcl & Hq) He. destruct (message_groups uni t ms sacts ss Hs Hm Hcl Hq He) as (mss & -> & F).
  exists (fun k => nth k mss []). split.
  - pose proof (f2_length _ _ _ F) as L. rewrite seq_length in L. rewrite L. f_equal. rewrite <- (nth_seq_map [] mss 0) at 1.
    apply map_ext. intros k. rewrite Nat.sub_0_r. reflexivity.
  - intros k Hk. exact (f2_seq_nth (fun c g => on c (s_log ss) = concat (map (encode t) (encodings uni g))) [] mss 0 _ F k Hk).
Qed.

Lemma all_grouped uni t n ms sacts ss : (forall j, (j < n)%nat -> served uni t (ms j) (sacts j) (ss j)) ->
  (forall j, (j < n)%nat -> Forall (fun m => exists enc, message_marshal uni m = Val (inr enc)) (ms j)) ->
  exists group : nat -> nat -> list message, forall j, (j < n)%nat -> grouped uni t (ms j) (connects (sacts j)) (fun k => on k (s_log (ss j))) (group j).
Proof.
  intros H He. apply (finite_choice (fun j g => grouped uni t (ms j) (connects (sacts j)) (fun k => on k (s_log (ss j))) g) (fun _ => []) n).
  intros j Hj. apply served_grouped; auto.
Qed.

Lemma in_pairs i b (l : list (nat * pair_t)) : In (i, b) l -> pairs_of i l <> [].
Proof.
  intros H E. assert (Hi : In b (pairs_of i l)); [|rewrite E in Hi; exact Hi]. unfold pairs_of, from. apply in_map_iff. exists (i, b). split; [reflexivity|].
  apply filter_In. split; [exact H|]. destruct (Nat.eq_dec (fst (i, b)) i) as [|Hx]; [reflexivity|exfalso; apply Hx; reflexivity].
Qed.

(** ** from the connections to the whole *)
Lemma collected uni order t n width wire peer cap racts rs group : rrun t cap receiver_init racts = Some rs -> network n width wire peer racts ->
  (forall i, reads_of i racts <> [] -> gives uni order t (group (peer i)) (reads_of i racts)) ->
  (forall i, ~ decoder_panics t i racts) /\
  exists tagged, Forall2 (came_from uni order n width peer) tagged (received rs) /\
    (forall jk, exists later, group jk = from tag_dec jk tagged ++ later) /\
    (forall i, reads_of i racts <> [] -> pairs_of i (received rs) = o_sent (tok_run t tok_init (reads_of i racts)) ->
       stream (reads_of i racts) = concat (map (encode t) (encodings uni (group (peer i)))) -> group (peer i) = from tag_dec (peer i) tagged).
Proof.
  intros Hr (Hn & Hinj) Hg.
  assert (Hread : forall i b, In (i, b) (received rs) -> reads_of i racts <> []).
  { intros i b Hi E. pose proof (C40_in_order _ _ _ _ Hr i) as Ho. rewrite E in Ho. cbn in Ho. apply app_eq_nil in Ho as [Ho _]. exact (in_pairs _ _ _ Hi Ho). }
  split.
  { intros i Hp. unfold decoder_panics in Hp. destruct (reads_of i racts) eqn:E; [discriminate|]. rewrite <- E in Hp. destruct (Hg i) as [Hc _]; [rewrite E; discriminate|]. exact (Hc Hp). }
  destruct (tagging (delivered_as uni order) peer group (received rs)) as (tagged & T1 & T2 & T3 & T4).
  - intros i i' b b' Hi Hi'. apply Hinj; eapply Hread; eassumption.
  - intros i b Hi. destruct (Hg i (Hread _ _ Hi)) as (_ & g1 & g2 & E & F & _). rewrite <- (C40_in_order _ _ _ _ Hr i) in F.
    apply Forall2_app_inv_r in F as (u & v & F1 & _ & ->). exists u, (v ++ g2). rewrite app_assoc. auto.
  - exists tagged. split; [|split].
    + assert (T1' : forall x r, In (x, r) (combine tagged (received rs)) -> In r (received rs)) by (intros x r Hi; exact (in_combine_r _ _ _ _ Hi)). clear T1'.
      assert (Hall : Forall (fun r => reads_of (fst r) racts <> []) (received rs)) by (apply Forall_forall; intros [i b] Hi; exact (Hread i b Hi)).
      clear -T1 Hall Hn. induction T1 as [|x r tg l [Hx Hd] F IH]; [constructor|]. apply Forall_inv in Hall as Hi. apply Forall_inv_tail in Hall. constructor; [|exact (IH Hall)].
      destruct (Hn (fst r) Hi) as (N1 & N2 & _). unfold came_from. rewrite Hx. auto.
    + exact T2.
    + intros i Hi Hall Hst. destruct (Hg i Hi) as (_ & g1 & g2 & E & F & Hw). rewrite (Hw Hst), app_nil_r in E. rewrite <- Hall in F.
      destruct (T2 (peer i)) as [later El]. rewrite El. destruct later as [|m later]; [rewrite app_nil_r; reflexivity|exfalso].
      assert (L : length (from tag_dec (peer i) tagged) = length (pairs_of i (received rs))).
      { destruct (in_dec Nat.eq_dec i (map fst (received rs))) as [Hin|Hin].
        - apply in_map_iff in Hin as ([i' b'] & Ei & Hin). cbn in Ei. subst i'. exact (T3 i b' Hin).
        - rewrite T4.
          + clear -Hin. unfold pairs_of. induction (received rs) as [|[i' b'] l IH]; [reflexivity|]. change ((i', b') :: l) with ([(i', b')] ++ l). rewrite from_app, from_one_other; [apply IH; intros Hx; apply Hin; right; exact Hx|].
            intros ->. apply Hin. left. reflexivity.
          + intros i' b' Hi' Ep. apply Hin, in_map_iff. exists (i', b'). split; [|exact Hi']. cbn. apply Hinj; [exact (Hread _ _ Hi')|exact Hi|exact Ep]. }
      apply f2_length in F. rewrite <- E, El, app_length, L in F. cbn [length] in F. lia.
Qed.

Lemma network_safe t cap racts rs : rrun t cap receiver_init racts = Some rs -> ~ In REndCall racts -> ~ In false (accepts racts) ->
  (forall i, ~ decoder_panics t i racts) -> r_crashed rs = false.
Proof.
  intros H He Hf Hd. destruct racts as [|a acts _] using rev_ind; [injection H as <-; reflexivity|].
  destruct (r_crashed rs) eqn:Ec; [|reflexivity]. exfalso. destruct (C39_crash_iff _ _ _ _ _ H) as [Hx _]. specialize (Hx Ec).
  destruct (not_crashed_prefix _ _ _ _ _ H) as (s0 & H0 & _). destruct a; cbn [crash_cause] in Hx; try contradiction.
  - apply He, in_app_iff. right. left. reflexivity.
  - apply nth_error_In in Hx. apply Hf. rewrite accepts_app. apply in_app_iff. left. exact Hx.
  - apply He, in_app_iff. left. pose proof (run_inv _ _ _ _ H0) as I0. apply (inv_closed _ _ _ _ I0) in Hx. apply (inv_pc _ _ _ _ I0) in Hx.
    pose proof (li_end _ (live_reach _ _ _ _ H0)) as Hy. apply (inv_end _ _ _ _ I0). destruct Hx as [Hx|Hx]; rewrite Hx in Hy; exact Hy.
  - apply (Hd i). unfold decoder_panics in *. rewrite reads_of_app. cbn [reads_of]. rewrite app_nil_r. exact Hx.
Qed.

(** Every byte written on the connections of the senders has been read *)
Definition all_read (n : nat) (width : nat -> nat) (wire : nat -> nat -> bytes) (peer : nat -> nat * nat) (racts : list raction) : Prop :=
  forall j k, (j < n)%nat -> (k < width j)%nat -> exists i, peer i = (j, k) /\ stream (reads_of i racts) = wire j k.

Lemma no_encoding_no_message uni t g : Forall (fun m => exists enc, message_marshal uni m = Val (inr enc)) g -> concat (map (encode t) (encodings uni g)) = [] -> g = [].
Proof.
  intros [|m g' (enc & E) _] H; [reflexivity|exfalso]. unfold encodings in H. cbn [flat_map] in H. rewrite E in H. cbn [app map concat] in H.
  apply app_eq_nil in H as [H _]. pose proof (frame_length t enc) as L. rewrite H in L. pose proof (marshal_length _ _ _ E). cbn [length] in L. lia.
Qed.

Lemma arrived uni order t n ms width wire peer cap racts rs group :
  (forall j, (j < n)%nat -> grouped uni t (ms j) (width j) (wire j) (group j)) ->
  (forall j, (j < n)%nat -> Forall (fun m => exists enc, message_marshal uni m = Val (inr enc)) (ms j)) ->
  rrun t cap receiver_init racts = Some rs -> network n width wire peer racts -> ~ In REndCall racts -> ~ In false (accepts racts) ->
  (forall i, reads_of i racts <> [] -> gives uni order t (group (fst (peer i)) (snd (peer i))) (reads_of i racts)) ->
  all_read n width wire peer racts ->
  exists bound, forall more rs', rrun t cap rs more = Some rs' -> (forall a, In a more -> outside a = false) ->
    (length more <= bound)%nat /\ r_crashed rs' = false /\
    (at_rest t cap rs' -> exists tagged, Forall2 (came_from uni order n width peer) tagged (received rs') /\
       forall j, (j < n)%nat -> ms j = concat (map (fun k => from tag_dec (j, k) tagged) (seq 0 (width j)))).
Proof.
  intros Hgr Hen Hr Hnet He Hf Hg Har.
  destruct (collected uni order t n width wire peer cap racts rs (fun jk => group (fst jk) (snd jk)) Hr Hnet Hg) as (Hd & _).
  pose proof (network_safe _ _ _ _ Hr He Hf Hd) as Hc. destruct (C94_delivered _ _ _ _ Hr Hc He Hf Hd) as (bound & Hb).
  exists bound. intros more rs' Hr' Ho. destruct (Hb more rs' Hr' Ho) as (B1 & B2 & B3). split; [exact B1|]. split; [exact B2|]. intros Hrest.
  destruct (B3 Hrest) as (Hall & _).
  assert (Hr2 : rrun t cap receiver_init (racts ++ more) = Some rs') by (rewrite rrun_app, Hr; exact Hr').
  assert (Er : forall i, reads_of i (racts ++ more) = reads_of i racts) by (intros i; rewrite reads_of_app, (proj1 (reads_inside i more Ho)), app_nil_r; reflexivity).
  assert (Hnet2 : network n width wire peer (racts ++ more)).
  { destruct Hnet as [N1 N2]. split; [intros i; rewrite (Er i); apply N1|]. intros i i'. rewrite (Er i), (Er i'). apply N2. }
  destruct (collected uni order t n width wire peer cap (racts ++ more) rs' (fun jk => group (fst jk) (snd jk)) Hr2 Hnet2) as (_ & tagged & T1 & T2 & T3).
  { intros i. rewrite (Er i). apply Hg. }
  exists tagged. split; [exact T1|]. intros j Hj. destruct (Hgr j Hj) as [Em Eo]. rewrite Em at 1. f_equal. apply map_ext_in. intros k Hk. apply in_seq in Hk.
  assert (Hk' : (k < width j)%nat) by lia. destruct (Har j k Hj Hk') as (i & Ep & Es). rewrite (Eo k Hk') in Es.
  assert (Hcase : reads_of i racts = [] \/ reads_of i racts <> []) by (destruct (reads_of i racts); [left; reflexivity|right; discriminate]). destruct Hcase as [En|Hn].
  - rewrite En in Es. cbn in Es. symmetry in Es. assert (Eg : group j k = []).
    { apply (no_encoding_no_message uni t); [|exact Es]. specialize (Hen j Hj). rewrite Em in Hen. rewrite Forall_forall in Hen |- *. intros m Hm. apply Hen, in_concat.
      exists (group j k). split; [apply in_map_iff; exists k; split; [reflexivity|apply in_seq; lia]|exact Hm]. }
    rewrite Eg. destruct (T2 (j, k)) as [later El]. cbn [fst snd] in El. rewrite Eg in El. symmetry in El. apply app_eq_nil in El as [El _]. symmetry. exact El.
  - specialize (T3 i). rewrite (Er i), Ep in T3. cbn [fst snd] in T3. apply T3; [exact Hn|apply Hall|exact Es].
Qed.

Lemma group_part {A} (f : nat -> list A) k n : (k < n)%nat -> exists a b, concat (map f (seq 0 n)) = a ++ f k ++ b.
Proof.
  intros Hk. exists (concat (map f (seq 0 k))), (concat (map f (seq (S k) (n - S k)))).
  replace n with (k + S (n - S k))%nat at 1 by lia. rewrite seq_app, map_app, concat_app. cbn [seq map concat]. reflexivity.
Qed.

Lemma framed_all_give uni order n ms width wire peer racts group :
  (forall j, (j < n)%nat -> Forall fits (encodings uni (ms j)) /\ Forall (deliverable uni order) (ms j)) ->
  (forall j, (j < n)%nat -> grouped uni TRFC5425 (ms j) (width j) (wire j) (group j)) -> network n width wire peer racts ->
  forall i, reads_of i racts <> [] -> gives uni order TRFC5425 (group (fst (peer i)) (snd (peer i))) (reads_of i racts).
Proof.
  intros H Hgr [Hn _] i Hi. destruct (Hn i Hi) as (N1 & N2 & N3). destruct (Hgr _ N1) as [Em Eo]. rewrite (Eo _ N2) in N3.
  destruct (H _ N1) as (Hf & Hdl). destruct (group_part (group (fst (peer i))) _ _ N2) as (a & b & E). rewrite E in Em. rewrite Em in Hf, Hdl.
  rewrite !encodings_app in Hf. apply Forall_app in Hf as [_ Hf]. apply Forall_app in Hf as [Hf _]. apply Forall_app in Hdl as [_ Hdl]. apply Forall_app in Hdl as [Hdl _].
  apply framed_gives; assumption.
Qed.

(** g is consecutive messages of ms and these bytes are their frames *)
Definition part_on (uni : N -> bool) (t : transport) (ms : list message) (written : bytes) (g : list message) : Prop :=
  (exists a b, ms = a ++ g ++ b) /\ written = concat (map (encode t) (encodings uni g)).

Lemma lines_all_give uni order t c n ms width wire peer racts group : delimiter t = Some c ->
  (forall j, (j < n)%nat -> Forall (plain c) (ms j)) ->
  (forall i g, reads_of i racts <> [] -> (fst (peer i) < n)%nat -> part_on uni t (ms (fst (peer i))) (wire (fst (peer i)) (snd (peer i))) g -> ~ cut_at_dash uni t g (reads_of i racts)) ->
  (forall j, (j < n)%nat -> grouped uni t (ms j) (width j) (wire j) (group j)) -> network n width wire peer racts ->
  forall i, reads_of i racts <> [] -> gives uni order t (group (fst (peer i)) (snd (peer i))) (reads_of i racts).
Proof.
  intros Hc H Hcut Hgr [Hn _] i Hi. destruct (Hn i Hi) as (N1 & N2 & N3). destruct (Hgr _ N1) as [Em Eo]. rewrite (Eo _ N2) in N3.
  specialize (H _ N1). destruct (group_part (group (fst (peer i))) _ _ N2) as (a & b & E). rewrite E in Em. assert (Hp : part_on uni t (ms (fst (peer i))) (wire (fst (peer i)) (snd (peer i))) (group (fst (peer i)) (snd (peer i)))) by (split; [exists a, b; exact Em|exact (Eo _ N2)]). specialize (Hcut i _ Hi N1 Hp). rewrite Em in H.
  apply Forall_app in H as [_ H]. apply Forall_app in H as [H _]. apply (lines_gives uni order t c); assumption.
Qed.

Lemma deliverable_marshals uni order ms : Forall (deliverable uni order) ms -> Forall (fun m => exists enc, message_marshal uni m = Val (inr enc)) ms.
Proof. intros H. eapply Forall_impl; [|exact H]. intros m Hm. exact (deliverable_marshal uni order m Hm). Qed.

Lemma plain_marshals uni c ms : Forall (plain c) ms -> Forall (fun m => exists enc, message_marshal uni m = Val (inr enc)) ms.
Proof. intros H. eapply Forall_impl; [|exact H]. intros m Hm. eexists. exact (plain_marshal uni c m Hm). Qed.

(** ** C115 *)
(** RFC 5425 framing.  At every moment, no decoder crashes, and what Receive has returned is messages of
    the senders, tagged in the order received with sender and connection: of each connection the first
    messages of its group, in order, each once; nothing else.  (The messages of a sender are its groups, one
    per connection, one after the other.) *)
Theorem C115_at_every_moment : forall uni order n ms sacts ss peer cap racts rs,
  (forall j, (j < n)%nat -> served uni TRFC5425 (ms j) (sacts j) (ss j)) ->
  (forall j, (j < n)%nat -> Forall fits (encodings uni (ms j)) /\ Forall (deliverable uni order) (ms j)) ->
  rrun TRFC5425 cap receiver_init racts = Some rs -> network n (fun j => connects (sacts j)) (fun j k => on k (s_log (ss j))) peer racts ->
  (forall i, ~ decoder_panics TRFC5425 i racts) /\
  exists (tagged : list ((nat * nat) * message)) (group : nat -> nat -> list message),
    Forall2 (came_from uni order n (fun j => connects (sacts j)) peer) tagged (received rs) /\
    forall j, (j < n)%nat -> ms j = concat (map (group j) (seq 0 (connects (sacts j)))) /\
      forall k, (k < connects (sacts j))%nat ->
        on k (s_log (ss j)) = concat (map (encode TRFC5425) (encodings uni (group j k))) /\
        exists later, group j k = from tag_dec (j, k) tagged ++ later.
Proof.
  intros uni order n ms sacts ss peer cap racts rs Hs H Hr Hnet.
  destruct (all_grouped uni TRFC5425 n ms sacts ss Hs) as (group & Hgr).
  { intros j Hj. apply (deliverable_marshals uni order), H, Hj. }
  destruct (collected uni order TRFC5425 n _ _ peer cap racts rs (fun jk => group (fst jk) (snd jk)) Hr Hnet) as (Hd & tagged & T1 & T2 & _).
  { exact (framed_all_give uni order n ms _ _ peer racts group H Hgr Hnet). }
  split; [exact Hd|]. exists tagged, group. split; [exact T1|]. intros j Hj. destruct (Hgr j Hj) as [Em Eo]. split; [exact Em|]. intros k Hk. split; [exact (Eo k Hk)|]. exact (T2 (j, k)).
Qed.
Print Assumptions C115_at_every_moment.

(** Once every byte is read, without End and with every Accept giving a connection: every schedule
    stops after a bounded number of steps without crash, and then Receive has returned every message of every sender, once,
    those of one connection in order, and nothing else. *)
Theorem C115_delivery : forall uni order n ms sacts ss peer cap racts rs,
  (forall j, (j < n)%nat -> served uni TRFC5425 (ms j) (sacts j) (ss j)) ->
  (forall j, (j < n)%nat -> Forall fits (encodings uni (ms j)) /\ Forall (deliverable uni order) (ms j)) ->
  rrun TRFC5425 cap receiver_init racts = Some rs -> network n (fun j => connects (sacts j)) (fun j k => on k (s_log (ss j))) peer racts -> ~ In REndCall racts -> ~ In false (accepts racts) ->
  all_read n (fun j => connects (sacts j)) (fun j k => on k (s_log (ss j))) peer racts ->
  exists bound, forall more rs', rrun TRFC5425 cap rs more = Some rs' -> (forall a, In a more -> outside a = false) ->
    (length more <= bound)%nat /\ r_crashed rs' = false /\
    (at_rest TRFC5425 cap rs' -> exists tagged, Forall2 (came_from uni order n (fun j => connects (sacts j)) peer) tagged (received rs') /\
       forall j, (j < n)%nat -> ms j = concat (map (fun k => from tag_dec (j, k) tagged) (seq 0 (connects (sacts j))))).
Proof.
  intros uni order n ms sacts ss peer cap racts rs Hs H Hr Hnet He Hf Har.
  assert (Hm : forall j, (j < n)%nat -> Forall (fun m => exists enc, message_marshal uni m = Val (inr enc)) (ms j)) by (intros j Hj; apply (deliverable_marshals uni order), H, Hj).
  destruct (all_grouped uni TRFC5425 n ms sacts ss Hs Hm) as (group & Hgr).
  exact (arrived uni order TRFC5425 n ms _ _ peer cap racts rs group Hgr Hm Hr Hnet He Hf (framed_all_give uni order n ms _ _ peer racts group H Hgr Hnet) Har).
Qed.
Print Assumptions C115_delivery.

(** LF or NUL framing, messages without structured data whose text does not have the delimiter: the same, if no
    read stops just after the '-' of a message (C84). *)
Theorem C115_lines_at_every_moment : forall uni order t c n ms sacts ss peer cap racts rs, delimiter t = Some c ->
  (forall j, (j < n)%nat -> served uni t (ms j) (sacts j) (ss j)) -> (forall j, (j < n)%nat -> Forall (plain c) (ms j)) ->
  rrun t cap receiver_init racts = Some rs -> network n (fun j => connects (sacts j)) (fun j k => on k (s_log (ss j))) peer racts ->
  (forall i g, reads_of i racts <> [] -> (fst (peer i) < n)%nat -> part_on uni t (ms (fst (peer i))) (on (snd (peer i)) (s_log (ss (fst (peer i))))) g -> ~ cut_at_dash uni t g (reads_of i racts)) ->
  (forall i, ~ decoder_panics t i racts) /\
  exists (tagged : list ((nat * nat) * message)) (group : nat -> nat -> list message),
    Forall2 (came_from uni order n (fun j => connects (sacts j)) peer) tagged (received rs) /\
    forall j, (j < n)%nat -> ms j = concat (map (group j) (seq 0 (connects (sacts j)))) /\
      forall k, (k < connects (sacts j))%nat ->
        on k (s_log (ss j)) = concat (map (encode t) (encodings uni (group j k))) /\
        exists later, group j k = from tag_dec (j, k) tagged ++ later.
Proof.
  intros uni order t c n ms sacts ss peer cap racts rs Hc Hs H Hr Hnet Hcut.
  destruct (all_grouped uni t n ms sacts ss Hs) as (group & Hgr).
  { intros j Hj. exact (plain_marshals uni c _ (H j Hj)). }
  destruct (collected uni order t n _ _ peer cap racts rs (fun jk => group (fst jk) (snd jk)) Hr Hnet) as (Hd & tagged & T1 & T2 & _).
  { exact (lines_all_give uni order t c n ms _ _ peer racts group Hc H Hcut Hgr Hnet). }
  split; [exact Hd|]. exists tagged, group. split; [exact T1|]. intros j Hj. destruct (Hgr j Hj) as [Em Eo]. split; [exact Em|]. intros k Hk. split; [exact (Eo k Hk)|]. exact (T2 (j, k)).
Qed.
Print Assumptions C115_lines_at_every_moment.

Theorem C115_lines_delivery : forall uni order t c n ms sacts ss peer cap racts rs, delimiter t = Some c ->
  (forall j, (j < n)%nat -> served uni t (ms j) (sacts j) (ss j)) -> (forall j, (j < n)%nat -> Forall (plain c) (ms j)) ->
  rrun t cap receiver_init racts = Some rs -> network n (fun j => connects (sacts j)) (fun j k => on k (s_log (ss j))) peer racts -> ~ In REndCall racts -> ~ In false (accepts racts) ->
  (forall i g, reads_of i racts <> [] -> (fst (peer i) < n)%nat -> part_on uni t (ms (fst (peer i))) (on (snd (peer i)) (s_log (ss (fst (peer i))))) g -> ~ cut_at_dash uni t g (reads_of i racts)) ->
  all_read n (fun j => connects (sacts j)) (fun j k => on k (s_log (ss j))) peer racts ->
  exists bound, forall more rs', rrun t cap rs more = Some rs' -> (forall a, In a more -> outside a = false) ->
    (length more <= bound)%nat /\ r_crashed rs' = false /\
    (at_rest t cap rs' -> exists tagged, Forall2 (came_from uni order n (fun j => connects (sacts j)) peer) tagged (received rs') /\
       forall j, (j < n)%nat -> ms j = concat (map (fun k => from tag_dec (j, k) tagged) (seq 0 (connects (sacts j))))).
Proof.
  intros uni order t c n ms sacts ss peer cap racts rs Hc Hs H Hr Hnet He Hf Hcut Har.
  assert (Hm : forall j, (j < n)%nat -> Forall (fun m => exists enc, message_marshal uni m = Val (inr enc)) (ms j)) by (intros j Hj; exact (plain_marshals uni c _ (H j Hj))).
  destruct (all_grouped uni t n ms sacts ss Hs Hm) as (group & Hgr).
  exact (arrived uni order t n ms _ _ peer cap racts rs group Hgr Hm Hr Hnet He Hf (lines_all_give uni order t c n ms _ _ peer racts group Hc H Hcut Hgr Hnet) Har).
Qed.
Print Assumptions C115_lines_delivery.

(** From several logging programs to the receiving program.  Program j makes its Syslogs and Channels ([setup j]),
    then its goroutines i log ([cs j i]) through its Sender, all Sends interleaved memory access by memory access; everything is
    sent and flushed, on [connections (facts j)] connections.  When the Receiver has read everything and is left with nothing to do,
    its user has received of each program an interleaving of what its goroutines logged, and nothing else. *)
Theorem C115_programs : forall uni order n tr setup o cs g ms facts fs peer cap racts rs,
  let width := fun j => connections (facts j) in let wire := fun j k => on k (f_log (fs j)) in
  (forall j, (j < n)%nat -> goroutines uni (tr j) (setup j) (o j) (cs j) (g j) (ms j) /\ tr j (o j) = Some TRFC5425) ->
  (forall j, (j < n)%nat -> frun fine_init (facts j) = Some (fs j) /\ (forall i, calls i (facts j) = for_sender (o j) (g_queued (g j i))) /\
     all_sent (fs j) /\ f_queue (fs j) = [] /\ clean_net (facts j)) ->
  (forall j i, (j < n)%nat -> Forall fits (encodings uni (ms j i)) /\ Forall (deliverable uni order) (ms j i)) ->
  rrun TRFC5425 cap receiver_init racts = Some rs -> network n width wire peer racts -> ~ In REndCall racts -> ~ In false (accepts racts) ->
  all_read n width wire peer racts ->
  exists bound, forall more rs', rrun TRFC5425 cap rs more = Some rs' -> (forall a, In a more -> outside a = false) ->
    (length more <= bound)%nat /\ r_crashed rs' = false /\
    (at_rest TRFC5425 cap rs' -> exists (tagged : list ((nat * nat) * message)) (by_goroutine : nat -> list (nat * message)),
       Forall2 (came_from uni order n width peer) tagged (received rs') /\
       forall j, (j < n)%nat -> map snd (by_goroutine j) = concat (map (fun k => from tag_dec (j, k) tagged) (seq 0 (width j))) /\
         forall i, from Nat.eq_dec i (by_goroutine j) = ms j i).
Proof.
  intros uni order n tr setup o cs g ms facts fs peer cap racts rs width wire Hg Hf Hms Hr Hnet He Hfa Har.
  assert (Hint : forall j, (j < n)%nat -> exists q : list (nat * message) * (nat -> list message),
    (forall i, from Nat.eq_dec i (fst q) = ms j i) /\ grouped uni TRFC5425 (map snd (fst q)) (width j) (wire j) (snd q) /\
    Forall fits (encodings uni (map snd (fst q))) /\ Forall (deliverable uni order) (map snd (fst q))).
  { intros j Hj. destruct (Hg j Hj) as [Hgo Ht]. destruct (Hf j Hj) as (F1 & F2 & F3 & F4 & F5).
    destruct (interleaved (fun m => deliverable uni order m /\ Forall fits (encodings uni [m])) uni TRFC5425 (ms j) (facts j) (fs j)) as (tagged & sacts & T1 & T3 & R & S & C & N & Q); try assumption.
    - intros m [Hm _]. exact (deliverable_marshal uni order m Hm).
    - intros i. rewrite F2. exact (goroutine_frames _ _ _ _ _ _ _ _ Hgo Ht i).
    - intros i. destruct (Hms j i Hj) as [Hfi Hd]. clear -Hfi Hd. induction Hd as [|m l Hm Hd IH]; [constructor|].
      assert (E : encodings uni (m :: l) = encodings uni [m] ++ encodings uni l) by (rewrite <- encodings_app; reflexivity). rewrite E in Hfi. apply Forall_app in Hfi as [H1 H2]. constructor; auto.
    - assert (Hd : Forall (deliverable uni order) (map snd tagged)) by (eapply Forall_impl; [|exact T3]; intros m [Hm _]; exact Hm).
      destruct (served_grouped uni TRFC5425 (map snd tagged) sacts (abs (fs j))) as (group & Hgr).
      { split; [exact R|]. split; [exact S|]. split; [exact C|exact Q]. }
      { exact (deliverable_marshals uni order _ Hd). }
      exists (tagged, group). cbn [fst snd]. split; [exact T1|]. rewrite N in Hgr. split; [exact Hgr|]. split; [|exact Hd].
      clear -T3. induction T3 as [|m l [_ Hm] _ IH]; [constructor|]. assert (E : encodings uni (m :: l) = encodings uni [m] ++ encodings uni l) by (rewrite <- encodings_app; reflexivity).
      rewrite E. apply Forall_app. auto. }
  destruct (finite_choice _ ([], fun _ => []) n Hint) as (q & Hq).
  destruct (arrived uni order TRFC5425 n (fun j => map snd (fst (q j))) width wire peer cap racts rs (fun j => snd (q j))) as (bound & Hb); try assumption.
  - intros j Hj. apply Hq, Hj.
  - intros j Hj. apply (deliverable_marshals uni order). apply Hq, Hj.
  - apply (framed_all_give uni order n (fun j => map snd (fst (q j))) width wire peer racts (fun j => snd (q j))); [|intros j Hj; apply Hq, Hj|exact Hnet].
    intros j Hj. destruct (Hq j Hj) as (_ & _ & H3 & H4). auto.
  - exists bound. intros more rs' Hr' Ho. destruct (Hb more rs' Hr' Ho) as (B1 & B2 & B3). split; [exact B1|]. split; [exact B2|]. intros Hrest.
    destruct (B3 Hrest) as (tagged & T1 & T2). exists tagged, (fun j => fst (q j)). split; [exact T1|]. intros j Hj. split; [exact (T2 j Hj)|]. apply Hq, Hj.
Qed.
Print Assumptions C115_programs.

(** In particular what was received is, in some order, all the messages of all the senders. *)
Lemma from_other_tag {A B} dec (i : A) (l : list (A * B)) : ~ In i (map fst l) -> from dec i l = [].
Proof.
  induction l as [|[j b] l IH]; intros H; [reflexivity|]. change ((j, b) :: l) with ([(j, b)] ++ l). rewrite from_app, from_one_other, IH; [reflexivity| |].
  - intros Hi. apply H. right. exact Hi.
  - intros ->. apply H. left. reflexivity.
Qed.

Lemma by_tags {B} (l : list ((nat * nat) * B)) (tags : list (nat * nat)) : NoDup tags -> (forall x, In x l -> In (fst x) tags) ->
  Permutation.Permutation (map snd l) (concat (map (fun jk => from tag_dec jk l) tags)).
Proof.
  induction l as [|[jk b] l IH]; intros Hn Hin.
  - cbn. replace (concat _) with (@nil B); [constructor|]. clear. induction tags; [reflexivity|]. cbn. assumption.
  - specialize (IH Hn (fun x Hx => Hin x (or_intror Hx))). destruct (in_split jk tags (Hin (jk, b) (or_introl eq_refl))) as (t1 & t2 & E).
    assert (Hother : forall ts, ~ In jk ts -> map (fun jk' => from tag_dec jk' ((jk, b) :: l)) ts = map (fun jk' => from tag_dec jk' l) ts).
    { intros ts Hts. apply map_ext_in. intros jk' Hjk. change ((jk, b) :: l) with ([(jk, b)] ++ l). rewrite from_app, from_one_other; [reflexivity|]. intros ->. exact (Hts Hjk). }
    rewrite E in *. pose proof (NoDup_remove_2 _ _ _ Hn) as Hnot. rewrite map_app in *. cbn [map] in *. rewrite !Hother by (intros Hx; apply Hnot, in_app_iff; auto).
    replace (from tag_dec jk ((jk, b) :: l)) with (b :: from tag_dec jk l) by (change ((jk, b) :: l) with ([(jk, b)] ++ l); rewrite from_app, from_one_same; reflexivity). rewrite concat_app in *. cbn [concat app snd] in *.
    apply Permutation.Permutation_cons_app. exact IH.
Qed.

Definition all_tags (n : nat) (width : nat -> nat) : list (nat * nat) := concat (map (fun j => map (fun k => (j, k)) (seq 0 (width j))) (seq 0 n)).

Lemma in_all_tags n width j k : In (j, k) (all_tags n width) <-> (j < n)%nat /\ (k < width j)%nat.
Proof.
  unfold all_tags. rewrite in_concat. split.
  - intros (l & Hl & Hi). apply in_map_iff in Hl as (j' & <- & Hj). apply in_map_iff in Hi as (k' & E & Hk). injection E as <- <-. apply in_seq in Hj, Hk. lia.
  - intros [Hj Hk]. exists (map (fun k => (j, k)) (seq 0 (width j))). split; apply in_map_iff; [exists j|exists k]; (split; [reflexivity|apply in_seq; lia]).
Qed.

Lemma nodup_both {A} (a b : list A) : NoDup a -> NoDup b -> (forall x, In x a -> ~ In x b) -> NoDup (a ++ b).
Proof.
  induction a as [|x a IH]; intros Ha Hb H; [exact Hb|]. inversion Ha; subst. cbn [app]. constructor.
  - intros Hi. apply in_app_iff in Hi as [Hi|Hi]; [contradiction|]. exact (H x (or_introl eq_refl) Hi).
  - apply IH; [assumption|exact Hb|]. intros y Hy. apply H. right. exact Hy.
Qed.

Lemma nodup_all_tags width n : NoDup (all_tags n width).
Proof.
  induction n as [|n IH]; [constructor|]. unfold all_tags in *. rewrite seq_S, map_app, concat_app. cbn [map concat Nat.add]. rewrite app_nil_r. apply nodup_both; [exact IH| |].
  - apply FinFun.Injective_map_NoDup; [intros a b E; injection E as E; exact E|apply seq_NoDup].
  - intros [j k] H1 H2. apply (in_all_tags n width j k) in H1. apply in_map_iff in H2 as (k' & E & _). injection E as <- _. lia.
Qed.

Theorem C115_exactly_once : forall uni order n ms width peer (got : list (nat * pair_t)) tagged,
  Forall2 (came_from uni order n width peer) tagged got ->
  (forall j, (j < n)%nat -> ms j = concat (map (fun k => from tag_dec (j, k) tagged) (seq 0 (width j)))) ->
  Permutation.Permutation (map snd tagged) (concat (map ms (seq 0 n))).
Proof.
  intros uni order n ms width peer got tagged H2 Hms.
  assert (Hin : forall x, In x tagged -> In (fst x) (all_tags n width)).
  { clear Hms. induction H2 as [|x r tg l (_ & Hj & Hk & _) F IH]; [intros x []|]. intros y [<-|Hy]; [|exact (IH y Hy)]. destruct x as [[j k] m]. cbn [fst snd] in *. apply in_all_tags. auto. }
  rewrite (by_tags tagged _ (nodup_all_tags _ n) Hin). clear -Hms. unfold all_tags.
  assert (E : map ms (seq 0 n) = map (fun j => concat (map (fun k => from tag_dec (j, k) tagged) (seq 0 (width j)))) (seq 0 n)).
  { apply map_ext_in. intros j Hj. apply in_seq in Hj. apply Hms. lia. }
  rewrite E. clear E Hms. induction (seq 0 n) as [|j js IH]; [constructor|]. cbn [map concat]. rewrite map_app, concat_app, map_map.
  apply Permutation.Permutation_app_head. exact IH.
Qed.
Print Assumptions C115_exactly_once.

(** Non-vacuity: sender 0 loses its connection after its first message, sender 1 does not.  Here the second message of
    sender 0 is received before its first one: the order of a sender is only kept within a connection. *)
Definition one_sender : list saction :=
  [ASend (frame_of msg1); ATick; AConnect None; ALock; AWrite (length (frame_of msg1)) WOk; AWriteDone; AEndCall; ASelectEnd; ADrain; ACloseOut; ACloseDone; ACloseErr].
Definition many_sacts (j : nat) : list saction := match j with 0%nat => e2e_sender | _ => one_sender end.
Definition many_ms (j : nat) : list message := match j with 0%nat => [msg1; msg2] | _ => [msg1] end.
Definition many_ss (j : nat) : sstate := match srun sender_init (many_sacts j) with Some s => s | None => sender_init end.
Definition many_peer (i : nat) : nat * nat := match i with 0%nat => (0, 0) | 1%nat => (0, 1) | 2%nat => (1, 0) | _ => (5, 5) end%nat.
Definition many_reads : list raction :=
  [RStepSelect; RAccepted true None; RStepSelect; RAccepted true None; RStepSelect; RAccepted true None; KReadReturns 1 (firstn 7 (frame_of msg2)) None; KNextTurn 1;
   KReadReturns 0 (firstn 30 (frame_of msg1)) None; KNextTurn 0; KReadReturns 2 (frame_of msg1) None; KReadReturns 1 (skipn 7 (frame_of msg2)) None; KReadReturns 0 (skipn 30 (frame_of msg1)) (Some REOF)].
Definition many_rest : list raction := [KPush 1; KNextTurn 1; KPush 2; KNextTurn 2; KPush 0; KNextTurn 0; RStepSelect; RReceive; RReceive; RReceive].

Lemma many_clean : clean_failures e2e_sender.
Proof.
  apply (clean_from_ok e2e_sender []); [|reflexivity]. unfold e2e_sender. cbn [clean_from]. repeat (split; [exact I|]). split; [|repeat (split; [exact I|]); exact I].
  exists [frame_of msg1], [frame_of msg2]. split; vm_compute; reflexivity.
Qed.

Lemma many_served j : (j < 2)%nat -> served uni0 TRFC5425 (many_ms j) (many_sacts j) (many_ss j) /\ Forall fits (encodings uni0 (many_ms j)) /\ Forall (deliverable uni0 (fun _ => [])) (many_ms j).
Proof.
  intros Hj. destruct j as [|[|j]]; [| |lia].
  - split; [|split; [exact e2e_fits|exact e2e_deliverable]]. split; [vm_compute; reflexivity|]. split; [vm_compute; reflexivity|]. split; [exact many_clean|vm_compute; reflexivity].
  - split; [|split].
    + split; [vm_compute; reflexivity|]. split; [vm_compute; reflexivity|]. split; [|vm_compute; reflexivity].
      apply (clean_from_ok one_sender []); [|reflexivity]. unfold one_sender. cbn [clean_from]. repeat (split; [exact I|]). exact I.
    + pose proof e2e_fits as Hf. change [msg1; msg2] with ([msg1] ++ [msg2]) in Hf. rewrite encodings_app in Hf. apply Forall_app in Hf. exact (proj1 Hf).
    + pose proof e2e_deliverable as Hf. apply Forall_inv in Hf. constructor; [exact Hf|constructor].
Qed.

Theorem C115_order_refuted : exists rs rs',
  (forall j, (j < 2)%nat -> served uni0 TRFC5425 (many_ms j) (many_sacts j) (many_ss j) /\ Forall fits (encodings uni0 (many_ms j)) /\ Forall (deliverable uni0 (fun _ => [])) (many_ms j)) /\
  rrun TRFC5425 3 receiver_init many_reads = Some rs /\ network 2 (fun j => connects (many_sacts j)) (fun j k => on k (s_log (many_ss j))) many_peer many_reads /\ ~ In REndCall many_reads /\ ~ In false (accepts many_reads) /\
  all_read 2 (fun j => connects (many_sacts j)) (fun j k => on k (s_log (many_ss j))) many_peer many_reads /\
  rrun TRFC5425 3 rs many_rest = Some rs' /\ (forall a, In a many_rest -> outside a = false) /\ at_rest TRFC5425 3 rs' /\
  map (fun r => (many_peer (fst r), imm_string (fst (snd r)))) (received rs') =
    [((0, 1)%nat, match encodings uni0 [msg2] with [e] => e | _ => [] end); ((1, 0)%nat, match encodings uni0 [msg1] with [e] => e | _ => [] end); ((0, 0)%nat, match encodings uni0 [msg1] with [e] => e | _ => [] end)].
Proof.
  assert (Hg : exists rs rs', rrun TRFC5425 3 receiver_init many_reads = Some rs /\ rrun TRFC5425 3 rs many_rest = Some rs' /\ at_rest TRFC5425 3 rs' /\
    map (fun r => (many_peer (fst r), imm_string (fst (snd r)))) (received rs') =
    [((0, 1)%nat, match encodings uni0 [msg2] with [e] => e | _ => [] end); ((1, 0)%nat, match encodings uni0 [msg1] with [e] => e | _ => [] end); ((0, 0)%nat, match encodings uni0 [msg1] with [e] => e | _ => [] end)]).
  { eexists. eexists. split; [vm_compute; reflexivity|]. split; [vm_compute; reflexivity|]. split; [|vm_compute; reflexivity].
    intros a s' Ho Hs. exfalso. destruct a; try discriminate; destruct i as [|[|[|[|i]]]]; discriminate. }
  destruct Hg as (rs & rs' & G1 & G2 & G3 & G4). exists rs, rs'. split; [exact many_served|]. split; [exact G1|]. split; [|split; [|split; [|split; [|split; [exact G2|split; [|split; [exact G3|exact G4]]]]]]].
  - split.
    + intros i Hi. destruct i as [|[|[|i]]]; [| | |exfalso; apply Hi; vm_compute; reflexivity].
      * split; [vm_compute; lia|]. split; [vm_compute; lia|]. exists []. split; [vm_compute; reflexivity|]. right. split; [reflexivity|]. vm_compute. repeat split; intros; discriminate.
      * split; [vm_compute; lia|]. split; [vm_compute; lia|]. exists []. split; [vm_compute; reflexivity|]. left. vm_compute. reflexivity.
      * split; [vm_compute; lia|]. split; [vm_compute; lia|]. exists []. split; [vm_compute; reflexivity|]. left. vm_compute. reflexivity.
    + intros i i' Hi Hi' E. destruct i as [|[|[|i]]]; [| | |exfalso; apply Hi; vm_compute; reflexivity]; (destruct i' as [|[|[|i']]]; [| | |exfalso; apply Hi'; vm_compute; reflexivity]); first [reflexivity|discriminate].
  - intros K. repeat (destruct K as [K|K]; [discriminate|]). exact K.
  - vm_compute. intros K. repeat (destruct K as [K|K]; [discriminate|]). exact K.
  - intros j k Hj Hk. destruct j as [|[|j]]; [| |lia].
    + destruct k as [|[|k]]; [exists 0%nat|exists 1%nat|vm_compute in Hk; lia]; (split; [reflexivity|vm_compute; reflexivity]).
    + destruct k as [|k]; [exists 2%nat|vm_compute in Hk; lia]. split; [reflexivity|vm_compute; reflexivity].
  - intros a K. repeat (destruct K as [<-|K]; [reflexivity|]). destruct K.
Qed.
Print Assumptions C115_order_refuted.
