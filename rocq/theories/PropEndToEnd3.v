(** PropEndToEnd3.v -- C85: Senders and a Receiver joined by a unix datagram socket. *)
From Verif Require Import Base BaseFacts Spec MTime MTransport MSData MMessage MParse MTokenize MReceiver MSender MDatagram
  LTime LTokenize LParse LRound LTransport PropMessage PropParse PropTransport LLines PropLines PropReceiver PropDatagram LReceiver PropRecvSys LSender PropSender PropSender2 PropSender3
  PropEndToEnd PropEndToEnd2.

(** ** the sender *)
Lemma gram_write q : forall rs w n e, Forall (fun b => b <> []) q -> write_each q (gram_results q rs) = (w, n, e) ->
  n = length (concat (grams_sent q rs)) /\ consume n q = skipn (length (grams_sent q rs)) q /\ grams_sent q rs = firstn (length (grams_sent q rs)) q /\ e <> Some WOk.
Proof.
  induction q as [|b q IH]; intros rs w n e Hne H.
  - injection H as <- <- <-. destruct rs; cbn; repeat split; discriminate.
  - inversion Hne as [|? ? Hb Hq]; subst. destruct rs as [|r rs].
    + injection H as <- <- <-. cbn [grams_sent length skipn firstn concat consume]. destruct b; [congruence|]. repeat split. discriminate.
    + destruct r.
      * unfold gram_results in H. cbn [combine map snd fst] in H. cbn [write_each] in H. fold (gram_results q rs) in H.
        destruct (write_each q (gram_results q rs)) as [[w0 n0] e0] eqn:E. injection H as <- <- <-. destruct (IH _ _ _ _ Hq E) as (-> & H2 & H3 & H4).
        cbn [grams_sent length concat skipn firstn consume]. rewrite app_length. split; [reflexivity|].
        destruct (Nat.ltb_spec (length b + length (concat (grams_sent q rs))) (length b)); [lia|].
        replace (length b + length (concat (grams_sent q rs)) - length b)%nat with (length (concat (grams_sent q rs))) by lia.
        rewrite H2. split; [reflexivity|]. rewrite <- H3. auto.
      * injection H as <- <- <-. cbn [grams_sent length skipn firstn concat consume]. destruct b; [congruence|]. repeat split. discriminate.
      * injection H as <- <- <-. cbn [grams_sent length skipn firstn concat consume]. destruct b; [congruence|]. repeat split. discriminate.
Qed.

Lemma skipn_forall {A} (P : A -> Prop) n l : Forall P l -> Forall P (skipn n l).
Proof. intros H. rewrite <- (firstn_skipn n l) in H. apply Forall_app in H. apply H. Qed.

(** what each action does to the queue *)
Lemma step_queue s a s' : sstep s a = Some s' -> s_queue s' = match a with ASend f => s_queue s ++ [f] | AWrite k _ => match s_out s with Some _ => consume k (s_queue s) | None => s_queue s end | _ => s_queue s end.
Proof.
  unfold sstep. destruct (s_crashed s); [discriminate|]. destruct a;
    repeat (match goal with |- context [match ?x with _ => _ end] => destruct x eqn:? end); intros H; try discriminate; injection H as <-; cbn; try reflexivity; congruence.
Qed.

Lemma gram_run_queue acts : forall s s' l g, Forall (fun b => b <> []) (s_queue s) -> (forall d, s_pc s = PWrite d -> s_out s <> None) ->
  Forall (fun b => b <> []) (sends l) -> (forall p q s1, l = p ++ q -> srun s p = Some s1 -> forall d, s_pc s1 = PWrite d -> s_out s1 <> None) ->
  gram_run s acts = Some (s', l, g) -> srun s l = Some s' /\ s_queue s ++ sends l = g ++ s_queue s'.
Proof.
  induction acts as [|a acts IH]; intros s s' l g Hq Hout Hs Hinv H.
  - injection H as <- <- <-. split; [reflexivity|]. cbn. rewrite app_nil_r. reflexivity.
  - cbn [gram_run] in H. destruct (gram_act s a) as [[act sent]|] eqn:Ea; [|discriminate]. destruct (sstep s act) as [s1|] eqn:Es; [|discriminate].
    destruct (gram_run s1 acts) as [[[s2 l2] g2]|] eqn:Er; [|discriminate]. injection H as <- <- <-.
    change (act :: l2) with ([act] ++ l2) in Hs. rewrite sends_app in Hs. apply Forall_app in Hs as [Hs1 Hs2].
    assert (Hq1 : Forall (fun b => b <> []) (s_queue s1) /\ s_queue s ++ sends [act] = sent ++ s_queue s1).
    { rewrite (step_queue _ _ _ Es). destruct a as [rs|b].
      - cbn [gram_act] in Ea. destruct (write_each (s_queue s) (gram_results (s_queue s) rs)) as [[w n] e] eqn:E. injection Ea as <- <-.
        destruct (gram_write _ _ _ _ _ Hq E) as (-> & H2 & H3 & _). assert (Ho : s_out s <> None).
        { clear -Es Hout. unfold sstep in Es. destruct (s_crashed s); [discriminate|]. destruct (s_pc s) eqn:Ep; try discriminate. eapply Hout. reflexivity. }
        destruct (s_out s); [|congruence]. rewrite H2. split; [apply skipn_forall, Hq|]. cbn [sends flat_map app]. rewrite app_nil_r.
        rewrite <- (firstn_skipn (length (grams_sent (s_queue s) rs)) (s_queue s)) at 1. rewrite <- H3. reflexivity.
      - assert (Hb : act = b /\ sent = [] /\ forall k r, b <> AWrite k r) by (destruct b; cbn in Ea; try discriminate; injection Ea as <- <-; repeat split; discriminate).
        destruct Hb as (-> & -> & Hb). destruct b; try (rewrite app_nil_r; split; [exact Hq|reflexivity]); [|congruence].
        split; [|reflexivity]. apply Forall_app. split; [exact Hq|exact Hs1]. }
    destruct Hq1 as [Hq1 Hq2]. destruct (IH s1 s2 l2 g2 Hq1) as [H1 H2]; [|exact Hs2| |exact Er|].
    + apply (Hinv [act] l2 s1); [reflexivity|]. cbn. rewrite Es. reflexivity.
    + intros p q s3 E Hr. apply (Hinv (act :: p) q s3); [rewrite E; reflexivity|]. cbn. rewrite Es. exact Hr.
    + split; [cbn; rewrite Es; exact H1|]. change (act :: l2) with ([act] ++ l2). rewrite sends_app, app_assoc, Hq2, <- app_assoc, H2, app_assoc. reflexivity.
Qed.

(** Whatever fails, in whatever order the frames are queued and flushed: the datagrams sent are the
    frames, each in one datagram, in order, and the queue holds the others. *)
Theorem C85_one_frame_per_datagram : forall gacts s sacts grams, gram_run sender_init gacts = Some (s, sacts, grams) -> Forall (fun f => f <> []) (sends sacts) ->
  srun sender_init sacts = Some s /\ sends sacts = grams ++ s_queue s /\ written (s_log s) = concat grams.
Proof.
  intros gacts s sacts grams H Hne. destruct (gram_run_queue gacts sender_init s sacts grams) as [H1 H2]; try assumption.
  - constructor.
  - discriminate.
  - intros p q s1 -> Hr d Hd. destruct (srun_inv _ _ Hr). rewrite Hd in v_out. exact v_out.
  - cbn in H2. split; [exact H1|]. split; [exact H2|]. pose proof (C41_no_loss _ _ H1) as [Hb _]. rewrite H2, concat_app in Hb. apply app_inv_tail in Hb. exact Hb.
Qed.
Print Assumptions C85_one_frame_per_datagram.

(** A frame that the socket refuses (for instance because it is larger than a datagram can be) holds
    back everything behind it for ever, and End does not return. *)
Definition refuses (a : gaction) : Prop := match a with GWrite (GSent :: _) => False | _ => True end.

Lemma refused_step s a act sent s' b q : s_queue s = b :: q -> b <> [] -> Forall (fun f => f <> []) q -> refuses a -> gram_act s a = Some (act, sent) -> sstep s act = Some s' ->
  after_drain (s_pc s) = false -> s_completed s = false ->
  sent = [] /\ (exists q', s_queue s' = b :: q' /\ q' = q ++ sends [act]) /\ after_drain (s_pc s') = false /\ s_completed s' = false.
Proof.
  intros Eq Hb Hq Hr Ha Hs Hd Hc. pose proof (step_queue _ _ _ Hs) as Hsq.
  assert (Hact : sent = [] /\ match act with AWrite k r => k = 0%nat | _ => True end).
  { destruct a as [rs|x].
    - unfold gram_act in Ha. rewrite Eq in Ha. destruct rs as [|[| |e] rs]; cbn in Ha; try contradiction; injection Ha as <- <-; auto.
    - destruct x; cbn in Ha; try discriminate; injection Ha as <- <-; auto. }
  destruct Hact as [-> Hact]. split; [reflexivity|].
  assert (Hqq : s_queue s' = b :: (q ++ sends [act])).
  { rewrite Hsq, Eq. destruct act; try (cbn; rewrite app_nil_r; reflexivity); [reflexivity|]. subst k. cbn [sends flat_map app]. rewrite app_nil_r.
    destruct (s_out s); [|reflexivity]. cbn [consume]. destruct b; [congruence|]. reflexivity. }
  split; [eauto|]. clear Hsq Hqq. unfold sstep in Hs. destruct (s_crashed s); [discriminate|].
  destruct act; repeat (match type of Hs with context [match ?x with _ => _ end] => destruct x eqn:? end); try discriminate; try congruence;
    injection Hs as <-; unfold flush_return, flush_entry; cbn; rewrite ?Heqs0, ?Hc; auto; try congruence; try (destruct d; auto; fail); try (destruct (s_out s); auto; fail).
Qed.

Theorem C85_refused_frame_blocks : forall gacts s s' sacts grams b q,
  s_queue s = b :: q -> Forall (fun f => f <> []) (b :: q) -> after_drain (s_pc s) = false -> s_completed s = false ->
  Forall refuses gacts -> gram_run s gacts = Some (s', sacts, grams) -> Forall (fun f => f <> []) (sends sacts) ->
  grams = [] /\ s_queue s' = b :: q ++ sends sacts /\ s_completed s' = false.
Proof.
  induction gacts as [|a gacts IH]; intros s s' sacts grams b q Eq Hne Hd Hc Href H Hs.
  - injection H as <- <- <-. cbn. rewrite app_nil_r. auto.
  - cbn [gram_run] in H. destruct (gram_act s a) as [[act sent]|] eqn:Ea; [|discriminate]. destruct (sstep s act) as [s1|] eqn:Es; [|discriminate].
    destruct (gram_run s1 gacts) as [[[s2 l2] g2]|] eqn:Er; [|discriminate]. injection H as <- <- <-.
    change (act :: l2) with ([act] ++ l2) in *. rewrite sends_app in *. apply Forall_app in Hs as [Hs1 Hs2].
    inversion Hne as [|? ? Hb Hq]; subst. inversion Href as [|? ? Hra Href']; subst.
    destruct (refused_step s a act sent s1 b q Eq Hb Hq Hra Ea Es Hd Hc) as (-> & (q' & Eq' & ->) & Hd' & Hc').
    destruct (IH s1 s2 l2 g2 b (q ++ sends [act]) Eq') as (-> & H2 & H3); try assumption.
    { constructor; [exact Hb|]. apply Forall_app. auto. }
    split; [reflexivity|]. split; [|exact H3]. rewrite H2, <- app_assoc. reflexivity.
Qed.
Print Assumptions C85_refused_frame_blocks.

(** ** the receiver *)

(** A message for a datagram socket with transport t: decodable from its encoding, in a frame of at
    most 500 bytes; with LF or NUL framing, some text without the delimiter. *)
Definition for_datagram (uni : N -> bool) (order : nat -> list sdid) (t : transport) (m : message) : Prop :=
  deliverable uni order m /\ (forall enc, message_marshal uni m = Val (inr enc) -> (length (encode t enc) <= 500)%nat) /\
  match delimiter t with Some c => m_text m <> [] /\ ~ In c (m_text m) | None => True end.

Lemma deliverable_marshal uni order m : deliverable uni order m -> exists enc, message_marshal uni m = Val (inr enc).
Proof.
  intros (Hh & Hp & Ht & Hd & Hx). destruct (back_list uni order (m_sd m) Hd) as (encs & H2 & _). destruct (C11_wire_format uni m encs Hp H2) as [E _]. eexists. exact E.
Qed.

(** one datagram *)
Lemma datagram_parse uni order t m enc : for_datagram uni order t m -> message_marshal uni m = Val (inr enc) ->
  exists p, parse (encode t enc) (Some t) false = Val (p, Some [], None) /\ parse enc None true = Val (p, None, None).
Proof.
  intros (Hdel & H500 & Ht) Hm. destruct (delimiter t) as [c|] eqn:Ec.
  - destruct Ht as [Htx Hn]. pose proof Ec as Hd. rewrite delimiter_delim in Hd.
    assert (Hfr : encode t enc = enc ++ [c]) by (destruct t; try discriminate; injection Hd as <-; reflexivity). rewrite Hfr.
    destruct Hdel as (Hh & Hp & Htv & Hsd & Hx). destruct (m_sd m) as [|s l] eqn:Es.
    + assert (Hpl : plain c m) by (unfold plain; auto 10). rewrite (plain_marshal uni c m Hpl) in Hm. injection Hm as <-.
      pose proof (plain_lines c [m] ltac:(constructor; [exact Hpl|constructor])) as Hok. apply Forall_inv in Hok.
      exists (line_msg (line_of m)). split; [exact (line_complete t c (line_of m) [] false Hd Hok)|exact (line_decodes c (line_of m) Hok)].
    + rewrite <- Es in *. assert (Hne : m_sd m <> []) by congruence. clear Es s l.
      destruct (back_list uni order (m_sd m) Hsd) as (encs & H2 & Hel & _ & Hn'). specialize (Hn' Hne).
      destruct (C11_wire_format uni m encs Hp H2) as [Hw _]. rewrite Hm in Hw. apply inr_inj in Hw.
      assert (E : enc = sd_wire (words_of m, encs, m_text m)).
      { rewrite Hw, wire_join. unfold sd_wire. replace (sd_field encs) with (concat encs) by (destruct encs; [congruence|reflexivity]).
        destruct (m_text m); [congruence|reflexivity]. }
      subst enc. destruct (sd_frame_parse t c (words_of m) encs (m_text m) false Hd) as (p & H3 & H4 & _).
      { split; [reflexivity|]. split; [exact (words_of_word m (header_ok_words m Hh))|]. split; [exact Hn'|]. split; [exact Hel|]. split; [exact Htx|]. split; [|exact Hn].
        destruct Hx as [Hx|[Hx|Hx]]; [congruence|congruence|exact Hx]. }
      rewrite E. exists p. auto.
  - destruct t; try discriminate. destruct Hdel as (Hh & Hp & Htv & Hsd & Hx).
    destruct (proj2 (writable_iff uni m enc false order [] Hh Hp Htv Hsd Hm) Hx) as (p & H1 & _). exists p.
    specialize (H500 _ Hm). pose proof (marshal_length _ _ _ Hm) as H20. pose proof (frame_length TRFC5425 enc) as Hl. split.
    + rewrite <- (app_nil_r (encode TRFC5425 enc)). apply parse_rfc_frame; [rewrite app_nil_r; lia| |exact H1]. lia.
    + rewrite (parse_none_eof enc true false). exact H1.
Qed.

(** The datagrams of the results of ReadFrom; results that are errors are only reported *)
Definition datagrams (q : list dgram_res) : list bytes := flat_map (fun r => match r with Datagram d => [d] | DgramErr _ _ => [] end) q.
Definition plain_errors (q : list dgram_res) : Prop := Forall (fun r => match r with DgramErr 0 (ROther _) => True | DgramErr _ _ => False | Datagram _ => True end) q.

Lemma gram_reads_deliver uni order t n : forall st queue ms, t_pending st = [] -> (500 <= t_buflen st)%Z -> Forall (for_datagram uni order t) ms ->
  datagrams queue = map (encode t) (encodings uni ms) -> plain_errors queue ->
  exists ms1 ms2, ms = ms1 ++ ms2 /\ datagrams (firstn n queue) = map (encode t) (encodings uni ms1) /\
    Forall2 (fun d p => parse d None true = Val (fst p, None, snd p)) (encodings uni ms1) (o_sent (tok_run t st (gram_reads t n st [] queue))) /\
    exists st', o_next (tok_run t st (gram_reads t n st [] queue)) = TCont st' /\ t_pending st' = [].
Proof.
  induction n as [|n IH]; intros st queue ms Hp Hb Hms Hq He.
  { exists [], ms. cbn. split; [reflexivity|]. split; [reflexivity|]. split; [constructor|]. exists st. auto. }
  destruct queue as [|[d|cnt e] queue].
  { exists [], ms. cbn. split; [reflexivity|]. split; [reflexivity|]. split; [constructor|]. exists st. auto. }
  - inversion He as [|? ? _ He']; subst. destruct ms as [|m ms]; [discriminate|]. inversion Hms as [|? ? Hm Hms']; subst.
    destruct (deliverable_marshal uni order m (proj1 Hm)) as (enc & Em).
    unfold datagrams in Hq. cbn [flat_map app] in Hq. fold (datagrams queue) in Hq. unfold encodings in Hq. cbn [flat_map] in Hq. rewrite Em in Hq. cbn [app map] in Hq.
    injection Hq as -> Hq. fold (encodings uni ms) in Hq. destruct (datagram_parse uni order t m enc Hm Em) as (p & P1 & P2).
    assert (Hlen : (length (encode t enc) <= 500)%nat) by (destruct Hm as (_ & H & _); exact (H _ Em)).
    assert (Hfr : fake_read [] (Datagram (encode t enc) :: queue) (Z.to_nat (tok_room st)) = Some (encode t enc, length (encode t enc), None, [], queue)).
    { unfold fake_read. unfold tok_room. rewrite Hp. change (Z.of_nat (length [])) with 0%Z. destruct (Nat.leb_spec (Z.to_nat (t_buflen st - 0)) (length (encode t enc))) as [Hle|]; [|reflexivity].
      assert (El : Z.to_nat (t_buflen st - 0) = length (encode t enc)) by lia. rewrite El, firstn_all, skipn_all. reflexivity. }
    cbn [gram_reads]. rewrite Hfr. cbn [tok_run].
    assert (Hne : encode t enc <> []).
    { intros E. pose proof (marshal_length _ _ _ Em) as H20. pose proof (frame_length t enc) as Hl. rewrite E in Hl. cbn [length] in Hl. lia. }
    destruct (step_nonempty t st (encode t enc) None [(p, None)] (Val [])) as [H1 H2]; [exact Hne| |].
    { rewrite Hp. cbn [app is_eof]. cbn [tok_inner]. rewrite P1. reflexivity. }
    rewrite H2. cbn [is_eof o_sent o_next]. rewrite H1. cbn [length app].
    match goal with |- context [gram_reads t n ?s [] queue] => destruct (IH s queue ms) as (m1 & m2 & -> & E1 & E2 & E3); try assumption; try reflexivity end.
    { cbn [t_buflen]. match goal with |- context [if ?b then _ else _] => destruct b eqn:Eb end; unfold read_buffer; lia. }
    exists (m :: m1), m2. split; [reflexivity|]. split.
    { cbn [firstn]. unfold datagrams. cbn [flat_map app]. fold (datagrams (firstn n queue)). rewrite E1. unfold encodings. cbn [flat_map]. rewrite Em. reflexivity. }
    split; [|exact E3]. unfold encodings. cbn [flat_map]. rewrite Em. cbn [app]. constructor; [exact P2|exact E2].
  - inversion He as [|? ? He0 He']; subst. destruct cnt; [|contradiction]. destruct e as [|e]; [contradiction|].
    cbn [gram_reads fake_read]. rewrite step_empty. cbn [is_eof o_next tok_run]. rewrite step_empty. cbn [is_eof o_next o_sent app].
    destruct (IH st queue ms Hp Hb Hms Hq He') as (m1 & m2 & -> & E1 & E2 & E3). exists m1, m2. split; [reflexivity|]. split; [exact E1|]. split; [exact E2|exact E3].
Qed.

(** [queue]: what ReadFrom returns, in order; [n]: how many times the goroutine has read.  The messages
    of the datagrams read so far have been delivered, in order, whole, once, and without error; an
    error of the socket disturbs nothing. *)
Theorem C85_receiver : forall uni order t ms queue n cap racts rs i,
  Forall (for_datagram uni order t) ms -> datagrams queue = map (encode t) (encodings uni ms) -> plain_errors queue ->
  rrun t cap receiver_init racts = Some rs -> reads_of i racts = gram_reads t n tok_init [] queue ->
  exists ms1 ms2, ms = ms1 ++ ms2 /\ datagrams (firstn n queue) = map (encode t) (encodings uni ms1) /\
    Forall2 (delivered_as uni order) ms1 (delivered_on i rs) /\ ~ decoder_panics t i racts.
Proof.
  intros uni order t ms queue n cap racts rs i Hms Hq He Hr Hreads.
  destruct (gram_reads_deliver uni order t n tok_init queue ms eq_refl ltac:(cbn; unfold read_buffer; lia) Hms Hq He) as (m1 & m2 & -> & E1 & E2 & st' & E3 & _).
  exists m1, m2. split; [reflexivity|]. split; [exact E1|]. apply Forall_app in Hms as [Hm1 _]. split.
  - apply deliverable_pairs; [eapply Forall_impl; [|exact Hm1]; intros m H; exact (proj1 H)|]. unfold delivered_on. rewrite (C40_in_order _ _ _ _ Hr i), Hreads. exact E2.
  - unfold decoder_panics. rewrite Hreads, E3. discriminate.
Qed.
Print Assumptions C85_receiver.

(** the goroutine is never stuck: it reads as long as there is something to read *)
Theorem C85_progress : forall uni order t ms queue n,
  Forall (for_datagram uni order t) ms -> datagrams queue = map (encode t) (encodings uni ms) -> plain_errors queue ->
  length (gram_reads t n tok_init [] queue) = Nat.min n (length queue).
Proof.
  intros uni order t ms queue n Hms Hq He.
  assert (H : forall st, t_pending st = [] -> (500 <= t_buflen st)%Z -> length (gram_reads t n st [] queue) = Nat.min n (length queue)); [|apply H; [reflexivity|cbn; unfold read_buffer; lia]].
  revert queue ms Hms Hq He. induction n as [|n IH]; intros queue ms Hms Hq He st Hp Hb; [reflexivity|]. destruct queue as [|[d|cnt e] queue]; [reflexivity| |].
  - inversion He as [|? ? _ He']; subst. destruct ms as [|m ms]; [discriminate|]. inversion Hms as [|? ? Hm Hms']; subst.
    destruct (deliverable_marshal uni order m (proj1 Hm)) as (enc & Em).
    unfold datagrams in Hq. cbn [flat_map app] in Hq. fold (datagrams queue) in Hq. unfold encodings in Hq. cbn [flat_map] in Hq. rewrite Em in Hq. cbn [app map] in Hq.
    injection Hq as -> Hq. fold (encodings uni ms) in Hq. destruct (datagram_parse uni order t m enc Hm Em) as (p & P1 & P2).
    assert (Hlen : (length (encode t enc) <= 500)%nat) by (destruct Hm as (_ & H & _); exact (H _ Em)).
    assert (Hfr : fake_read [] (Datagram (encode t enc) :: queue) (Z.to_nat (tok_room st)) = Some (encode t enc, length (encode t enc), None, [], queue)).
    { unfold fake_read. unfold tok_room. rewrite Hp. change (Z.of_nat (length [])) with 0%Z. destruct (Nat.leb_spec (Z.to_nat (t_buflen st - 0)) (length (encode t enc))) as [Hle|]; [|reflexivity].
      assert (El : Z.to_nat (t_buflen st - 0) = length (encode t enc)) by lia. rewrite El, firstn_all, skipn_all. reflexivity. }
    cbn [gram_reads]. rewrite Hfr. cbn [tok_run].
    assert (Hne : encode t enc <> []).
    { intros E. pose proof (marshal_length _ _ _ Em) as H20. pose proof (frame_length t enc) as Hl. rewrite E in Hl. cbn [length] in Hl. lia. }
    destruct (step_nonempty t st (encode t enc) None [(p, None)] (Val [])) as [H1 H2]; [exact Hne| |].
    { rewrite Hp. cbn [app is_eof]. cbn [tok_inner]. rewrite P1. reflexivity. }
    rewrite H2. cbn [is_eof length Nat.min]. f_equal. apply (IH queue ms Hms' Hq He'); [reflexivity|].
    cbn [t_buflen]. match goal with |- context [if ?b then _ else _] => destruct b eqn:Eb end; unfold read_buffer; lia.
  - inversion He as [|? ? He0 He']; subst. destruct cnt; [|contradiction]. destruct e as [|e]; [contradiction|].
    cbn [gram_reads fake_read]. rewrite step_empty. cbn [is_eof o_next length Nat.min]. f_equal. apply (IH queue ms Hms Hq He' st Hp Hb).
Qed.
Print Assumptions C85_progress.

(** ** one sender *)
Lemma sections_nonempty uni t ms : Forall (fun f => f <> []) (critical_sections uni t ms).
Proof.
  rewrite sections_encodings. apply Forall_map, Forall_forall. intros d Hd E. pose proof (encodings_length uni ms d Hd) as H20. pose proof (frame_length t d) as Hl.
  rewrite E in Hl. cbn [length] in Hl. lia.
Qed.

(** Every message sent and flushed by a sender, alone on the socket, is delivered, in order; whatever
    writes fail meanwhile, and whatever errors the receiving socket reports *)
Theorem C85_delivery : forall uni order t ms gacts ss sacts grams queue cap racts rs i,
  Forall (for_datagram uni order t) ms ->
  gram_run sender_init gacts = Some (ss, sacts, grams) -> sends sacts = critical_sections uni t ms -> s_queue ss = [] ->
  datagrams queue = grams -> plain_errors queue ->
  rrun t cap receiver_init racts = Some rs -> reads_of i racts = gram_reads t (length queue) tok_init [] queue ->
  Forall2 (delivered_as uni order) ms (delivered_on i rs).
Proof.
  intros uni order t ms gacts ss sacts grams queue cap racts rs i Hms Hg Hs Hq Hd He Hr Hreads.
  destruct (C85_one_frame_per_datagram _ _ _ _ Hg) as (_ & H2 & _); [rewrite Hs; apply sections_nonempty|].
  rewrite Hq, app_nil_r, Hs, sections_encodings in H2. rewrite <- H2 in Hd.
  destruct (C85_receiver uni order t ms queue (length queue) cap racts rs i Hms Hd He Hr Hreads) as (m1 & m2 & -> & E1 & E2 & _).
  rewrite firstn_all, Hd, encodings_app, map_app in E1. rewrite <- (app_nil_r (map _ (encodings uni m1))) in E1 at 2. apply app_inv_head in E1. apply map_eq_nil in E1.
  destruct m2 as [|m m2]; [rewrite app_nil_r; exact E2|]. apply Forall_app in Hms as [_ Hm2]. apply Forall_inv in Hm2.
  destruct (deliverable_marshal uni order m (proj1 Hm2)) as (enc & Em). unfold encodings in E1. cbn [flat_map] in E1. rewrite Em in E1. discriminate.
Qed.
Print Assumptions C85_delivery.

(** ** many senders on the same socket *)
Lemma tagged_messages uni order t (arrival : list (nat * bytes)) : forall ms : nat -> list message,
  (forall j, Forall (for_datagram uni order t) (ms j)) -> (forall j, from Nat.eq_dec j arrival = map (encode t) (encodings uni (ms j))) ->
  exists tagged : list (nat * message), (forall j, from Nat.eq_dec j tagged = ms j) /\ map snd arrival = map (encode t) (encodings uni (map snd tagged)) /\
    Forall (for_datagram uni order t) (map snd tagged).
Proof.
  induction arrival as [|[j b] arrival IH]; intros ms Hms Ha.
  - exists []. split; [|split; [reflexivity|constructor]]. intros j. specialize (Ha j). specialize (Hms j). cbn in Ha. destruct (ms j) as [|m l]; [reflexivity|].
    apply Forall_inv in Hms. destruct (deliverable_marshal uni order m (proj1 Hms)) as (enc & Em). unfold encodings in Ha. cbn [flat_map] in Ha. rewrite Em in Ha. discriminate.
  - pose proof (Ha j) as Hj. change ((j, b) :: arrival) with ([(j, b)] ++ arrival) in Hj. rewrite from_app, from_one_same in Hj. cbn [app] in Hj.
    destruct (ms j) as [|m l] eqn:Ej; [discriminate|]. pose proof (Hms j) as Hmj. rewrite Ej in Hmj. inversion Hmj as [|? ? Hm Hl]; subst.
    destruct (deliverable_marshal uni order m (proj1 Hm)) as (enc & Em). unfold encodings in Hj. cbn [flat_map] in Hj. rewrite Em in Hj. cbn [app map] in Hj. injection Hj as -> Hj.
    destruct (IH (fun k => if Nat.eq_dec k j then l else ms k)) as (tagged & T1 & T2 & T3).
    + intros k. destruct (Nat.eq_dec k j); [exact Hl|apply Hms].
    + intros k. destruct (Nat.eq_dec k j) as [->|n]; [exact Hj|]. rewrite <- (Ha k). change ((j, encode t enc) :: arrival) with ([(j, encode t enc)] ++ arrival).
      rewrite from_app, from_one_other by congruence. reflexivity.
    + exists ((j, m) :: tagged). split; [|split].
      * intros k. change ((j, m) :: tagged) with ([(j, m)] ++ tagged). rewrite from_app. specialize (T1 k). destruct (Nat.eq_dec k j) as [->|n].
        -- rewrite from_one_same, T1, Ej. reflexivity.
        -- rewrite from_one_other by congruence. exact T1.
      * cbn [map snd]. rewrite T2. unfold encodings. cbn [flat_map]. rewrite Em. reflexivity.
      * cbn [map snd]. constructor; assumption.
Qed.

(** [arrival]: the datagrams in the order in which they reach the socket, each with its sender; those of
    a sender keep their order.  What is received is an interleaving of the messages of the senders:
    each message of each sender once, whole, in the order of its sender. *)
Theorem C85_many_senders : forall uni order t (ms : nat -> list message) (grams : nat -> list bytes) arrival queue cap racts rs i,
  (forall j, Forall (for_datagram uni order t) (ms j)) ->
  (forall j, exists gacts ss sacts, gram_run sender_init gacts = Some (ss, sacts, grams j) /\ sends sacts = critical_sections uni t (ms j) /\ s_queue ss = []) ->
  (forall j, from Nat.eq_dec j arrival = grams j) -> datagrams queue = map snd arrival -> plain_errors queue ->
  rrun t cap receiver_init racts = Some rs -> reads_of i racts = gram_reads t (length queue) tok_init [] queue ->
  exists tagged : list (nat * message), (forall j, from Nat.eq_dec j tagged = ms j) /\ Forall2 (fun x p => delivered_as uni order (snd x) p) tagged (delivered_on i rs).
Proof.
  intros uni order t ms grams arrival queue cap racts rs i Hms Hg Ha Hd He Hr Hreads.
  destruct (tagged_messages uni order t arrival ms Hms) as (tagged & T1 & T2 & T3).
  { intros j. rewrite Ha. destruct (Hg j) as (gacts & ss & sacts & H1 & H2 & H3).
    destruct (C85_one_frame_per_datagram _ _ _ _ H1) as (_ & H4 & _); [rewrite H2; apply sections_nonempty|].
    rewrite H3, app_nil_r, H2, sections_encodings in H4. symmetry. exact H4. }
  exists tagged. split; [exact T1|]. rewrite T2 in Hd.
  destruct (C85_receiver uni order t (map snd tagged) queue (length queue) cap racts rs i T3 Hd He Hr Hreads) as (m1 & m2 & Et & E1 & E2 & _).
  assert (Em2 : m2 = []).
  { rewrite firstn_all, Hd, Et, encodings_app, map_app in E1. rewrite <- (app_nil_r (map _ (encodings uni m1))) in E1 at 2. apply app_inv_head in E1. apply map_eq_nil in E1.
    destruct m2 as [|m m2]; [reflexivity|]. rewrite Et in T3. apply Forall_app in T3 as [_ Hm2]. apply Forall_inv in Hm2.
    destruct (deliverable_marshal uni order m (proj1 Hm2)) as (enc & Em). unfold encodings in E1. cbn [flat_map] in E1. rewrite Em in E1. discriminate. }
  subst m2. rewrite app_nil_r in Et. rewrite <- Et in E2. clear -E2. revert E2. generalize (delivered_on i rs). induction tagged as [|x tagged IH]; intros ps H; inversion H; subst; constructor; auto.
Qed.
Print Assumptions C85_many_senders.

(** Non-vacuity: a message without and a message with structured data; the first write fails and the
    connection is opened again; the receiving socket reports an error in between. *)
Definition gframe (m : message) : bytes := match send uni0 (Some TLFEnded) m with Val (inr f) => f | _ => [] end.
Definition gram_sender : list gaction :=
  [GAct (ASend (gframe lmsg1)); GAct (ASend (gframe msg2)); GAct ATick; GAct (AConnect None); GAct ALock; GWrite [GErr 4]; GAct APushErrWrite; GAct ATick; GAct (AConnect None); GAct ALock;
   GWrite [GSent; GNoBufs]; GAct ATick; GAct ALock; GWrite [GSent]; GAct AWriteDone].
Definition gram_queue : list dgram_res := [Datagram (gframe lmsg1); DgramErr 0 (ROther 8); Datagram (gframe msg2)].
Definition gram_receiver : list raction :=
  [RStepSelect; RAccepted true None; KReadReturns 0 (gframe lmsg1) None; KPush 0; KNextTurn 0; KReadReturns 0 [] (Some (ROther 8)); KPushErr 0; KNextTurn 0;
   RReceive; KReadReturns 0 (gframe msg2) None; KPush 0; RReceive].
Example C85_nonvacuous : exists ss sacts rs,
  Forall (for_datagram uni0 (fun _ => []) TLFEnded) [lmsg1; msg2] /\
  gram_run sender_init gram_sender = Some (ss, sacts, [gframe lmsg1; gframe msg2]) /\ sends sacts = critical_sections uni0 TLFEnded [lmsg1; msg2] /\ s_queue ss = [] /\
  datagrams gram_queue = [gframe lmsg1; gframe msg2] /\ plain_errors gram_queue /\
  rrun TLFEnded 1 receiver_init gram_receiver = Some rs /\ reads_of 0 gram_receiver = gram_reads TLFEnded (length gram_queue) tok_init [] gram_queue /\
  length (received rs) = 2%nat /\ map (fun x => imm_text (fst (snd x))) (received rs) = [Val (m_text lmsg1); Val (m_text msg2)].
Proof.
  destruct (gram_run sender_init gram_sender) as [[[ss sacts] grams]|] eqn:Es; [|vm_compute in Es; discriminate].
  destruct (rrun TLFEnded 1 receiver_init gram_receiver) as [rs|] eqn:Er; [|vm_compute in Er; discriminate].
  exists ss, sacts, rs. split.
  { pose proof e2e_deliverable as H. constructor; [|constructor; [|constructor]]; (split; [|split; [intros enc E; vm_compute in E; injection E as <-; vm_compute; lia|split; [discriminate|]]]).
    - exact (Forall_inv H).
    - vm_compute. intros K; repeat (destruct K as [K|K]; [discriminate|]); exact K.
    - exact (Forall_inv (Forall_inv_tail H)).
    - vm_compute. intros K; repeat (destruct K as [K|K]; [discriminate|]); exact K. }
  vm_compute in Es. injection Es as <- <- <-. vm_compute in Er. injection Er as <-.
  split; [vm_compute; reflexivity|]. split; [vm_compute; reflexivity|]. split; [reflexivity|]. split; [vm_compute; reflexivity|].
  split; [constructor; [exact I|]; constructor; [exact I|]; constructor; [exact I|constructor]|]. split; [reflexivity|]. split; [vm_compute; reflexivity|]. split; vm_compute; reflexivity.
Qed.

(** ... and of the blocked sender: the socket refuses the first frame for ever *)
Example C85_blocked_nonvacuous : exists s s' sacts,
  srun sender_init [ASend (gframe lmsg1); AEndCall; ASelectEnd; ADrain; AConnect None; ALock] = Some s /\
  s_queue s = [gframe lmsg1] /\ after_drain (s_pc s) = false /\ s_completed s = false /\
  gram_run s [GWrite [GErr 90]; GAct APushErrWrite; GAct AUserErr; GAct (ASend (gframe msg2)); GAct ADrain; GAct (AConnect None); GAct ALock; GWrite [GErr 90]] = Some (s', sacts, []).
Proof. do 3 eexists. split; [vm_compute; reflexivity|]. split; [vm_compute; reflexivity|]. split; [vm_compute; reflexivity|]. split; [vm_compute; reflexivity|]. vm_compute; reflexivity. Qed.
