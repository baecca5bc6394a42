(** PropEndToEnd2.v -- C84: a Sender and a Receiver joined by connections, LF or NUL framing. *)
From Verif Require Import Base BaseFacts Spec MTime MTransport MSData MMessage MParse MTokenize MReceiver MSender
  LTime LTokenize LParse LRound LTransport PropMessage PropParse PropTransport LLines PropLines PropReceiver LReceiver PropRecvSys LSender PropSender PropSender2 PropSender3 PropEndToEnd.

(** A message for a stream with delimiter c: valid header fields, no structured data, some text,
    which does not contain the delimiter *)
Definition plain (c : N) (m : message) : Prop :=
  header_ok m /\ (0 <= m_prio m <= 299)%Z /\ time_valid (m_time m) /\ m_sd m = [] /\ m_text m <> [] /\ ~ In c (m_text m).

(** What precedes the text of such a message on the wire: the six header fields and '-' *)
Definition up_to_dash (m : message) : bytes := join (words_of m) ++ bs "-".

(** A read of the receiver stops just after the '-' of some message *)
Definition cut_at_dash (uni : N -> bool) (t : transport) (ms : list message) (reads : list (bytes * option read_err)) : Prop :=
  exists n before m after, ms = before ++ m :: after /\
    stream (firstn n reads) = concat (map (encode t) (encodings uni before)) ++ up_to_dash m.

Definition line_of (m : message) : list bytes * bytes := (words_of m, m_text m).

Lemma plain_marshal uni c m : plain c m -> message_marshal uni m = Val (inr (wire_of (line_of m))).
Proof.
  intros (Hh & Hp & Ht & Hsd & Htx & _). destruct (C11_wire_format uni m [] Hp) as [Hw _]; [rewrite Hsd; constructor|]. rewrite Hw, wire_join.
  unfold wire_of, line_of. cbn [fst snd]. destruct (m_text m) as [|x r] eqn:E; [congruence|]. reflexivity.
Qed.

Lemma plain_encodings uni c ms : Forall (plain c) ms -> encodings uni ms = map wire_of (map line_of ms).
Proof.
  induction 1 as [|m ms Hm Hms IH]; [reflexivity|]. unfold encodings in *. cbn [flat_map map]. rewrite (plain_marshal uni c m Hm), IH. reflexivity.
Qed.

Lemma plain_lines c ms : Forall (plain c) ms -> Forall (message_of c) (map line_of ms).
Proof.
  intros H. apply Forall_map. eapply Forall_impl; [|exact H]. intros m (Hh & _ & _ & _ & _ & Hn). split; [reflexivity|].
  split; [exact (words_of_word m (header_ok_words m Hh))|exact Hn].
Qed.

Lemma cut_stops uni t c ms reads : Forall (plain c) ms -> (cut_at_dash uni t ms reads <-> stops_at_dash t (map line_of ms) reads).
Proof.
  intros H. split.
  - intros (n & before & m & after & -> & E). apply Forall_app in H as [Hb _]. exists n, (map line_of before), (words_of m), (m_text m), (map line_of after).
    split; [rewrite map_app; reflexivity|]. rewrite (plain_encodings uni c before Hb) in E. exact E.
  - intros (n & before & ws & text & after & E1 & E). apply map_eq_app in E1 as (b1 & b2 & Ems & Eb & Ea). apply map_eq_cons in Ea as (m & a & -> & Em & Eaf).
    injection Em as <- <-. subst ms. apply Forall_app in H as [Hb _]. exists n, b1, m, a. split; [reflexivity|]. rewrite (plain_encodings uni c b1 Hb), Eb. exact E.
Qed.

Lemma plain_deliverable uni c order m : plain c m -> deliverable uni order m.
Proof. intros (Hh & Hp & Ht & Hsd & Htx & _). unfold deliverable. rewrite Hsd. intuition. Qed.

(** One connection of the receiver *)
Lemma line_connection uni order t c cap racts rs i ms : rrun t cap receiver_init racts = Some rs -> delimiter t = Some c -> Forall (plain c) ms ->
  stream (reads_of i racts) = concat (map (encode t) (encodings uni ms)) -> eof_last (reads_of i racts) -> ~ cut_at_dash uni t ms (reads_of i racts) ->
  Forall2 (delivered_as uni order) ms (delivered_on i rs).
Proof.
  intros Hr Hc Hms Hs He Hn. unfold delivered_on. rewrite (C40_in_order _ _ _ _ Hr i).
  rewrite (cut_stops uni t c ms _ Hms) in Hn. pose proof Hs as Hs'. rewrite (plain_encodings uni c ms Hms) in Hs'.
  destruct (C34_every_segmentation t c _ _ Hc (plain_lines c ms Hms) Hs' He Hn) as (H2 & _).
  apply deliverable_pairs; [eapply Forall_impl; [|exact Hms]; intros; eapply plain_deliverable; eassumption|].
  rewrite (plain_encodings uni c ms Hms). clear -H2. induction H2 as [|l p ls sent (H & Hn & _) H2 IH]; [constructor|]. cbn [map]. constructor; [|exact IH].
  rewrite Hn. exact H.
Qed.

(** Everything sent and flushed on a connection that never fails is received, in order, unless a read
    of the receiver stops just after a '-'. *)
Theorem C84_delivery : forall uni order t c ms sacts ss cap racts rs i,
  delimiter t = Some c -> Forall (plain c) ms ->
  srun sender_init sacts = Some ss -> sends sacts = critical_sections uni t ms -> lost sacts = 0%nat -> s_queue ss = [] ->
  rrun t cap receiver_init racts = Some rs -> stream (reads_of i racts) = on 0 (s_log ss) -> eof_last (reads_of i racts) ->
  ~ cut_at_dash uni t ms (reads_of i racts) ->
  Forall2 (delivered_as uni order) ms (delivered_on i rs).
Proof.
  intros uni order t c ms sacts ss cap racts rs i Hc Hms Hs Hm Hl Hq Hr Hst He Hn. apply (line_connection uni order t c cap racts); try assumption.
  rewrite Hst, <- (never_lost _ _ Hs Hl). pose proof (C49_stream _ _ _ _ _ Hs Hm) as E. rewrite Hq in E. cbn [concat] in E. rewrite app_nil_r in E. exact E.
Qed.
Print Assumptions C84_delivery.

(** ... and if one does, the receiving process crashes. *)
Theorem C84_crash_iff : forall uni t c ms sacts ss racts i,
  delimiter t = Some c -> Forall (plain c) ms ->
  srun sender_init sacts = Some ss -> sends sacts = critical_sections uni t ms -> lost sacts = 0%nat -> s_queue ss = [] ->
  stream (reads_of i racts) = on 0 (s_log ss) -> eof_last (reads_of i racts) ->
  (decoder_panics t i racts <-> cut_at_dash uni t ms (reads_of i racts)).
Proof.
  intros uni t c ms sacts ss racts i Hc Hms Hs Hm Hl Hq Hst He. rewrite (cut_stops uni t c ms _ Hms). unfold decoder_panics.
  apply (C34_crash_iff t c _ _ Hc (plain_lines c ms Hms)); [|exact He].
  rewrite <- (plain_encodings uni c ms Hms), Hst, <- (never_lost _ _ Hs Hl). pose proof (C49_stream _ _ _ _ _ Hs Hm) as E. rewrite Hq in E. cbn [concat] in E. rewrite app_nil_r in E. exact E.
Qed.
Print Assumptions C84_crash_iff.

(** ** before everything is read *)
Lemma run_lines_unread t c reads : forall st ls unread, delim t = Some c -> Forall (line_ok c) ls -> t_pending st ++ stream reads ++ unread = lines c ls ->
  line_cut c ls (t_pending st) -> ~ bad_boundary c ls (t_pending st) -> ended reads = false ->
  ((exists n, bad_boundary c ls (t_pending st ++ stream (firstn n reads))) /\ o_next (tok_run t st reads) = TCrash) \/
  ((forall n, ~ bad_boundary c ls (t_pending st ++ stream (firstn n reads))) /\
   exists ls1 ls2 st', ls = ls1 ++ ls2 /\ o_sent (tok_run t st reads) = map line_pair ls1 /\ o_next (tok_run t st reads) = TCont st' /\
     t_pending st ++ stream reads = lines c ls1 ++ t_pending st' /\ line_cut c ls2 (t_pending st')).
Proof.
  induction reads as [|[chunk err] more IH]; intros st ls unread Hc Hok Hs Hcut Hnb He; cbn [tok_run].
  - right. split; [intros n; rewrite firstn_nil; cbn; rewrite app_nil_r; exact Hnb|].
    exists [], ls, st. cbn [o_sent o_next map lines concat app]. unfold stream. cbn [map concat]. rewrite app_nil_r. auto.
  - cbn [ended existsb snd] in He. fold (ended more) in He. apply orb_false_iff in He as [He1 He2]. unfold stream in Hs. cbn [map fst concat] in Hs. fold (stream more) in Hs.
    assert (Hst : forall n, stream (firstn (S n) ((chunk, err) :: more)) = chunk ++ stream (firstn n more)) by reflexivity.
    assert (Hss : stream ((chunk, err) :: more) = chunk ++ stream more) by reflexivity. rewrite Hss.
    destruct (chunk) as [|x chunk'] eqn:Ech.
    + rewrite step_empty. cbn [o_next o_sent o_errs]. cbn [app] in Hs. rewrite He1. cbn [o_next o_sent o_errs app].
      destruct (IH st ls unread Hc Hok Hs Hcut Hnb He2) as [((n & Hb) & Hn)|(Hno & H)].
      * left. split; [|exact Hn]. exists (S n). rewrite Hst. exact Hb.
      * right. split; [intros [|n]; [exact (Hno 0%nat)|rewrite Hst; exact (Hno n)]|]. exact H.
    + rewrite <- Ech in *. assert (Hne : chunk <> []) by congruence. clear Ech x chunk'. rewrite <- app_assoc, app_assoc in Hs.
      destruct (inner_lines t c (S (length (t_pending st ++ chunk))) ls (t_pending st ++ chunk) (stream more ++ unread) (is_eof err) Hc Hok Hs)
        as (ls1 & ls2 & left & r & Hi & -> & Hlu & Hd & Hcut' & Hr); [intros E; apply app_eq_nil in E as [_ E]; contradiction|apply Nat.lt_succ_diag_r|].
      destruct (step_nonempty t st chunk err _ _ Hne Hi) as [Hsent Hnext].
      rewrite Forall_app in Hok. destruct Hok as [Hok1 Hok2].
      assert (Hshift : forall n, bad_boundary c (ls1 ++ ls2) (t_pending st ++ stream (firstn (S n) ((chunk, err) :: more))) <->
                        bad_boundary c ls2 (left ++ stream (firstn n more))).
      { intros n. rewrite Hst, app_assoc, Hd, <- app_assoc. apply bad_shift. }
      rewrite (dash_bad c ls2 left Hcut') in Hr. destruct Hr as [[Hb ->]|[Hnb' ->]]; rewrite Hnext.
      * left. split; [|exact Hnext]. exists 1%nat. apply (Hshift 0%nat). cbn. rewrite app_nil_r. exact Hb.
      * rewrite He1. cbn [o_sent o_next].
        match goal with |- context [tok_run t ?s more] => destruct (IH s ls2 unread Hc Hok2) as [((n & Hb) & Hn)|(Hno & l1 & l2 & st' & -> & H2 & H3 & H4 & H5)]; try assumption end.
        -- left. split; [|exact Hn]. exists (S n). apply Hshift. exact Hb.
        -- right. split; [intros [|n]; [unfold stream; cbn [firstn map concat]; rewrite (app_nil_r (t_pending st)); exact Hnb|rewrite Hshift; exact (Hno n)]|].
           exists (ls1 ++ l1), l2, st'. rewrite <- app_assoc. split; [reflexivity|]. rewrite Hsent, H2, map_app. split; [reflexivity|]. split; [exact H3|].
           split; [|exact H5]. rewrite app_assoc, Hd, <- app_assoc. cbn [t_pending] in H4. rewrite H4, lines_app, <- app_assoc. reflexivity.
Qed.

(** At every moment before: the messages of which the receiver has read the whole frame, in order. *)
Theorem C84_at_every_moment : forall uni order t c ms sacts ss cap racts rs i unread,
  delimiter t = Some c -> Forall (plain c) ms ->
  srun sender_init sacts = Some ss -> sends sacts = critical_sections uni t ms -> lost sacts = 0%nat ->
  rrun t cap receiver_init racts = Some rs -> stream (reads_of i racts) ++ unread = on 0 (s_log ss) -> ended (reads_of i racts) = false ->
  ~ cut_at_dash uni t ms (reads_of i racts) ->
  exists ms1 ms2 rest, ms = ms1 ++ ms2 /\ Forall2 (delivered_as uni order) ms1 (delivered_on i rs) /\
    stream (reads_of i racts) = concat (map (encode t) (encodings uni ms1)) ++ rest /\
    (rest = [] \/ exists m ms' enc, ms2 = m :: ms' /\ message_marshal uni m = Val (inr enc) /\ (length rest < length (encode t enc))%nat).
Proof.
  intros uni order t c ms sacts ss cap racts rs i unread Hc Hms Hs Hm Hl Hr Hst He Hn.
  pose proof Hc as Hd. rewrite delimiter_delim in Hd.
  pose proof (C49_stream _ _ _ _ _ Hs Hm) as E. rewrite (never_lost _ _ Hs Hl), <- Hst, <- app_assoc in E.
  rewrite (plain_encodings uni c ms Hms), (wire_lines t c _ Hd) in E.
  destruct (run_lines_unread t c (reads_of i racts) tok_init (map line_of ms) _ Hd (plain_lines c ms Hms) E) as [(Hb & _)|(_ & ls1 & ls2 & st & E1 & E2 & _ & E4 & E5)].
  { left. reflexivity. }
  { intros (before & ws & text & after & _ & E0). cbn in E0. symmetry in E0. apply app_eq_nil in E0 as [_ E0]. apply app_eq_nil in E0 as [_ E0]. discriminate. }
  { exact He. }
  { exfalso. apply Hn, (cut_stops uni t c ms _ Hms), (stops_bad t c _ _ Hd). exact Hb. }
  apply map_eq_app in E1 as (ms1 & ms2 & -> & <- & <-). apply Forall_app in Hms as [Hm1 Hm2].
  exists ms1, ms2, (t_pending st). split; [reflexivity|]. split; [|split].
  - apply deliverable_pairs; [eapply Forall_impl; [|exact Hm1]; intros; eapply plain_deliverable; eassumption|].
    unfold delivered_on. rewrite (C40_in_order _ _ _ _ Hr i), E2, (plain_encodings uni c ms1 Hm1), !map_map.
    pose proof (plain_lines c ms1 Hm1) as Hok. clear -Hok. induction ms1 as [|m ms1 IH]; [constructor|]. cbn [map] in *. inversion Hok; subst. constructor; [|auto].
    apply (line_decodes c). assumption.
  - cbn [t_pending tok_init app] in E4. rewrite E4, (plain_encodings uni c ms1 Hm1), (wire_lines t c _ Hd). reflexivity.
  - destruct E5 as [E5|(l & ls' & E5 & E6)]; [left; exact E5|right]. apply map_eq_cons in E5 as (m & ms' & -> & <- & <-). apply Forall_inv in Hm2.
    exists m, ms', (wire_of (line_of m)). split; [reflexivity|]. split; [exact (plain_marshal uni c m Hm2)|].
    destruct t; try discriminate; injection Hd as <-; exact E6.
Qed.
Print Assumptions C84_at_every_moment.

(** ** connections lost and opened again *)

(** Messages that all have an encoding, on connections whose failing writes stop between two frames:
    the messages split into consecutive groups, one per connection. *)
Lemma message_groups uni t ms acts s : srun sender_init acts = Some s -> sends acts = critical_sections uni t ms -> clean_failures acts -> s_queue s = [] ->
  Forall (fun m => exists enc, message_marshal uni m = Val (inr enc)) ms ->
  exists mss, ms = concat mss /\ Forall2 (fun c g => on c (s_log s) = concat (map (encode t) (encodings uni g))) (seq 0 (connects acts)) mss.
Proof.
  intros Hs Hm Hcl Hq Hen. destruct (groups acts s Hs Hcl Hq (connects acts) ltac:(lia)) as (gs & rest & E & F).
  assert (Er : concat rest = []).
  { pose proof (C41_no_loss _ _ Hs) as [Hb Ho]. rewrite Hq in Hb. cbn [concat] in Hb. rewrite app_nil_r, Ho, E, concat_app in Hb.
    assert (Eb : concat (map (fun c => on c (s_log s)) (seq 0 (connects acts))) = concat (concat gs)).
    { clear -F. induction F as [|c g cs gs Hx F IH]; [reflexivity|]. cbn [map concat]. rewrite concat_app, Hx, IH. reflexivity. }
    rewrite Eb in Hb. rewrite <- (app_nil_r (concat (concat gs))) in Hb at 1. apply app_inv_head in Hb. congruence. }
  rewrite Hm, sections_encodings in E. pose proof (encodings_length uni ms) as H20.
  assert (Hn : rest = []).
  { destruct rest as [|f rest]; [reflexivity|exfalso]. assert (Hi : In f (map (encode t) (encodings uni ms))) by (rewrite E; apply in_app_iff; right; left; reflexivity).
    apply in_map_iff in Hi as (d & <- & Hd). specialize (H20 _ Hd). pose proof (frame_length t d) as Hl. cbn [concat] in Er. apply app_eq_nil in Er as [Er _].
    rewrite Er in Hl. cbn [length] in Hl. lia. }
  subst rest. rewrite app_nil_r in E. clear -F E Hen. revert ms Hen E. induction F as [|c g cs gs Hx F IH]; intros ms Hen E.
  - exists []. split; [|constructor]. destruct Hen as [|m ms (enc & Hm) Hen]; [reflexivity|]. unfold encodings in E. cbn [flat_map] in E. rewrite Hm in E. discriminate.
  - cbn [concat] in E. assert (Hsp : exists m1 m2, ms = m1 ++ m2 /\ map (encode t) (encodings uni m1) = g /\ map (encode t) (encodings uni m2) = concat gs).
    { clear -E Hen. revert g E. induction Hen as [|m ms (enc & Hm) Hen IH]; intros g E.
      - exists [], []. destruct g; [|discriminate]. cbn in *. auto.
      - unfold encodings in E. cbn [flat_map] in E. rewrite Hm in E. cbn [app map] in E. destruct g as [|f g].
        + exists [], (m :: ms). split; [reflexivity|]. split; [reflexivity|]. unfold encodings. cbn [flat_map]. rewrite Hm. exact E.
        + injection E as <- E. destruct (IH _ E) as (m1 & m2 & -> & E1 & E2). exists (m :: m1), m2. split; [reflexivity|]. split; [|exact E2].
          unfold encodings. cbn [flat_map]. rewrite Hm. cbn [app map]. f_equal. exact E1. }
    destruct Hsp as (m1 & m2 & -> & <- & E2). apply Forall_app in Hen as [_ Hen]. destruct (IH m2 Hen E2) as (mss & -> & F2).
    exists (m1 :: mss). split; [reflexivity|]. constructor; assumption.
Qed.

Lemma forall2_concat {A B C} (R : A -> B -> Prop) (f : C -> list B) (cs : list C) : forall mss : list (list A),
  Forall2 (fun c g => Forall2 R g (f c)) cs mss -> Forall2 R (concat mss) (concat (map f cs)).
Proof. intros mss F. induction F as [|c g cs mss H F IH]; [constructor|]. cbn [map concat]. apply Forall2_app; assumption. Qed.

(** Each connection of the sender, say k, is a connection [rc k] of the receiver.  The messages split
    into consecutive groups, one per connection; each group is received whole, in order, unless a
    read of its connection stops just after one of its '-'. *)
Theorem C84_groups : forall uni order t c ms sacts ss cap racts rs rc,
  delimiter t = Some c -> Forall (plain c) ms ->
  srun sender_init sacts = Some ss -> sends sacts = critical_sections uni t ms -> clean_failures sacts -> s_queue ss = [] ->
  rrun t cap receiver_init racts = Some rs ->
  (forall k, (k < connects sacts)%nat -> stream (reads_of (rc k) racts) = on k (s_log ss) /\ eof_last (reads_of (rc k) racts)) ->
  exists mss, ms = concat mss /\ Forall2 (fun k g =>
    on k (s_log ss) = concat (map (encode t) (encodings uni g)) /\
    (decoder_panics t (rc k) racts <-> cut_at_dash uni t g (reads_of (rc k) racts)) /\
    (~ cut_at_dash uni t g (reads_of (rc k) racts) -> Forall2 (delivered_as uni order) g (delivered_on (rc k) rs))) (seq 0 (connects sacts)) mss.
Proof.
  intros uni order t c ms sacts ss cap racts rs rc Hc Hms Hs Hm Hcl Hq Hr Hrc.
  destruct (message_groups uni t ms sacts ss Hs Hm Hcl Hq) as (mss & -> & F).
  { eapply Forall_impl; [|exact Hms]. intros m H. eexists. exact (plain_marshal uni c m H). }
  exists mss. split; [reflexivity|]. assert (Hk : forall k, In k (seq 0 (connects sacts)) -> (k < connects sacts)%nat) by (intros k Hi; apply in_seq in Hi; lia).
  revert Hk Hms. generalize dependent (seq 0 (connects sacts)). intros ks F. clear Hm. induction F as [|k g ks mss E F IH]; intros Hk Hms; [constructor|].
  cbn [concat] in Hms. apply Forall_app in Hms as [Hg Hms]. constructor.
  - specialize (Hk k (or_introl eq_refl)). destruct (Hrc k Hk) as [Hst He]. split; [exact E|]. rewrite E in Hst. split.
    + rewrite (cut_stops uni t c g _ Hg). unfold decoder_panics. apply (C34_crash_iff t c _ _ Hc (plain_lines c g Hg)); [|exact He].
      rewrite <- (plain_encodings uni c g Hg). exact Hst.
    + intros Hn. apply (line_connection uni order t c cap racts); assumption.
  - apply IH; [intros k' Hi; apply Hk; right; exact Hi|exact Hms].
Qed.
Print Assumptions C84_groups.

(** Together, when no read stops just after a '-' (of whatever group of messages) *)
Theorem C84_reconnections : forall uni order t c ms sacts ss cap racts rs rc,
  delimiter t = Some c -> Forall (plain c) ms ->
  srun sender_init sacts = Some ss -> sends sacts = critical_sections uni t ms -> clean_failures sacts -> s_queue ss = [] ->
  rrun t cap receiver_init racts = Some rs ->
  (forall k, (k < connects sacts)%nat -> stream (reads_of (rc k) racts) = on k (s_log ss) /\ eof_last (reads_of (rc k) racts)) ->
  (forall k a g b, (k < connects sacts)%nat -> ms = a ++ g ++ b -> ~ cut_at_dash uni t g (reads_of (rc k) racts)) ->
  Forall2 (delivered_as uni order) ms (concat (map (fun k => delivered_on (rc k) rs) (seq 0 (connects sacts)))).
Proof.
  intros uni order t c ms sacts ss cap racts rs rc Hc Hms Hs Hm Hcl Hq Hr Hrc Hno.
  destruct (C84_groups uni order t c ms sacts ss cap racts rs rc Hc Hms Hs Hm Hcl Hq Hr Hrc) as (mss & Ems & F).
  assert (Hsub : exists pre, ms = pre ++ concat mss) by (exists []; exact Ems). rewrite Ems. apply forall2_concat. clear Ems.
  assert (Hk : forall k, In k (seq 0 (connects sacts)) -> (k < connects sacts)%nat) by (intros k Hi; apply in_seq in Hi; lia).
  revert Hk Hsub. generalize dependent (seq 0 (connects sacts)). intros ks F. induction F as [|k g ks mss (_ & _ & H) F IH]; intros Hk (pre & Hsub); [constructor|].
  cbn [concat] in Hsub. constructor.
  - apply H. apply (Hno k pre g (concat mss)); [apply Hk; left; reflexivity|exact Hsub].
  - apply IH; [intros k' Hi; apply Hk; right; exact Hi|]. exists (pre ++ g). rewrite Hsub, app_assoc. reflexivity.
Qed.
Print Assumptions C84_reconnections.

(** With frames of at most 500 bytes the receiver's goroutine can always read on. *)
Theorem C84_progress : forall uni t c ms sacts ss racts i unread,
  delimiter t = Some c -> Forall (plain c) ms ->
  srun sender_init sacts = Some ss -> sends sacts = critical_sections uni t ms -> lost sacts = 0%nat ->
  stream (reads_of i racts) ++ unread = on 0 (s_log ss) -> ended (reads_of i racts) = false -> ~ cut_at_dash uni t ms (reads_of i racts) ->
  Forall (fun enc => (length (encode t enc) <= 500)%nat) (encodings uni ms) ->
  exists st, o_next (tok_run t tok_init (reads_of i racts)) = TCont st /\ (0 < tok_room st)%Z.
Proof.
  intros uni t c ms sacts ss racts i unread Hc Hms Hs Hm Hl Hst He Hn H500.
  pose proof Hc as Hd. rewrite delimiter_delim in Hd.
  pose proof (C49_stream _ _ _ _ _ Hs Hm) as E. rewrite (never_lost _ _ Hs Hl), <- Hst, <- app_assoc in E.
  rewrite (plain_encodings uni c ms Hms), (wire_lines t c _ Hd) in E.
  destruct (run_lines_unread t c (reads_of i racts) tok_init (map line_of ms) _ Hd (plain_lines c ms Hms) E) as [(Hb & _)|(_ & ls1 & ls2 & st & E1 & _ & E3 & _ & E5)].
  { left. reflexivity. }
  { intros (before & ws & text & after & _ & E0). cbn in E0. symmetry in E0. apply app_eq_nil in E0 as [_ E0]. apply app_eq_nil in E0 as [_ E0]. discriminate. }
  { exact He. }
  { exfalso. apply Hn, (cut_stops uni t c ms _ Hms), (stops_bad t c _ _ Hd). exact Hb. }
  exists st. split; [exact E3|]. assert (Hb : (500 <= t_buflen st)%Z) by (apply (run_buflen t (reads_of i racts) tok_init st); [cbn; unfold read_buffer; lia|exact E3]).
  unfold tok_room. destruct E5 as [->|(l & ls' & -> & E6)]; [cbn; lia|].
  apply map_eq_app in E1 as (ms1 & ms2 & -> & _ & E2). apply map_eq_cons in E2 as (m & ms' & -> & <- & _).
  rewrite Forall_forall in H500. assert (Hi : In (wire_of (line_of m)) (encodings uni (ms1 ++ m :: ms'))).
  { rewrite (plain_encodings uni c _ Hms), map_map. apply in_map_iff. exists m. split; [reflexivity|]. apply in_or_app. right; left; reflexivity. }
  specialize (H500 _ Hi). assert (Hfr : encode t (wire_of (line_of m)) = line (line_of m) ++ [c]) by (destruct t; try discriminate; injection Hd as <-; reflexivity).
  rewrite Hfr in H500. lia.
Qed.
Print Assumptions C84_progress.

(** ** non-vacuity, and the crash *)
Definition cut_check (uni : N -> bool) (t : transport) (ms : list message) (reads : list (bytes * option read_err)) : bool :=
  existsb (fun n => existsb (fun k => bytes_eqb (stream (firstn n reads)) (concat (map (encode t) (encodings uni (firstn k ms))) ++ match nth_error ms k with Some m => up_to_dash m | None => [] end))
    (seq 0 (length ms))) (seq 0 (S (length reads))).
Lemma cut_check_sound uni t ms reads : cut_check uni t ms reads = false -> ~ cut_at_dash uni t ms reads.
Proof.
  intros H (n & before & m & after & -> & E). assert (Hn : exists n', (n' <= length reads)%nat /\ firstn n' reads = firstn n reads).
  { destruct (Nat.le_gt_cases n (length reads)) as [Hle|Hgt]; [exists n; auto|]. exists (length reads). split; [lia|]. rewrite !firstn_all2 by lia. reflexivity. }
  destruct Hn as (n' & Hn' & En). unfold cut_check in H. assert (Ht : true = false); [|discriminate]. rewrite <- H. symmetry.
  apply existsb_exists. exists n'. split; [apply in_seq; lia|]. apply existsb_exists. exists (length before). split; [apply in_seq; rewrite app_length; cbn [length]; lia|].
  rewrite En, firstn_app, firstn_all, Nat.sub_diag, firstn_O, app_nil_r, nth_error_app2, Nat.sub_diag by lia. cbn [nth_error]. rewrite E. apply bytes_eqb_refl.
Qed.

Definition lmsg1 : message := sample.
Definition lmsg2 : message := msg_set_text sample (bs "- second").
Definition lframe (m : message) : bytes := match send uni0 (Some TLFEnded) m with Val (inr f) => f | _ => [] end.
Definition lines_sender : list saction :=
  [ASend (lframe lmsg1); ATick; AConnect None; ALock; AWrite 5 WNoBufs; ASend (lframe lmsg2); ATick; ALock;
   AWrite (length (lframe lmsg1) + length (lframe lmsg2) - 5) WOk; AWriteDone; AEndCall; ASelectEnd; ADrain; ACloseOut; ACloseDone; ACloseErr].
(** [at_dash]: where the first read stops *)
Definition lines_receiver (k : nat) : list raction :=
  [RStepSelect; RAccepted true None; KReadReturns 0 (firstn k (lframe lmsg1)) None].
Definition lines_more : list raction :=
  [KNextTurn 0; KReadReturns 0 (skipn 9 (lframe lmsg1) ++ firstn 30 (lframe lmsg2)) None; KPush 0; RReceive; KNextTurn 0;
   KReadReturns 0 (skipn 30 (lframe lmsg2)) (Some REOF); KPush 0; RReceive; KNextTurn 0].

Lemma lines_plain : Forall (plain 10%N) [lmsg1; lmsg2].
Proof.
  destruct sample_ok as (A & B & C). repeat (constructor; [split; [exact A|]; split; [exact B|]; split; [exact C|]; split; [reflexivity|]; split; [discriminate|]|]); try constructor;
    vm_compute; intros H; repeat (destruct H as [H|H]; [discriminate|]); exact H.
Qed.

Example C84_nonvacuous : exists ss rs,
  Forall (plain 10%N) [lmsg1; lmsg2] /\ srun sender_init lines_sender = Some ss /\ sends lines_sender = critical_sections uni0 TLFEnded [lmsg1; lmsg2] /\ lost lines_sender = 0%nat /\
  s_queue ss = [] /\ clean_failures lines_sender /\ connects lines_sender = 1%nat /\
  rrun TLFEnded 1 receiver_init (lines_receiver 9 ++ lines_more) = Some rs /\ stream (reads_of 0 (lines_receiver 9 ++ lines_more)) = on 0 (s_log ss) /\ eof_last (reads_of 0 (lines_receiver 9 ++ lines_more)) /\
  ~ cut_at_dash uni0 TLFEnded [lmsg1; lmsg2] (reads_of 0 (lines_receiver 9 ++ lines_more)) /\ length (received rs) = 2%nat /\
  map (fun x => imm_text (fst (snd x))) (received rs) = [Val (bs "]]  any text \] ""]"); Val (bs "- second")].
Proof.
  destruct (srun sender_init lines_sender) as [ss|] eqn:Es; [|vm_compute in Es; discriminate].
  destruct (rrun TLFEnded 1 receiver_init (lines_receiver 9 ++ lines_more)) as [rs|] eqn:Er; [|vm_compute in Er; discriminate].
  exists ss, rs. split; [exact lines_plain|]. split; [reflexivity|]. split; [vm_compute; reflexivity|]. split; [reflexivity|].
  vm_compute in Es. injection Es as <-. split; [reflexivity|]. split.
  { apply (clean_from_ok lines_sender []); [|reflexivity]. unfold lines_sender. cbn [clean_from]. repeat (split; [exact I|]). exact I. }
  split; [reflexivity|]. split; [reflexivity|]. split; [vm_compute; reflexivity|]. split; [vm_compute; repeat split; intros; discriminate|].
  split; [apply cut_check_sound; vm_compute; reflexivity|]. vm_compute in Er. injection Er as <-. split; vm_compute; reflexivity.
Qed.

(** A read that stops at the '-' of the first message: the receiving process crashes and the message is
    lost, although the sender, the network and the decoder of a whole line are right. *)
Theorem C84_every_segmentation_refuted :
  let cut := length (up_to_dash lmsg1) in
  cut_at_dash uni0 TLFEnded [lmsg1; lmsg2] (reads_of 0 (lines_receiver cut)) /\
  exists rs, rrun TLFEnded 1 receiver_init (lines_receiver cut ++ [KNextTurn 0]) = Some rs /\ r_crashed rs = true.
Proof.
  cbv zeta. split; [exists 1%nat, [], lmsg1, [lmsg2]; split; [reflexivity|vm_compute; reflexivity]|]. eexists. split; vm_compute; reflexivity.
Qed.
Print Assumptions C84_every_segmentation_refuted.
