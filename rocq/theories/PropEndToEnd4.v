(** PropEndToEnd4.v -- C84 for messages with structured data: a Sender and a Receiver joined by
    connections, LF or NUL framing. *)
From Verif Require Import Base BaseFacts Spec MTime MTransport MSData MMessage MParse MTokenize MReceiver MSender
  LTime LTokenize LParse LRound LTransport PropMessage PropParse PropTransport LLines PropLines PropReceiver PropMixed LReceiver PropRecvSys LSender PropSender PropSender2 PropSender3 PropEndToEnd PropEndToEnd2.

(** A message for a stream with delimiter c: one that survives encoding and decoding (C13), with some
    text, and whose encoding does not contain the delimiter. *)
Definition framable (uni : N -> bool) (order : nat -> list sdid) (c : N) (m : message) : Prop :=
  deliverable uni order m /\ m_text m <> [] /\ forall enc, message_marshal uni m = Val (inr enc) -> ~ In c enc.

(** m without its text and with the first k of its structured data elements only *)
Definition cut_short (m : message) (k : nat) : message :=
  {| m_prio := m_prio m; m_time := m_time m; m_host := m_host m; m_app := m_app m; m_procid := m_procid m; m_msgid := m_msgid m; m_sd := firstn k (m_sd m); m_text := [] |}.

(** Some read stops where what is read of a message is itself a message without text. *)
Definition cut_after_data (uni : N -> bool) (t : transport) (ms : list message) (reads : list (bytes * option read_err)) : Prop :=
  exists n before m after k enc, ms = before ++ m :: after /\ (k = 0%nat -> m_sd m = []) /\ message_marshal uni (cut_short m k) = Val (inr enc) /\
    stream (firstn n reads) = concat (map (encode t) (encodings uni before)) ++ enc.

(** After each message with structured data, some read stops where what has been read past it has a
    '\' before each ']' and does not end with ']'. *)
Definition clear_past (uni : N -> bool) (t : transport) (ms : list message) (reads : list (bytes * option read_err)) : Prop :=
  forall before m after, ms = before ++ m :: after -> m_sd m <> [] ->
    exists n past, stream (firstn n reads) = concat (map (encode t) (encodings uni (before ++ [m]))) ++ past /\ text_safe past.

(** p is what Parse gives for the encoding of m alone *)
Definition decoded (uni : N -> bool) (m : message) (p : pair_t) : Prop :=
  exists enc, message_marshal uni m = Val (inr enc) /\ parse enc None true = Val (fst p, None, None) /\ snd p = None.

Definition els_of (uni : N -> bool) (m : message) : list bytes := flat_map (fun s => match sd_marshal uni s with Val (inr e) => [e] | _ => [] end) (m_sd m).
Definition mixed_line (uni : N -> bool) (m : message) : mixed := (words_of m, els_of uni m, m_text m).

Lemma els_ok uni order m : deliverable uni order m ->
  Forall2 (fun s e => sd_marshal uni s = Val (inr e)) (m_sd m) (els_of uni m) /\ Forall sd_element (els_of uni m).
Proof.
  intros (_ & _ & _ & Hd & _). destruct (back_list uni order (m_sd m) Hd) as (encs & H2 & Hel & _ & _).
  replace (els_of uni m) with encs; [split; assumption|]. unfold els_of. clear -H2. induction H2 as [|s e l encs H H2 IH]; [reflexivity|]. cbn [flat_map]. rewrite H, IH. reflexivity.
Qed.

Lemma els_firstn uni order m k : deliverable uni order m -> Forall2 (fun s e => sd_marshal uni s = Val (inr e)) (firstn k (m_sd m)) (firstn k (els_of uni m)).
Proof.
  intros H. destruct (els_ok uni order m H) as [H2 _]. clear -H2. revert k. induction H2; intros [|k]; cbn [firstn]; constructor; auto.
Qed.

Lemma els_none uni order m : deliverable uni order m -> (els_of uni m = [] <-> m_sd m = []).
Proof. intros H. destruct (els_ok uni order m H) as [H2 _]. destruct H2; split; intros; congruence. Qed.

Lemma framable_marshal uni order c m : framable uni order c m -> message_marshal uni m = Val (inr (mixed_wire (mixed_line uni m))).
Proof.
  intros (Hd & Ht & _). destruct (els_ok uni order m Hd) as [H2 _]. destruct Hd as (_ & Hp & _).
  destruct (C11_wire_format uni m _ Hp H2) as [Hw _]. rewrite Hw, wire_join. unfold mixed_wire, mixed_line, m_words, m_els, m_txt. cbn [fst snd].
  destruct (m_text m) as [|x r] eqn:E; [congruence|]. reflexivity.
Qed.

Lemma cut_marshal uni order m k : deliverable uni order m -> message_marshal uni (cut_short m k) = Val (inr (join (words_of m) ++ PropMessage.sd_field (firstn k (els_of uni m)))).
Proof.
  intros Hd. pose proof (els_firstn uni order m k Hd) as H2. destruct Hd as (_ & Hp & _).
  destruct (C11_wire_format uni (cut_short m k) _ Hp H2) as [Hw _]. rewrite Hw, wire_join. cbn [cut_short m_text]. rewrite app_nil_r. reflexivity.
Qed.

Lemma framable_encodings uni order c ms : Forall (framable uni order c) ms -> encodings uni ms = map mixed_wire (map (mixed_line uni) ms).
Proof.
  induction 1 as [|m ms Hm Hms IH]; [reflexivity|]. unfold encodings in *. cbn [flat_map map]. rewrite (framable_marshal uni order c m Hm), IH. reflexivity.
Qed.

Lemma framable_mixed uni order c ms : Forall (framable uni order c) ms -> Forall (mixed_of c) (map (mixed_line uni) ms).
Proof.
  intros H. apply Forall_map. eapply Forall_impl; [|exact H]. intros m Hm. pose proof (framable_marshal uni order c m Hm) as E. destruct Hm as (Hd & Ht & Hn). specialize (Hn _ E).
  destruct (els_ok uni order m Hd) as [H2 Hel]. pose proof (els_none uni order m Hd) as Hnone. destruct Hd as (Hh & _ & _ & _ & Hx).
  unfold mixed_of, mixed_wire, mixed_line, m_words, m_els, m_txt in *. cbn [fst snd] in *. split; [reflexivity|]. split; [exact (words_of_word m (header_ok_words m Hh))|]. split; [exact Hel|].
  split; [intros Hi; apply Hn, in_or_app; right; apply in_or_app; right; right; exact Hi|]. intros Hne. split.
  - destruct Hx as [Hx|[Hx|Hx]]; [apply Hnone in Hx; contradiction|contradiction|exact Hx].
  - intros Hi. apply Hn, in_or_app. right. apply in_or_app. left. unfold PropMessage.sd_field. destruct (els_of uni m); [contradiction|exact Hi].
Qed.

Lemma cut_stops_data uni order t c ms reads : Forall (framable uni order c) ms -> (cut_after_data uni t ms reads <-> stops_after_data t (map (mixed_line uni) ms) reads).
Proof.
  intros H. split.
  - intros (n & before & m & after & k & enc & -> & Hk & He & Es). apply Forall_app in H as [Hb Hm]. apply Forall_inv in Hm.
    rewrite (cut_marshal uni order m k (proj1 Hm)) in He. injection He as <-.
    exists n, (map (mixed_line uni) before), (mixed_line uni m), (map (mixed_line uni) after), (firstn k (els_of uni m)), (skipn k (els_of uni m)).
    split; [rewrite map_app; reflexivity|]. split; [symmetry; apply firstn_skipn|]. split.
    + intros Ef. unfold mixed_line, m_els. cbn [fst snd]. destruct k as [|k]; [apply (els_none uni order m (proj1 Hm)); auto|]. destruct (els_of uni m); [reflexivity|discriminate].
    + rewrite (framable_encodings uni order c before Hb) in Es. exact Es.
  - intros (n & before & f & after & els1 & els2 & E1 & E2 & Hk & Es). apply map_eq_app in E1 as (b1 & b2 & Ems & Eb & Ea). apply map_eq_cons in Ea as (m & a & -> & Em & Eaf).
    subst ms before f. apply Forall_app in H as [Hb Hm]. apply Forall_inv in Hm. unfold mixed_line, m_els, m_words in E2, Hk, Es. cbn [fst snd] in E2, Hk, Es.
    exists n, b1, m, a, (length els1), (join (words_of m) ++ PropMessage.sd_field els1). split; [reflexivity|]. split.
    + intros El. destruct els1; [|discriminate]. apply (els_none uni order m (proj1 Hm)). auto.
    + rewrite (cut_marshal uni order m _ (proj1 Hm)), E2, firstn_app, firstn_all, Nat.sub_diag, firstn_O, app_nil_r. split; [reflexivity|].
      rewrite (framable_encodings uni order c b1 Hb). exact Es.
Qed.

Lemma clear_past_after uni order t c ms reads : Forall (framable uni order c) ms -> (clear_past uni t ms reads <-> clear_after t (map (mixed_line uni) ms) reads).
Proof.
  intros H. split.
  - intros Hc before f after E Hne. apply map_eq_app in E as (b1 & b2 & Ems & Eb & Ea). apply map_eq_cons in Ea as (m & a & -> & Em & Eaf). subst ms before f.
    assert (Hm : Forall (framable uni order c) (b1 ++ [m])) by (apply Forall_app in H as [Hb Hm]; apply Forall_app; split; [exact Hb|constructor; [exact (Forall_inv Hm)|constructor]]).
    destruct (Hc b1 m a eq_refl) as (n & past & En & Hp).
    + intros E. apply Hne. apply Forall_app in Hm as [_ Hm]. apply Forall_inv in Hm. apply (els_none uni order m (proj1 Hm)). exact E.
    + exists n, past. rewrite (framable_encodings uni order c _ Hm), map_app in En. auto.
  - intros Hc before m after -> Hne.
    assert (Hm : Forall (framable uni order c) (before ++ [m])) by (apply Forall_app in H as [Hb Hm]; apply Forall_app; split; [exact Hb|constructor; [exact (Forall_inv Hm)|constructor]]).
    destruct (Hc (map (mixed_line uni) before) (mixed_line uni m) (map (mixed_line uni) after)) as (n & past & En & Hp).
    + rewrite map_app. reflexivity.
    + intros E. apply Hne. apply Forall_app in Hm as [_ Hm]. apply Forall_inv in Hm. apply (els_none uni order m (proj1 Hm)). exact E.
    + exists n, past. rewrite (framable_encodings uni order c _ Hm), map_app. auto.
Qed.

Lemma decoded_given uni order c ms ps : Forall (framable uni order c) ms -> (Forall2 (decoded uni) ms ps <-> Forall2 given (map (mixed_line uni) ms) ps).
Proof.
  intros H. revert ps. induction H as [|m ms Hm Hms IH]; intros ps; [split; intros K; inversion K; constructor|].
  assert (K : forall p, decoded uni m p <-> given (mixed_line uni m) p).
  { intros p. pose proof (framable_marshal uni order c m Hm) as Em. pose proof (Forall_inv (framable_mixed uni order c [m] ltac:(constructor; [exact Hm|constructor]))) as Hx. split.
    - intros (enc & E & Hp & Hs). rewrite Em in E. injection E as <-. destruct (mixed_decodes c _ Hx) as (G1 & G2 & G3 & G4). rewrite Hp in G1.
      replace p with (mixed_pair (mixed_line uni m)); [exact (mixed_decodes c _ Hx)|]. destruct p as [q e]. cbn [fst snd] in *. subst e. unfold mixed_pair in *. cbn [fst] in G1. congruence.
    - intros (G1 & G2 & _). exists (mixed_wire (mixed_line uni m)). auto. }
  cbn [map]. split; intros F; inversion F; subst; constructor; try (apply K; assumption); apply IH; assumption.
Qed.

(** One connection of the receiver *)
Lemma data_connection uni order t c cap racts rs i ms : rrun t cap receiver_init racts = Some rs -> delimiter t = Some c -> Forall (framable uni order c) ms ->
  stream (reads_of i racts) = concat (map (encode t) (encodings uni ms)) -> eof_last (reads_of i racts) ->
  (Forall2 (decoded uni) ms (delivered_on i rs) <-> ~ cut_after_data uni t ms (reads_of i racts) /\ clear_past uni t ms (reads_of i racts)).
Proof.
  intros Hr Hc Hms Hs He. unfold delivered_on. rewrite (C40_in_order _ _ _ _ Hr i).
  rewrite (cut_stops_data uni order t c ms _ Hms), (clear_past_after uni order t c ms _ Hms), (decoded_given uni order c ms _ Hms).
  rewrite (framable_encodings uni order c ms Hms) in Hs. exact (C34_mixed_iff t c _ _ Hc (framable_mixed uni order c ms Hms) Hs He).
Qed.

Lemma decoded_delivered uni order c ms ps : Forall (framable uni order c) ms -> Forall2 (decoded uni) ms ps -> Forall2 (delivered_as uni order) ms ps.
Proof.
  intros H F. apply deliverable_pairs; [eapply Forall_impl; [|exact H]; intros m Hm; exact (proj1 Hm)|].
  clear H. induction F as [|m p ms ps (enc & E & Hp & Hn) F IH]; [constructor|]. unfold encodings in *. cbn [flat_map]. rewrite E. cbn [app]. constructor; [|exact IH]. rewrite Hn. exact Hp.
Qed.

(** Everything sent and flushed on a connection that never fails is received, in order, unless a read
    of the receiver stops just after the structured data of a message, or no read stops at a suitable
    place after a message with structured data; *)
Theorem C84_structured_data : forall uni order t c ms sacts ss cap racts rs i,
  delimiter t = Some c -> Forall (framable uni order c) ms ->
  srun sender_init sacts = Some ss -> sends sacts = critical_sections uni t ms -> lost sacts = 0%nat -> s_queue ss = [] ->
  rrun t cap receiver_init racts = Some rs -> stream (reads_of i racts) = on 0 (s_log ss) -> eof_last (reads_of i racts) ->
  ~ cut_after_data uni t ms (reads_of i racts) -> clear_past uni t ms (reads_of i racts) ->
  Forall2 (delivered_as uni order) ms (delivered_on i rs).
Proof.
  intros uni order t c ms sacts ss cap racts rs i Hc Hms Hs Hm Hl Hq Hr Hst He Hn Hp. apply (decoded_delivered uni order c); [exact Hms|].
  apply (data_connection uni order t c cap racts); try assumption; [|split; assumption].
  rewrite Hst, <- (never_lost _ _ Hs Hl). pose proof (C49_stream _ _ _ _ _ Hs Hm) as E. rewrite Hq in E. cbn [concat] in E. rewrite app_nil_r in E. exact E.
Qed.
Print Assumptions C84_structured_data.

(** both are needed. *)
Theorem C84_structured_data_iff : forall uni order t c ms sacts ss cap racts rs i,
  delimiter t = Some c -> Forall (framable uni order c) ms ->
  srun sender_init sacts = Some ss -> sends sacts = critical_sections uni t ms -> lost sacts = 0%nat -> s_queue ss = [] ->
  rrun t cap receiver_init racts = Some rs -> stream (reads_of i racts) = on 0 (s_log ss) -> eof_last (reads_of i racts) ->
  (Forall2 (decoded uni) ms (delivered_on i rs) <-> ~ cut_after_data uni t ms (reads_of i racts) /\ clear_past uni t ms (reads_of i racts)).
Proof.
  intros uni order t c ms sacts ss cap racts rs i Hc Hms Hs Hm Hl Hq Hr Hst He. apply (data_connection uni order t c cap racts); try assumption.
  rewrite Hst, <- (never_lost _ _ Hs Hl). pose proof (C49_stream _ _ _ _ _ Hs Hm) as E. rewrite Hq in E. cbn [concat] in E. rewrite app_nil_r in E. exact E.
Qed.
Print Assumptions C84_structured_data_iff.

(** Connections lost and opened again: the messages split into consecutive groups, one per connection. *)
Theorem C84_structured_data_groups : forall uni order t c ms sacts ss cap racts rs rc,
  delimiter t = Some c -> Forall (framable uni order c) ms ->
  srun sender_init sacts = Some ss -> sends sacts = critical_sections uni t ms -> clean_failures sacts -> s_queue ss = [] ->
  rrun t cap receiver_init racts = Some rs ->
  (forall k, (k < connects sacts)%nat -> stream (reads_of (rc k) racts) = on k (s_log ss) /\ eof_last (reads_of (rc k) racts)) ->
  exists mss, ms = concat mss /\ Forall2 (fun k g =>
    on k (s_log ss) = concat (map (encode t) (encodings uni g)) /\
    (Forall2 (decoded uni) g (delivered_on (rc k) rs) <-> ~ cut_after_data uni t g (reads_of (rc k) racts) /\ clear_past uni t g (reads_of (rc k) racts)) /\
    (~ cut_after_data uni t g (reads_of (rc k) racts) -> clear_past uni t g (reads_of (rc k) racts) -> Forall2 (delivered_as uni order) g (delivered_on (rc k) rs))) (seq 0 (connects sacts)) mss.
Proof.
  intros uni order t c ms sacts ss cap racts rs rc Hc Hms Hs Hm Hcl Hq Hr Hrc.
  destruct (message_groups uni t ms sacts ss Hs Hm Hcl Hq) as (mss & -> & F).
  { eapply Forall_impl; [|exact Hms]. intros m H. eexists. exact (framable_marshal uni order c m H). }
  exists mss. split; [reflexivity|]. assert (Hk : forall k, In k (seq 0 (connects sacts)) -> (k < connects sacts)%nat) by (intros k Hi; apply in_seq in Hi; lia).
  revert Hk Hms. generalize dependent (seq 0 (connects sacts)). intros ks F. clear Hm. induction F as [|k g ks mss E F IH]; intros Hk Hms; [constructor|].
  cbn [concat] in Hms. apply Forall_app in Hms as [Hg Hms]. constructor.
  - specialize (Hk k (or_introl eq_refl)). destruct (Hrc k Hk) as [Hst He]. split; [exact E|]. rewrite E in Hst.
    pose proof (data_connection uni order t c cap racts rs (rc k) g Hr Hc Hg Hst He) as H. split; [exact H|]. intros Hn Hp. apply (decoded_delivered uni order c); [exact Hg|]. apply H. split; assumption.
  - apply IH; [intros k' Hi; apply Hk; right; exact Hi|exact Hms].
Qed.
Print Assumptions C84_structured_data_groups.

(** Non-vacuity: a message with and a message without structured data, then one more with some; the
    first read stops inside the first message, the second inside the header of the second one. *)
Definition dmsgs : list message := [msg2; lmsg2; msg2].
Definition data_sender : list saction :=
  [ASend (lframe msg2); ATick; AConnect None; ALock; AWrite 5 WNoBufs; ASend (lframe lmsg2); ASend (lframe msg2); ATick; ALock;
   AWrite (length (lframe msg2) + length (lframe lmsg2) + length (lframe msg2) - 5) WOk; AWriteDone].
Definition data_receiver : list raction :=
  [RStepSelect; RAccepted true None; KReadReturns 0 (firstn 30 (lframe msg2)) None; KNextTurn 0; KReadReturns 0 (skipn 30 (lframe msg2) ++ firstn 9 (lframe lmsg2)) (Some (ROther 4)); KPushErr 0; KPush 0; KNextTurn 0;
   RReceive; KReadReturns 0 (skipn 9 (lframe lmsg2) ++ lframe msg2) None; KPush 0; RReceive; KPush 0; KNextTurn 0; KReadReturns 0 [] (Some REOF); RReceive; KNextTurn 0].

Example C84_data_nonvacuous : exists ss rs,
  Forall (framable uni0 (fun _ => []) 10%N) dmsgs /\ (exists m, In m dmsgs /\ m_sd m <> []) /\
  srun sender_init data_sender = Some ss /\ sends data_sender = critical_sections uni0 TLFEnded dmsgs /\ lost data_sender = 0%nat /\ s_queue ss = [] /\ clean_failures data_sender /\
  rrun TLFEnded 1 receiver_init data_receiver = Some rs /\ stream (reads_of 0 data_receiver) = on 0 (s_log ss) /\ eof_last (reads_of 0 data_receiver) /\
  ~ cut_after_data uni0 TLFEnded dmsgs (reads_of 0 data_receiver) /\ clear_past uni0 TLFEnded dmsgs (reads_of 0 data_receiver) /\
  map (fun x => imm_text (fst (snd x))) (received rs) = [Val (m_text msg2); Val (m_text lmsg2); Val (m_text msg2)].
Proof.
  assert (Hf : Forall (framable uni0 (fun _ => []) 10%N) dmsgs).
  { pose proof e2e_deliverable as H. pose proof (plain_deliverable uni0 10%N (fun _ => []) lmsg2 (Forall_inv (Forall_inv_tail lines_plain))) as H2. pose proof (Forall_inv (Forall_inv_tail H)) as H1.
    unfold dmsgs. repeat (constructor; [split; [assumption|]; split; [discriminate|]; intros enc E; vm_compute in E; injection E as <-; intros K; repeat (destruct K as [K|K]; [discriminate|]); exact K|]). constructor. }
  destruct (srun sender_init data_sender) as [ss|] eqn:Es; [|vm_compute in Es; discriminate].
  destruct (rrun TLFEnded 1 receiver_init data_receiver) as [rs|] eqn:Er; [|vm_compute in Er; discriminate].
  exists ss, rs. split; [exact Hf|]. split; [exists msg2; split; [left; reflexivity|discriminate]|]. split; [reflexivity|].
  assert (Hs : sends data_sender = critical_sections uni0 TLFEnded dmsgs) by (vm_compute; reflexivity). assert (Hl : lost data_sender = 0%nat) by reflexivity.
  assert (Hq : s_queue ss = []) by (vm_compute in Es; injection Es as <-; reflexivity).
  assert (Hst : stream (reads_of 0 data_receiver) = on 0 (s_log ss)) by (vm_compute in Es; injection Es as <-; vm_compute; reflexivity).
  assert (He : eof_last (reads_of 0 data_receiver)) by (vm_compute; repeat split; intros; discriminate).
  assert (Hd : Forall2 (decoded uni0) dmsgs (delivered_on 0 rs)).
  { vm_compute in Er. injection Er as <-. unfold dmsgs. repeat (constructor; [eexists; split; [vm_compute; reflexivity|]; split; vm_compute; reflexivity|]). constructor. }
  split; [exact Hs|]. split; [exact Hl|]. split; [exact Hq|]. split.
  { apply (clean_from_ok data_sender []); [|reflexivity]. unfold data_sender. cbn [clean_from]. repeat (split; [exact I|]). exact I. }
  split; [reflexivity|]. split; [exact Hst|]. split; [exact He|].
  apply (C84_structured_data_iff uni0 (fun _ => []) TLFEnded 10%N dmsgs data_sender ss 1 data_receiver rs 0 eq_refl Hf Es Hs Hl Hq Er Hst He) in Hd as [Hd1 Hd2].
  split; [exact Hd1|]. split; [exact Hd2|]. vm_compute in Er. injection Er as <-. vm_compute. reflexivity.
Qed.

(** and the same messages in one read: the ']' of the third is taken for the end of the structured data
    of the first; one message comes out instead of three. *)
Theorem C84_structured_data_refuted : exists rs,
  rrun TLFEnded 3 receiver_init [RStepSelect; RAccepted true None; KReadReturns 0 (concat (map lframe dmsgs)) None] = Some rs /\ length (delivered_on 0 rs) = 1%nat.
Proof. eexists. split; vm_compute; reflexivity. Qed.
Print Assumptions C84_structured_data_refuted.
