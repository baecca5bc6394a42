(** PropEndToEnd.v -- C76: a Sender and a Receiver joined by connections, RFC 5425 framing. *)
From Verif Require Import Base BaseFacts Spec MTime MTransport MSData MMessage MParse MTokenize MReceiver MSender
  LTime LTokenize LParse LRound LTransport PropMessage PropParse PropTransport PropReceiver LReceiver PropRecvSys LSender PropSender PropSender2 PropSender3.

(** A message that can be decoded from its own encoding (writable_iff says exactly which ones). *)
Definition deliverable (uni : N -> bool) (order : nat -> list sdid) (m : message) : Prop :=
  header_ok m /\ (0 <= m_prio m <= 299)%Z /\ time_valid (m_time m) /\ Forall (comes_back uni order) (m_sd m) /\
  (m_sd m = [] \/ m_text m = [] \/ text_safe (m_text m)).

(** What the receiver gives for m: String() is its encoding, no error, and Writable() is m with its
    time at the microsecond. *)
Definition delivered_as (uni : N -> bool) (order : nat -> list sdid) (m : message) (p : pair_t) : Prop :=
  message_marshal uni m = Val (inr (imm_string (fst p))) /\ snd p = None /\
  forall spare, imm_writable order spare (fst p) = Val (msg_set_time m (at_us (m_time m))).

(** The pairs received from connection i: returned by Receive, then in the pipeline, then about to
    be sent by its goroutine *)
Definition delivered_on (i : nat) (rs : rstate) : list pair_t := pairs_of i (received rs) ++ pairs_of i (r_queue rs) ++ unsent_pairs i rs.

(** Every encoding has at least 20 bytes. *)
Lemma append_int_length x w : (w <= length (append_int x w))%nat.
Proof. unfold append_int. cbv zeta. rewrite !app_length, repeat_length. lia. Qed.

Lemma time_format_length t : (20 <= length (time_format t))%nat.
Proof.
  unfold time_format, format_civil. rewrite !app_length.
  pose proof (append_int_length (c_year (civil_of t)) 4). pose proof (append_int_length (c_month (civil_of t)) 2).
  pose proof (append_int_length (c_day (civil_of t)) 2). pose proof (append_int_length (c_hour (civil_of t)) 2).
  pose proof (append_int_length (c_min (civil_of t)) 2). pose proof (append_int_length (c_sec (civil_of t)) 2).
  destruct (format_zone_head (c_off (civil_of t))) as (c & r & E & _). rewrite E.
  change (length (bs "-")) with 1%nat. change (length (bs "T")) with 1%nat. change (length (bs ":")) with 1%nat. cbn [length]. lia.
Qed.

Lemma marshal_length uni m enc : message_marshal uni m = Val (inr enc) -> (20 <= length enc)%nat.
Proof.
  unfold message_marshal. cbv zeta. pose proof (time_format_length (m_time m)) as H. destruct (list_marshal uni (m_sd m)) as [[e|sd]| |]; try discriminate.
  unfold emit. destruct (m_text m); intros E; apply inr_inj in E; subst enc; rewrite !app_length; lia.
Qed.

Lemma frame_length t d : (length d <= length (encode t d))%nat.
Proof. destruct t; cbn [encode]; rewrite ?app_length; lia. Qed.

Lemma encodings_length uni ms d : In d (encodings uni ms) -> (20 <= length d)%nat.
Proof.
  unfold encodings. intros H. apply in_flat_map in H as (m & _ & H). destruct (message_marshal uni m) as [[e|enc]| |] eqn:E; try contradiction.
  destruct H as [<-|[]]. exact (marshal_length _ _ _ E).
Qed.

Lemma sections_encodings uni t ms : critical_sections uni t ms = map (encode t) (encodings uni ms).
Proof.
  induction ms as [|m ms IH]; [reflexivity|]. unfold critical_sections, encodings in *. cbn [flat_map]. rewrite IH, map_app. f_equal.
  unfold send. destruct (message_marshal uni m) as [[e|enc]| |]; reflexivity.
Qed.

(** One connection of the receiver *)
Lemma connection_delivers cap racts rs i ds : rrun TRFC5425 cap receiver_init racts = Some rs -> Forall fits ds -> (forall d, In d ds -> (20 <= length d)%nat) ->
  stream (reads_of i racts) = concat (map (encode TRFC5425) ds) -> eof_last (reads_of i racts) ->
  Forall2 (fun d p => parse d None true = Val (fst p, None, snd p)) ds (delivered_on i rs).
Proof.
  intros Hr Hf H20 Hs He. unfold delivered_on. rewrite (C40_in_order _ _ _ _ Hr i). apply C30_reassembly; try assumption.
  destruct ds as [|d ds]; [left; reflexivity|right]. pose proof (frame_length TRFC5425 (last (d :: ds) [])).
  assert (Hin : In (last (d :: ds) []) (d :: ds)). { destruct (exists_last (l := d :: ds)) as (l & y & E); [discriminate|]. rewrite E, last_last. apply in_app_iff. right. left. reflexivity. }
  specialize (H20 _ Hin). lia.
Qed.

(** Deliverable messages come out as they went in. *)
Lemma deliverable_pairs uni order ms : Forall (deliverable uni order) ms -> forall ps,
  Forall2 (fun d p => parse d None true = Val (fst p, None, snd p)) (encodings uni ms) ps -> Forall2 (delivered_as uni order) ms ps.
Proof.
  induction 1 as [|m ms Hm Hms IH]; intros ps H.
  - inversion H. constructor.
  - unfold encodings in H. cbn [flat_map] in H. destruct Hm as (Hh & Hp & Ht & Hd & Hx).
    assert (E : exists enc, message_marshal uni m = Val (inr enc)).
    { destruct (back_list uni order (m_sd m) Hd) as (encs & H2 & _). destruct (C11_wire_format uni m encs Hp H2) as [E _]. eexists. exact E. }
    destruct E as [enc E]. rewrite E in H. cbn [app] in H. inversion H as [|? p ? ps' H1 H2]; subst. constructor; [|apply IH; exact H2].
    destruct (proj2 (writable_iff uni m enc true order [] Hh Hp Ht Hd E) Hx) as (q & Q1 & Q2 & _).
    rewrite Q1 in H1. injection H1 as -> Hs. unfold delivered_as. rewrite Q2. split; [exact E|]. split; [congruence|]. intro spare.
    destruct (proj2 (writable_iff uni m enc true order spare Hh Hp Ht Hd E) Hx) as (q' & Q1' & _ & Q3). rewrite Q1 in Q1'. injection Q1' as <-. exact Q3.
Qed.

(** ** one connection that never fails *)

Lemma never_lost acts s : srun sender_init acts = Some s -> lost acts = 0%nat -> written (s_log s) = on 0 (s_log s).
Proof.
  intros H Hl. destruct (srun_inv _ _ H) as [? ? ? ? ? ? ? ? ? ? Hn Hc ? ? Hon Ho _]. rewrite Hl in Hc. rewrite Ho, Hn, Hc.
  destruct (s_out s); cbn [Nat.add seq map concat]; [apply app_nil_r|]. symmetry. apply Hon. lia.
Qed.

(** Any messages, of any size that can be framed: what was sent and flushed is received as by
    Parse of each encoding, in order. *)
Theorem C76_any_messages : forall uni ms sacts ss cap racts rs i,
  srun sender_init sacts = Some ss -> sends sacts = critical_sections uni TRFC5425 ms -> lost sacts = 0%nat -> s_queue ss = [] ->
  rrun TRFC5425 cap receiver_init racts = Some rs -> stream (reads_of i racts) = on 0 (s_log ss) -> eof_last (reads_of i racts) ->
  Forall fits (encodings uni ms) ->
  Forall2 (fun enc p => parse enc None true = Val (fst p, None, snd p)) (encodings uni ms) (delivered_on i rs).
Proof.
  intros uni ms sacts ss cap racts rs i Hs Hm Hl Hq Hr Hst He Hf. apply (connection_delivers cap racts rs i); try assumption.
  - apply encodings_length.
  - rewrite Hst, <- (never_lost _ _ Hs Hl). pose proof (C49_stream _ _ _ _ _ Hs Hm) as E. rewrite Hq in E. cbn [concat] in E. rewrite app_nil_r in E. exact E.
Qed.
Print Assumptions C76_any_messages.

Theorem C76_delivery : forall uni order ms sacts ss cap racts rs i,
  srun sender_init sacts = Some ss -> sends sacts = critical_sections uni TRFC5425 ms -> lost sacts = 0%nat -> s_queue ss = [] ->
  rrun TRFC5425 cap receiver_init racts = Some rs -> stream (reads_of i racts) = on 0 (s_log ss) -> eof_last (reads_of i racts) ->
  Forall fits (encodings uni ms) -> Forall (deliverable uni order) ms ->
  Forall2 (delivered_as uni order) ms (delivered_on i rs).
Proof.
  intros. apply deliverable_pairs; [assumption|]. eapply C76_any_messages; eassumption.
Qed.
Print Assumptions C76_delivery.

(** At every moment before: a prefix of the messages, all those of which the receiver has read the
    whole frame (and 20 bytes since the last one delivered). *)
Lemma encodings_app uni ms1 ms2 : encodings uni (ms1 ++ ms2) = encodings uni ms1 ++ encodings uni ms2.
Proof. apply flat_map_app. Qed.

Lemma encodings_split uni order ms : Forall (deliverable uni order) ms -> forall d1 d2, encodings uni ms = d1 ++ d2 ->
  exists ms1 ms2, ms = ms1 ++ ms2 /\ encodings uni ms1 = d1 /\ encodings uni ms2 = d2.
Proof.
  induction 1 as [|m ms Hm Hms IH]; intros d1 d2 H.
  - destruct d1, d2; try discriminate. exists [], []. auto.
  - destruct Hm as (Hh & Hp & Ht & Hd & Hx).
    assert (E : exists enc, message_marshal uni m = Val (inr enc)).
    { destruct (back_list uni order (m_sd m) Hd) as (encs & H2 & _). destruct (C11_wire_format uni m encs Hp H2) as [E _]. eexists. exact E. }
    destruct E as [enc E]. destruct d1 as [|x d1].
    + exists [], (m :: ms). auto.
    + unfold encodings in H. cbn [flat_map] in H. rewrite E in H. cbn [app] in H. injection H as <- H.
      destruct (IH _ _ H) as (ms1 & ms2 & -> & E1 & E2). exists (m :: ms1), ms2. split; [reflexivity|]. split; [|exact E2].
      unfold encodings. cbn [flat_map]. rewrite E. cbn [app]. f_equal. exact E1.
Qed.

Theorem C76_at_every_moment : forall uni order ms sacts ss cap racts rs i unread,
  srun sender_init sacts = Some ss -> sends sacts = critical_sections uni TRFC5425 ms -> lost sacts = 0%nat ->
  rrun TRFC5425 cap receiver_init racts = Some rs -> stream (reads_of i racts) ++ unread = on 0 (s_log ss) -> ended (reads_of i racts) = false ->
  Forall fits (encodings uni ms) -> Forall (deliverable uni order) ms ->
  exists ms1 ms2 rest, ms = ms1 ++ ms2 /\ Forall2 (delivered_as uni order) ms1 (delivered_on i rs) /\
    stream (reads_of i racts) = concat (map (encode TRFC5425) (encodings uni ms1)) ++ rest /\
    ((length rest < 20)%nat \/ exists m ms' enc, ms2 = m :: ms' /\ message_marshal uni m = Val (inr enc) /\ (length rest < length (encode TRFC5425 enc))%nat).
Proof.
  intros uni order ms sacts ss cap racts rs i unread Hs Hm Hl Hr Hst He Hf Hd.
  pose proof (C49_stream _ _ _ _ _ Hs Hm) as E. rewrite (never_lost _ _ Hs Hl), <- Hst, <- app_assoc in E.
  destruct (C30_at_every_moment (encodings uni ms) (reads_of i racts) _ Hf E He) as (d1 & d2 & st & Ed & H2 & _ & _ & Hp & Hc).
  destruct (encodings_split uni order ms Hd d1 d2 Ed) as (ms1 & ms2 & -> & E1 & E2). apply Forall_app in Hd as [Hd1 Hd2].
  exists ms1, ms2, (t_pending st). split; [reflexivity|]. split; [|split].
  - apply deliverable_pairs; [exact Hd1|]. rewrite E1. unfold delivered_on. rewrite (C40_in_order _ _ _ _ Hr i). exact H2.
  - rewrite Ed, map_app, concat_app, <- Hp in E. rewrite E1. rewrite (app_assoc (concat _)) in E. apply app_inv_tail in E. exact E.
  - destruct Hc as [Hc|(d & ds' & -> & Hc)]; [left; exact Hc|right].
    destruct ms2 as [|m ms2]; [discriminate|]. destruct (message_marshal uni m) as [[e|enc]| |] eqn:Em.
    2: { exists m, ms2, enc. split; [reflexivity|]. split; [exact Em|]. unfold encodings in E2. cbn [flat_map] in E2. rewrite Em in E2. cbn [app] in E2. injection E2 as -> _. exact Hc. }
    all: exfalso; apply Forall_inv in Hd2; destruct Hd2 as (Hh & Hpr & Ht & Hdd & Hx); destruct (back_list uni order (m_sd m) Hdd) as (encs & H3 & _);
      destruct (C11_wire_format uni m encs Hpr H3) as [Em' _]; congruence.
Qed.
Print Assumptions C76_at_every_moment.

(** With frames of at most 500 bytes the receiver's goroutine can always read on. *)
Theorem C76_progress : forall uni ms sacts ss racts i unread,
  srun sender_init sacts = Some ss -> sends sacts = critical_sections uni TRFC5425 ms -> lost sacts = 0%nat ->
  stream (reads_of i racts) ++ unread = on 0 (s_log ss) -> ended (reads_of i racts) = false -> unread <> [] ->
  Forall (fun enc => (length (encode TRFC5425 enc) <= 500)%nat) (encodings uni ms) ->
  exists st, o_next (tok_run TRFC5425 tok_init (reads_of i racts)) = TCont st /\ (0 < tok_room st)%Z.
Proof.
  intros uni ms sacts ss racts i unread Hs Hm Hl Hst He Hu H500.
  pose proof (C49_stream _ _ _ _ _ Hs Hm) as E. rewrite (never_lost _ _ Hs Hl), <- Hst, <- app_assoc in E.
  apply (C31_progress (encodings uni ms) _ _ H500 E He). destruct unread; [congruence|discriminate].
Qed.
Print Assumptions C76_progress.

(** ** connections lost and opened again *)

(** If failing writes stop between two frames, the frames split into consecutive groups, one per
    connection. *)
Lemma prefix_compare {A} (p q r t : list A) : p ++ q = r ++ t -> (exists g, r = p ++ g) \/ (exists g, p = r ++ g).
Proof.
  revert r. induction p as [|x p IH]; intros r H; [left; exists r; reflexivity|]. destruct r as [|y r]; [right; exists (x :: p); reflexivity|].
  cbn in H. injection H as <- H. destruct (IH r H) as [[g ->]|[g ->]]; [left|right]; exists g; reflexivity.
Qed.

Lemma concat_prefix_length (a b : list bytes) : length (concat (a ++ b)) = (length (concat a) + length (concat b))%nat.
Proof. rewrite concat_app, app_length. reflexivity. Qed.

Lemma app_inv_length {A} (a : list A) : forall b c d, a ++ b = c ++ d -> length a = length c -> a = c.
Proof.
  induction a as [|x a IH]; intros b [|y c] d H L; cbn in *; try discriminate; [reflexivity|]. injection H as <- H. f_equal. apply (IH b c d H). lia.
Qed.

Lemma groups acts s : srun sender_init acts = Some s -> clean_failures acts -> s_queue s = [] -> forall n, (n <= connects acts)%nat ->
  exists gs rest, sends acts = concat gs ++ rest /\ Forall2 (fun c g => on c (s_log s) = concat g) (seq 0 n) gs.
Proof.
  intros H Hc Hq. pose proof (C41_no_loss _ _ H) as [Hb Ho]. rewrite Hq in Hb. cbn [concat] in Hb. rewrite app_nil_r in Hb.
  induction n as [|n IH]; intros Hn.
  - exists [], (sends acts). split; [reflexivity|constructor].
  - destruct IH as (gs & rest & E & F); [lia|].
    assert (Eb : before n (s_log s) = concat (concat gs)).
    { clear -F. unfold before. induction F as [|c g cs gs Hx F IH]; [reflexivity|]. cbn [map concat]. rewrite concat_app, Hx, IH. reflexivity. }
    assert (Hbd : boundary (sends acts) (length (before (S n) (s_log s)))).
    { destruct (srun_inv _ _ H) as [? ? ? ? ? Hcur ? ? ? ? Hnx Hl ? ? ? ? _].
      destruct (out_dec (s_out s) (Some n)) as [Eo|No].
      - specialize (Hcur _ Eo). exists (sends acts), []. rewrite app_nil_r. split; [reflexivity|]. rewrite <- Hb, Ho, <- Hnx, Hcur. reflexivity.
      - apply (lost_boundary acts s H Hc n); [rewrite Hnx; lia|left; exact No]. }
    destruct Hbd as (pre & post & E2 & L). rewrite before_S, app_length, Eb in L.
    assert (Epos : exists tail, before n (s_log s) ++ on n (s_log s) ++ tail = concat (sends acts)) by (apply (C44_position acts s H n); lia).
    destruct Epos as [tail Epos]. rewrite Eb in Epos.
    assert (Hg : exists g rest', rest = g ++ rest' /\ on n (s_log s) = concat g).
    { rewrite E in E2. destruct (prefix_compare _ _ _ _ E2) as [[g ->]|[g Hg]].
      - rewrite <- app_assoc in E2. apply app_inv_head in E2. exists g, post. split; [exact E2|].
        rewrite concat_prefix_length in L. rewrite E, E2, !concat_app in Epos. apply app_inv_head in Epos.
        apply (app_inv_length _ _ _ _ Epos). lia.
      - exists [], rest. split; [reflexivity|]. rewrite Hg, concat_prefix_length in L. apply length_zero_iff_nil. lia. }
    destruct Hg as (g & rest' & -> & Eg). exists (gs ++ [g]), rest'. split.
    + rewrite E, concat_app. cbn [concat]. rewrite app_nil_r, <- app_assoc. reflexivity.
    + rewrite seq_S. apply Forall2_app; [exact F|]. constructor; [exact Eg|constructor].
Qed.

(** Each connection of the sender, say c, is a connection [rc c] of the receiver (they need not be in
    order, and the receiver may have others): together they deliver every message, in order. *)
Theorem C76_reconnections : forall uni order ms sacts ss cap racts rs rc,
  srun sender_init sacts = Some ss -> sends sacts = critical_sections uni TRFC5425 ms -> clean_failures sacts -> s_queue ss = [] ->
  rrun TRFC5425 cap receiver_init racts = Some rs ->
  (forall c, (c < connects sacts)%nat -> stream (reads_of (rc c) racts) = on c (s_log ss) /\ eof_last (reads_of (rc c) racts)) ->
  Forall fits (encodings uni ms) -> Forall (deliverable uni order) ms ->
  Forall2 (delivered_as uni order) ms (concat (map (fun c => delivered_on (rc c) rs) (seq 0 (connects sacts)))).
Proof.
  intros uni order ms sacts ss cap racts rs rc Hs Hm Hcl Hq Hr Hrc Hf Hd. apply deliverable_pairs; [exact Hd|].
  destruct (groups sacts ss Hs Hcl Hq (connects sacts) ltac:(lia)) as (gs & rest & E & F).
  assert (Er : concat rest = []).
  { pose proof (C41_no_loss _ _ Hs) as [Hb Ho]. rewrite Hq in Hb. cbn [concat] in Hb. rewrite app_nil_r, Ho, E, concat_app in Hb.
    assert (Eb : concat (map (fun c => on c (s_log ss)) (seq 0 (connects sacts))) = concat (concat gs)).
    { clear -F. induction F as [|c g cs gs Hx F IH]; [reflexivity|]. cbn [map concat]. rewrite concat_app, Hx, IH. reflexivity. }
    rewrite Eb in Hb. rewrite <- (app_nil_r (concat (concat gs))) in Hb at 1. apply app_inv_head in Hb. congruence. }
  rewrite Hm, sections_encodings in E. pose proof (encodings_length uni ms) as H20. remember (encodings uni ms) as ds eqn:Eds. clear Eds Hm Hs Hcl Hq Hd.
  assert (Hn : rest = []).
  { destruct rest as [|f rest]; [reflexivity|exfalso]. assert (Hi : In f (map (encode TRFC5425) ds)) by (rewrite E; apply in_app_iff; right; left; reflexivity).
    apply in_map_iff in Hi as (d & <- & Hd). specialize (H20 _ Hd). pose proof (frame_length TRFC5425 d) as Hl. cbn [concat] in Er. apply app_eq_nil in Er as [Er _].
    rewrite Er in Hl. cbn [length] in Hl. lia. }
  subst rest. rewrite app_nil_r in E. clear Er.
  assert (Hrc' : forall c, In c (seq 0 (connects sacts)) -> stream (reads_of (rc c) racts) = on c (s_log ss) /\ eof_last (reads_of (rc c) racts))
    by (intros c Hc; apply in_seq in Hc; apply Hrc; lia).
  clear Hrc. revert ds Hf H20 E. induction F as [|c g cs gs Hx F IH]; intros ds Hf H20 E.
  - cbn [concat] in E. destruct ds; [constructor|discriminate].
  - cbn [concat] in E. apply map_eq_app in E as (d1 & d2 & -> & E1 & E2). cbn [map concat]. apply Forall_app in Hf as [Hf1 Hf2].
    apply Forall2_app.
    + destruct (Hrc' c (or_introl eq_refl)) as [Hst He]. apply (connection_delivers cap racts rs (rc c)); try assumption.
      * intros d Hi. apply H20, in_app_iff. auto.
      * rewrite Hst, Hx, E1. reflexivity.
    + apply IH; try assumption.
      * intros c' Hc'. apply Hrc'. right. exact Hc'.
      * intros d Hi. apply H20, in_app_iff. auto.
Qed.
Print Assumptions C76_reconnections.

(** Non-vacuity: two messages, the second with structured data; the connection is lost after the
    first one, and both connections are read in pieces. *)
Definition uni0 : N -> bool := fun _ => true.
Definition msg1 : message := sample.
Definition msg2 : message := with_text (bs "a \] b").
Definition frame_of (m : message) : bytes := match send uni0 (Some TRFC5425) m with Val (inr f) => f | _ => [] end.
Definition e2e_sender : list saction :=
  [ASend (frame_of msg1); ASend (frame_of msg2); ATick; AConnect None; ALock; AWrite (length (frame_of msg1)) (WErr 9); APushErrWrite; ATick; AConnect None; ALock;
   AWrite (length (frame_of msg2)) WOk; AWriteDone; AEndCall; ASelectEnd; ADrain; ACloseOut; ACloseDone; ACloseErr].
Definition e2e_receiver : list raction :=
  [RStepSelect; RAccepted true None; RStepSelect; RAccepted true None; KReadReturns 1 (firstn 7 (frame_of msg2)) None; KNextTurn 1;
   KReadReturns 0 (firstn 30 (frame_of msg1)) None; KNextTurn 0; KReadReturns 1 (skipn 7 (frame_of msg2)) None; KReadReturns 0 (skipn 30 (frame_of msg1)) (Some REOF);
   KPush 1; KNextTurn 1; KPush 0; RReceive].
Lemma e2e_deliverable : Forall (deliverable uni0 (fun _ => [])) [msg1; msg2].
Proof.
  destruct sample_ok as (A & B & C). constructor; [|constructor; [|constructor]].
  { split; [exact A|]. split; [exact B|]. split; [exact C|]. split; [constructor|left; reflexivity]. }
  split; [exact A|]. split; [exact B|]. split; [exact C|]. split.
  - constructor; [|constructor]. apply default_back. exists (bs "x@1"), [(bs "k", bs "v")]. split; [reflexivity|]. split; [exact sample_sd_ok|intros b d sp []].
  - right. right. split.
    + change (m_text msg2) with ((bs "a " ++ [BSL; RBR]) ++ bs " b"). apply bracket_safe_app.
      * apply bracket_safe_escaped. cbn. intros [E|[E|[]]]; discriminate.
      * apply bracket_safe_none. cbn. intros [E|[E|[]]]; discriminate.
    + intros [x E]. change (m_text msg2) with (bs "a \] " ++ [98%N]) in E. apply app_inj_tail in E as [_ E]. discriminate.
Qed.
Lemma e2e_fits : Forall fits (encodings uni0 [msg1; msg2]).
Proof. repeat (constructor; [apply small_fits; vm_compute; lia|]). constructor. Qed.
Fixpoint clean_from (acc rest : list saction) : Prop :=
  match rest with
  | [] => True
  | a :: more => match a with AWrite k (WErr _) => boundary (sends acc) (accepted_bytes acc + k) | _ => True end /\ clean_from (acc ++ [a]) more
  end.
Lemma clean_from_ok rest : forall acc, clean_from acc rest -> acc = [] -> clean_failures rest.
Proof.
  assert (K : forall acc, clean_from acc rest -> forall p k e q, rest = p ++ AWrite k (WErr e) :: q -> boundary (sends (acc ++ p)) (accepted_bytes (acc ++ p) + k)).
  { induction rest as [|a rest IH]; intros acc H p k e q E; [destruct p; discriminate|]. destruct H as [H1 H2]. destruct p as [|b p]; cbn [app] in E.
    - injection E as -> _. rewrite app_nil_r. exact H1.
    - injection E as <- E. specialize (IH _ H2 p k e q E). rewrite <- app_assoc in IH. exact IH. }
  intros acc H -> p k e q E. exact (K [] H p k e q E).
Qed.
Example C76_nonvacuous : exists ss rs,
  srun sender_init e2e_sender = Some ss /\ sends e2e_sender = critical_sections uni0 TRFC5425 [msg1; msg2] /\ clean_failures e2e_sender /\ s_queue ss = [] /\ connects e2e_sender = 2%nat /\
  rrun TRFC5425 3 receiver_init e2e_receiver = Some rs /\
  (forall c, (c < 2)%nat -> stream (reads_of c e2e_receiver) = on c (s_log ss) /\ eof_last (reads_of c e2e_receiver)) /\
  length (received rs) = 1%nat /\ length (delivered_on 0 rs) = 1%nat /\ length (delivered_on 1 rs) = 1%nat.
Proof.
  destruct (srun sender_init e2e_sender) as [ss|] eqn:Es; [|vm_compute in Es; discriminate].
  destruct (rrun TRFC5425 3 receiver_init e2e_receiver) as [rs|] eqn:Er; [|vm_compute in Er; discriminate].
  exists ss, rs. split; [reflexivity|]. split; [vm_compute; reflexivity|]. split.
  { apply (clean_from_ok e2e_sender []); [|reflexivity]. unfold e2e_sender. cbn [clean_from]. repeat (split; [exact I|]). split; [|repeat (split; [exact I|]); exact I].
    exists [frame_of msg1], [frame_of msg2]. split; vm_compute; reflexivity. }
  vm_compute in Es. injection Es as <-. vm_compute in Er. injection Er as <-.
  split; [reflexivity|]. split; [reflexivity|]. split; [reflexivity|]. split; [|vm_compute; auto].
  intros [|[|c]] Hc; [| |lia]; split; try (vm_compute; reflexivity); vm_compute; repeat split; intros; discriminate.
Qed.
