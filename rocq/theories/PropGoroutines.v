(** PropGoroutines.v -- property C106: a program that sets up its Syslogs and Channels, then logs from any
    number of goroutines through one Sender, and the program that receives.  Composition of C78 (what a
    sequence of calls on Channels queues), C97 (Send from many goroutines, memory access by memory access)
    and C83 (what can be delivered). *)
From Verif Require Import Base BaseFacts Spec MPriority MHelpers MText MTime MTransport MSData MMessage MParse MTokenize MReceiver MSender MSenderFine MSyslog
  LTime LTokenize LParse LRound LTransport PropMessage PropParse PropTransport LLines PropLines PropReceiver PropMixed LReceiver PropRecvSys LSender PropSender PropSender2 PropSender3
  LSyslog PropEndToEnd PropEndToEnd2 PropEndToEnd3 PropEndToEnd4 PropRecvLive PropFine PropConcurrent PropProgram PropSyslog2.

(** What a goroutine does: calls on Channels only.  A Channel is a value that no call changes (C78), so a
    goroutine has the Channels made before it started and those it derives, and calls of other goroutines
    do not matter to it.  (Calls on a Syslog from several goroutines race, C57.) *)
Definition channel_call (c : logcall) : Prop :=
  match c with LAppName _ _ | LMsgid _ _ | LWrite _ _ _ | LLog _ _ _ _ | LPrint _ _ _ _ _ => True | _ => False end.

(** [setup], run alone, then goroutine i runs [cs i] and ends in [g i]; its messages for Sender o are [ms i] *)
Definition goroutines (uni : N -> bool) (tr : nat -> option transport) (setup : list logcall) (o : nat)
    (cs : nat -> list logcall) (g : nat -> logstate) (ms : nat -> list message) : Prop :=
  exists g0, log_run uni tr log_init setup = Some (Val g0) /\ for_sender o (g_queued g0) = [] /\
    forall i, Forall channel_call (cs i) /\ log_run uni tr g0 (cs i) = Some (Val (g i)) /\ logged (g i) o (cs i) (ms i).

Lemma log_run_app uni tr a : forall g g1 b, log_run uni tr g a = Some (Val g1) -> log_run uni tr g (a ++ b) = log_run uni tr g1 b.
Proof.
  induction a as [|c a IH]; intros g g1 b H; cbn [log_run app] in *; [injection H as ->; reflexivity|].
  destruct (log_step uni tr g c) as [[g'| |]|]; try discriminate. exact (IH _ _ _ H).
Qed.

Lemma logged_app g o a : forall b ms, logged g o (a ++ b) ms -> exists m1 m2, ms = m1 ++ m2 /\ logged g o a m1 /\ logged g o b m2.
Proof.
  induction a as [|c a IH]; intros b ms H; cbn [app] in H.
  - exists [], ms. split; [reflexivity|]. split; [constructor|exact H].
  - inversion H as [|c' cs' m ms' Hs Hl|c' cs' ms' Hn Hl]; subst; destruct (IH _ _ Hl) as (m1 & m2 & -> & H1 & H2).
    + exists (m :: m1), m2. split; [reflexivity|]. split; [constructor; assumption|exact H2].
    + exists m1, m2. split; [reflexivity|]. split; [apply logged_no; assumption|exact H2].
Qed.

Lemma goroutine_frames uni tr setup o t cs g ms : goroutines uni tr setup o cs g ms -> tr o = Some t ->
  forall i, for_sender o (g_queued (g i)) = critical_sections uni t (ms i).
Proof.
  intros (g0 & Hg0 & Hq0 & Hi) Ht i. destruct (Hi i) as (_ & Hr & Hl). destruct (run_consistent _ _ _ _ _ _ consistent_init Hg0) as [Hc _].
  destruct (frames_from uni tr o t (cs i) Ht g0 (g i) Hr (ex_intro (fun h => consistent h g0) _ Hc)) as (ms' & Hl' & Hf). rewrite Hf, Hq0. cbn [app].
  rewrite (C78_logged_unique _ _ _ _ _ Hl Hl'). reflexivity.
Qed.

(** Every goroutine that does not panic has such a list of messages: no hypothesis of the next theorems is
    about how the messages are built. *)
Theorem C106_messages : forall uni tr setup g0 o t c g, log_run uni tr log_init setup = Some (Val g0) -> tr o = Some t ->
  log_run uni tr g0 c = Some (Val g) -> exists ms, logged g o c ms /\ forall ms', logged g o c ms' -> ms' = ms.
Proof.
  intros uni tr setup g0 o t c g Hg0 Ht Hr. destruct (run_consistent _ _ _ _ _ _ consistent_init Hg0) as [Hc _].
  destruct (frames_from uni tr o t c Ht g0 g Hr (ex_intro (fun h => consistent h g0) _ Hc)) as (ms & Hl & _). exists ms. split; [exact Hl|].
  intros ms' Hl'. exact (C78_logged_unique _ _ _ _ _ Hl' Hl).
Qed.
Print Assumptions C106_messages.

(** For every such program, every interleaving of the calls of Send of its goroutines with each other and
    with the goroutine of the Sender, memory access by memory access, with write failures between frames,
    and every Receiver reading in any pieces: what is received is an interleaving of what the goroutines
    logged, each message as it was logged. *)
Theorem C106_delivery : forall uni tr order setup o cs g ms facts fs cap racts rs rc,
  goroutines uni tr setup o cs g ms -> tr o = Some TRFC5425 ->
  frun fine_init facts = Some fs -> (forall i, calls i facts = for_sender o (g_queued (g i))) -> all_sent fs -> f_queue fs = [] -> clean_net facts ->
  rrun TRFC5425 cap receiver_init racts = Some rs ->
  (forall c, (c < connections facts)%nat -> stream (reads_of (rc c) racts) = on c (f_log fs) /\ eof_last (reads_of (rc c) racts)) ->
  (forall i, Forall fits (encodings uni (ms i)) /\ Forall (deliverable uni order) (ms i)) ->
  exists tagged : list (nat * message), (forall i, from Nat.eq_dec i tagged = ms i) /\
    Forall2 (delivered_as uni order) (map snd tagged) (concat (map (fun c => delivered_on (rc c) rs) (seq 0 (connections facts)))).
Proof.
  intros uni tr order setup o cs g ms facts fs cap racts rs rc Hg Ht Hf Hc Ha Hq Hcl Hr Hrc Hms.
  apply (C97_delivery uni order ms facts fs cap racts rs rc); try assumption.
  intros i. rewrite Hc. exact (goroutine_frames _ _ _ _ _ _ _ _ Hg Ht i).
Qed.
Print Assumptions C106_delivery.

(** The same with LF or NUL framing, connection by connection. *)
Theorem C106_lines : forall uni tr order setup o t d cs g ms facts fs cap racts rs rc,
  goroutines uni tr setup o cs g ms -> tr o = Some t -> delimiter t = Some d ->
  frun fine_init facts = Some fs -> (forall i, calls i facts = for_sender o (g_queued (g i))) -> all_sent fs -> f_queue fs = [] -> clean_net facts ->
  rrun t cap receiver_init racts = Some rs ->
  (forall k, (k < connections facts)%nat -> stream (reads_of (rc k) racts) = on k (f_log fs) /\ eof_last (reads_of (rc k) racts)) ->
  (forall i, Forall (plain d) (ms i)) ->
  exists (tagged : list (nat * message)) mss, (forall i, from Nat.eq_dec i tagged = ms i) /\ map snd tagged = concat mss /\
    Forall2 (fun k q => on k (f_log fs) = concat (map (encode t) (encodings uni q)) /\
      (decoder_panics t (rc k) racts <-> cut_at_dash uni t q (reads_of (rc k) racts)) /\
      (~ cut_at_dash uni t q (reads_of (rc k) racts) -> Forall2 (delivered_as uni order) q (delivered_on (rc k) rs))) (seq 0 (connections facts)) mss.
Proof.
  intros uni tr order setup o t d cs g ms facts fs cap racts rs rc Hg Ht Hd Hf Hc Ha Hq Hcl Hr Hrc Hms.
  apply (C97_lines uni order t d ms facts fs cap racts rs rc); try assumption.
  intros i. rewrite Hc. exact (goroutine_frames _ _ _ _ _ _ _ _ Hg Ht i).
Qed.
Print Assumptions C106_lines.

(** With End called after the last Send, and a Receiver left with nothing to do: the other program has
    received everything. *)
Theorem C106_log_then_end : forall uni tr order setup o cs g ms before after fs cap racts rs rc, let facts := before ++ FEndCall :: after in
  goroutines uni tr setup o cs g ms -> tr o = Some TRFC5425 ->
  frun fine_init facts = Some fs -> (forall i, calls i facts = for_sender o (g_queued (g i))) ->
  ~ In FEndCall before -> (forall i, ~ In (FPut i) after) -> all_sent fs -> f_completed fs = true -> clean_net facts ->
  rrun TRFC5425 cap receiver_init racts = Some rs -> r_crashed rs = false -> at_rest TRFC5425 cap rs ->
  (forall c, (c < connections facts)%nat -> stream (reads_of (rc c) racts) = on c (f_log fs) /\ eof_last (reads_of (rc c) racts)) ->
  (forall i, Forall fits (encodings uni (ms i)) /\ Forall (deliverable uni order) (ms i)) ->
  exists tagged : list (nat * message), (forall i, from Nat.eq_dec i tagged = ms i) /\
    Forall2 (delivered_as uni order) (map snd tagged) (concat (map (fun c => pairs_of (rc c) (received rs)) (seq 0 (connections facts)))).
Proof.
  intros uni tr order setup o cs g ms before after fs cap racts rs rc facts Hg Ht Hf Hc Hb Hp Ha Hcd Hcl Hr Hcr Hrest Hrc Hms.
  apply (C97_log_then_end uni order ms before after fs cap racts rs rc); try assumption.
  intros i. fold facts. rewrite Hc. exact (goroutine_frames _ _ _ _ _ _ _ _ Hg Ht i).
Qed.
Print Assumptions C106_log_then_end.

(** What the program has to do for its messages to be deliverable (as C83). *)
Theorem C106_deliverable : forall uni tr order setup o t cs g ms i, goroutines uni tr setup o cs g ms -> tr o = Some t ->
  Forall sound_channel (snd (fold_left told (setup ++ cs i) ([], []))) -> Forall (sound_call uni order) (setup ++ cs i) ->
  Forall (deliverable uni order) (ms i).
Proof.
  intros uni tr order setup o t cs g ms i (g0 & Hg0 & _ & Hi) Ht Hch Hca. destruct (Hi i) as (_ & Hr & Hl).
  pose proof (log_run_app uni tr setup log_init g0 (cs i) Hg0) as Hrun. rewrite Hr in Hrun.
  destruct (C78_frames _ _ _ _ _ _ Hrun Ht) as (m & Hm & _). pose proof (C83_deliverable _ _ _ _ _ _ _ Hrun Hch Hca Hm) as Hd.
  destruct (logged_app _ _ _ _ _ Hm) as (m1 & m2 & -> & _ & H2). rewrite (C78_logged_unique _ _ _ _ _ Hl H2). apply Forall_app in Hd. exact (proj2 Hd).
Qed.
Print Assumptions C106_deliverable.

(** Non-vacuity: two goroutines, one on the Channel of the set-up, one on a Channel it derives, are in Send
    at the same time; the connection is lost between the frames; End is called and the Receiver ends. *)
Definition gsetup : list logcall := [LNew (Some (bs "host")) 42 (Some 0%nat) (LogUSER + LogINFO) (bs "app"); LChannel 0 LogERR].
Definition gcalls (i : nat) : list logcall :=
  match i with
  | 1%nat => [LWrite 0 demo_time (bs "from one ")]
  | 2%nat => [LMsgid 0 (bs "GET"); LWrite 1 demo_time (bs "from two")]
  | _ => []
  end.
Definition gstate (i : nat) : logstate := match log_run uni0 demo_tr log_init (gsetup ++ gcalls i) with Some (Val g) => g | _ => log_init end.
Definition gframe (i : nat) : bytes := nth 0 (for_sender 0 (g_queued (gstate i))) [].
Definition gbefore : list faction :=
  [FCall 1 (gframe 1); FCall 2 (gframe 2); FAcquire 2; FTick; FRead 2; FTestOut; FPut 2; FConnected None; FRelease 2; FAcquire 1; FRead 1; FPut 1; FRelease 1;
   FTake; FTestLen; FNet (length (gframe 2)) (WErr 9); FConsume; FPushErrWrite; FDrop; FGive].
Definition gafter : list faction :=
  [FSelectEnd; FTestDrain; FTestOut; FConnected None; FTake; FTestLen; FNet (length (gframe 1)) WOk; FConsume; FTestLen; FRealloc; FGive; FTestDrain; FCloseOut; FCompleted; FCloseErrs].
Definition gread : list raction :=
  [RStepSelect; RAccepted true None; RStepSelect; RAccepted true None; RStepSelect; KReadReturns 1 (firstn 7 (gframe 1)) None; KNextTurn 1;
   KReadReturns 0 (firstn 30 (gframe 2)) None; KNextTurn 0; KReadReturns 1 (skipn 7 (gframe 1)) None; KReadReturns 0 (skipn 30 (gframe 2)) (Some REOF);
   KPush 1; KNextTurn 1; KPush 0; KNextTurn 0; KReadReturns 1 [] (Some REOF); KNextTurn 1; RReceive; RReceive].

Definition gmsgs (i : nat) : list message :=
  let of k c := match nth_error (g_chan (gstate i)) k with Some (MsgChannel x) | Some (TrueChannel x) => [built_by x c] | _ => [] end in
  match i with
  | 1%nat => of 0%nat (LWrite 0 demo_time (bs "from one "))
  | 2%nat => of 1%nat (LWrite 1 demo_time (bs "from two"))
  | _ => []
  end.

Lemma ex_goroutines : goroutines uni0 demo_tr gsetup 0 gcalls gstate gmsgs.
Proof.
  destruct (log_run uni0 demo_tr log_init gsetup) as [[g0| |]|] eqn:E0; [|vm_compute in E0; discriminate..].
  exists g0. split; [exact E0|]. vm_compute in E0. injection E0 as <-. split; [reflexivity|].
  intros i. split; [destruct i as [|[|[|i]]]; repeat constructor|]. split; [destruct i as [|[|[|i]]]; vm_compute; reflexivity|].
  destruct i as [|[|[|i]]]; [constructor| | |constructor].
  - unfold gmsgs. destruct (nth_error (g_chan (gstate 1)) 0) as [[|x|x]|] eqn:Ex; try (vm_compute in Ex; discriminate).
    cbn [gcalls]. assert (x_out x = Some 0%nat) as Eo by (vm_compute in Ex; injection Ex as <-; reflexivity).
    constructor; [|constructor]. rewrite <- Eo. apply (built_submits (gstate 1) (LWrite 0 demo_time (bs "from one ")) 0 x eq_refl). first [left; exact Ex|right; exact Ex].
  - unfold gmsgs. destruct (nth_error (g_chan (gstate 2)) 1) as [[|x|x]|] eqn:Ex; try (vm_compute in Ex; discriminate).
    cbn [gcalls]. assert (x_out x = Some 0%nat) as Eo by (vm_compute in Ex; injection Ex as <-; reflexivity).
    apply logged_no; [intros m []|]. constructor; [|constructor]. rewrite <- Eo. apply (built_submits (gstate 2) (LWrite 1 demo_time (bs "from two")) 1 x eq_refl). first [left; exact Ex|right; exact Ex].
Qed.

Example C106_nonvacuous : exists fs rs, let facts := gbefore ++ FEndCall :: gafter in
  goroutines uni0 demo_tr gsetup 0 gcalls gstate gmsgs /\ demo_tr 0 = Some TRFC5425 /\
  frun fine_init facts = Some fs /\ (forall i, calls i facts = for_sender 0 (g_queued (gstate i))) /\ ~ In FEndCall gbefore /\ (forall i, ~ In (FPut i) gafter) /\
  all_sent fs /\ f_completed fs = true /\ clean_net facts /\ connections facts = 2%nat /\
  rrun TRFC5425 3 receiver_init gread = Some rs /\ r_crashed rs = false /\ at_rest TRFC5425 3 rs /\
  (forall c, (c < 2)%nat -> stream (reads_of c gread) = on c (f_log fs) /\ eof_last (reads_of c gread)) /\
  (forall i, Forall fits (encodings uni0 (gmsgs i)) /\ Forall (deliverable uni0 (fun _ => [])) (gmsgs i)) /\ length (received rs) = 2%nat.
Proof.
  assert (Hf : exists fs, frun fine_init (gbefore ++ FEndCall :: gafter) = Some fs /\ all_sent fs /\ f_completed fs = true /\ on 0 (f_log fs) = gframe 2 /\ on 1 (f_log fs) = gframe 1).
  { eexists. split; [vm_compute; reflexivity|]. split; [intros [|[|[|i]]]; reflexivity|]. split; [reflexivity|]. split; vm_compute; reflexivity. }
  assert (Hg : exists rs, rrun TRFC5425 3 receiver_init gread = Some rs /\ r_crashed rs = false /\ at_rest TRFC5425 3 rs /\ length (received rs) = 2%nat).
  { eexists. split; [vm_compute; reflexivity|]. split; [reflexivity|]. split; [|reflexivity]. intros a s' Ho Hs. exfalso. destruct a; try discriminate; destruct i as [|[|[|i]]]; discriminate. }
  destruct Hf as (fs & F1 & F2 & F3 & F4 & F5). destruct Hg as (rs & G1 & G2 & G3 & G4). exists fs, rs. cbv zeta.
  split; [exact ex_goroutines|]. split; [reflexivity|].
  split; [exact F1|]. split; [intros [|[|[|i]]]; vm_compute; reflexivity|].
  split; [intros K; repeat (destruct K as [K|K]; [discriminate|]); exact K|]. split; [intros i K; repeat (destruct K as [K|K]; [discriminate|]); exact K|].
  split; [exact F2|]. split; [exact F3|]. split.
  { apply (clean_net_from_ok _ []); [|reflexivity]. unfold gbefore, gafter. cbn [app clean_net_from]. repeat (split; [exact I|]). split; [|repeat (split; [exact I|]); exact I].
    exists [gframe 2], [gframe 1]. split; vm_compute; reflexivity. }
  split; [reflexivity|]. split; [exact G1|]. split; [exact G2|]. split; [exact G3|]. split.
  { intros [|[|c]] Hc; [rewrite F4|rewrite F5|lia]; (split; [vm_compute; reflexivity|vm_compute; repeat split; intros; discriminate]). }
  split; [|exact G4]. intros i. split.
  - destruct i as [|[|[|i]]]; [constructor| | |constructor]; (match goal with |- Forall fits ?x => let v := eval vm_compute in x in change x with v end;
      constructor; [apply small_fits; vm_compute; lia|constructor]).
  - assert (T : time_valid demo_time) by (vm_compute; intuition discriminate).
    assert (W : header_word 48 (bs "app")) by (apply word_of; vm_compute; reflexivity).
    assert (Hs : forall d, sound_channel ({| b_host := Some (bs "host"); b_pid := 42; b_out := Some 0%nat; b_minp := (LogUSER + LogINFO)%Z; b_app := bs "app" |}, [], LogERR, d))
      by (intros d; split; [cbn; lia|left; exact W]). pose proof (Hs []) as Hs1. pose proof (Hs ([] ++ [PropSyslog.CMsgid (bs "GET")])) as Hs2.
    apply (C106_deliverable uni0 demo_tr (fun _ => []) gsetup 0 TRFC5425 gcalls gstate gmsgs i ex_goroutines eq_refl).
    + destruct i as [|[|[|i]]]; cbn [gsetup gcalls fold_left told nth_error change_at fst snd app];
        repeat (apply Forall_cons; [exact Hs1|]); try (apply Forall_cons; [exact Hs2|]); apply Forall_nil.
    + destruct i as [|[|[|i]]]; cbn [gsetup gcalls app]; repeat (constructor; [first [exact I|exact T]|]); constructor.
Qed.
