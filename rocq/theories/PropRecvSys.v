(** PropRecvSys.v -- C39 and C40: executions of a Receiver with any number of connections, any
    schedule, any network input and any user calls. *)
From Verif Require Import Base BaseFacts MTransport MParse MTokenize LTokenize PropTransport PropReceiver MReceiver LReceiver.

(** ** C40 *)

(** What Receive returned for connection i, then what is buffered, then what the goroutine is about
    to send, is exactly what decoding the bytes read from that connection produces: nothing lost,
    duplicated or reordered, and nothing from another connection. *)
Theorem C40_in_order : forall t cap acts s, rrun t cap receiver_init acts = Some s -> forall i,
  pairs_of i (received s) ++ pairs_of i (r_queue s) ++ unsent_pairs i s = o_sent (tok_run t tok_init (reads_of i acts)).
Proof.
  intros t cap acts s H i. destruct (run_inv _ _ _ _ H) as [Ic _ _ _ _ _ _ _ _ _]. specialize (Ic i).
  unfold pairs_of in *. rewrite from_app in Ic. unfold unsent_pairs, conn_ok in *.
  destruct (nth_error (r_conns s) i) as [[| | |]|]; rewrite ?app_nil_r.
  - destruct Ic as (-> & _ & ->). reflexivity.
  - destruct Ic as (_ & _ & ->). reflexivity.
  - destruct Ic as (_ & _ & ->). rewrite app_assoc. reflexivity.
  - destruct Ic as (_ & _ & ->). reflexivity.
  - destruct Ic as (-> & _ & ->). reflexivity.
Qed.
Print Assumptions C40_in_order.

(** The same for the error channel: errors of Read and of Accept, in order, none lost. *)
Theorem C40_errors_in_order : forall t cap acts s, rrun t cap receiver_init acts = Some s ->
  (forall i, errors_of (Some i) (r_goterr s) ++ errors_of (Some i) (r_errq s) ++ unsent_errors i s = o_errs (tok_run t tok_init (reads_of i acts))) /\
  errors_of None (r_goterr s) ++ errors_of None (r_errq s) ++ unsent_accept_error s = accept_errors acts.
Proof.
  intros t cap acts s H. destruct (run_inv _ _ _ _ H) as [Ic Ia _ _ _ _ _ _ _ _]. split.
  - intro i. specialize (Ic i). unfold errors_of in *. rewrite from_app in Ic. unfold unsent_errors, conn_ok in *.
    destruct (nth_error (r_conns s) i) as [[| | |]|]; rewrite ?app_nil_r.
    + destruct Ic as (-> & -> & _). reflexivity.
    + destruct Ic as (_ & -> & _). reflexivity.
    + destruct Ic as (_ & -> & _). rewrite app_assoc. reflexivity.
    + destruct Ic as (_ & -> & _). reflexivity.
    + destruct Ic as (-> & -> & _). reflexivity.
  - rewrite Ia. unfold errors_of. rewrite from_app, app_assoc. reflexivity.
Qed.
Print Assumptions C40_errors_in_order.

(** Never more than the capacity is buffered, 10 for the error channel; and a call of Receive that
    says false is never followed by one that delivers. *)
Theorem C40_capacity : forall t cap acts s, rrun t cap receiver_init acts = Some s ->
  (length (r_queue s) <= cap)%nat /\ (length (r_errq s) <= 10)%nat /\
  exists n, r_got s = map Some (received s) ++ repeat None n.
Proof.
  intros t cap acts s H. destruct (run_inv _ _ _ _ H) as [_ _ _ Ic Ie _ _ _ _ (n & Hn & _)]. split; [exact Ic|]. split; [exact Ie|]. exists n. exact Hn.
Qed.
Print Assumptions C40_capacity.

(** Receive: returns the oldest buffered pair; false exactly when the pipeline is closed and
    nothing is buffered; waits exactly when it is open and nothing is buffered. *)
Theorem C40_receive : forall t cap acts s, rrun t cap receiver_init acts = Some s -> r_crashed s = false ->
  (forall s', rstep t cap s RReceive = Some s' ->
     (exists x, r_got s' = r_got s ++ [Some x] /\ r_queue s = x :: r_queue s') \/
     (r_got s' = r_got s ++ [None] /\ r_queue s = [] /\ In RStepClosePipe acts)) /\
  (rstep t cap s RReceive = None <-> r_queue s = [] /\ ~ In RStepClosePipe acts).
Proof.
  intros t cap acts s H Hc. destruct (run_inv _ _ _ _ H) as [_ _ _ _ _ _ Icl _ _ _]. unfold rstep. rewrite Hc. split.
  - intros s' Hs. destruct (r_queue s) as [|x q].
    + destruct (r_closed s) eqn:E; [|discriminate]. injection Hs as <-. right. cbn. tauto.
    + injection Hs as <-. left. exists x. split; reflexivity.
  - destruct (r_queue s) as [|x q].
    + destruct (r_closed s) eqn:E.
      * split; [discriminate|]. intros [_ Hn]. exfalso. apply Hn. tauto.
      * split; [|reflexivity]. intros _. split; [reflexivity|]. intro Hn. apply Icl in Hn. discriminate.
    + split; [discriminate|]. intros [Hn _]. discriminate.
Qed.
Print Assumptions C40_receive.

(** Nothing stays stuck while the user receives: when a goroutine has a pair to send and the
    pipeline is open, either it can be sent, or handed to a waiting Receive, or Receive returns one. *)
Theorem C40_no_deadlock : forall t cap acts s i p pairs next, rrun t cap receiver_init acts = Some s -> r_crashed s = false ->
  nth_error (r_conns s) i = Some (KEmit [] (p :: pairs) next) -> ~ In RStepClosePipe acts ->
  rstep t cap s RReceive <> None \/ (rstep t cap s (RHandoff i) <> None /\ (cap <> 0%nat -> rstep t cap s (KPush i) <> None)).
Proof.
  intros t cap acts s i p pairs next H Hc Hi Hn. destruct (run_inv _ _ _ _ H) as [_ _ _ Icap _ _ Icl _ _ _].
  assert (Ecl : r_closed s = false) by (destruct (r_closed s); [exfalso; apply Hn, Icl; reflexivity | reflexivity]).
  unfold rstep. rewrite Hc, Hi, Ecl. destruct (r_queue s) as [|x q]; [|left; discriminate]. right. cbn [length].
  split; [discriminate|]. intro Hcap. destruct (Nat.ltb_spec 0 cap); [discriminate | lia].
Qed.
Print Assumptions C40_no_deadlock.

(** Non-vacuity: two connections, interleaved, an unbuffered pipeline. *)
Definition frame_a := bs "<34>1 - h a p m - one" ++ [LF].
Definition frame_b := bs "<34>1 - h b p m - two" ++ [LF].
Definition two_connections : list raction :=
  [RStepSelect; RAccepted true None; RStepSelect; RAccepted true None; KReadReturns 1 (frame_b ++ frame_a) None; KReadReturns 0 frame_a (Some REOF);
   RHandoff 1; RHandoff 0; KNextTurn 0; REndCall; RHandoff 1].
Example C40_nonvacuous : exists s, rrun TLFEnded 0 receiver_init two_connections = Some s /\ map fst (received s) = [1; 0; 1]%nat /\ r_crashed s = false.
Proof. vm_compute. eexists. repeat split. Qed.

(** ** C39: exactly when the process crashes *)

(** Goroutine i panics in the decoder, or is about to: decoding the bytes it has read so far panics *)
Definition decoder_panics (t : transport) (i : nat) (acts : list raction) : Prop := o_next (tok_run t tok_init (reads_of i acts)) = TCrash.

(** Why the last action [a], after [acts], crashes the process *)
Definition crash_cause (t : transport) (acts : list raction) (a : raction) : Prop :=
  match a with
  | REndCall => In REndCall acts                                 (* End was called before *)
  | KStart i => nth_error (accepts acts) i = Some false          (* Accept returned no connection *)
  | KPush i => In RStepClosePipe acts                            (* a pair after the pipeline was closed *)
  | KNextTurn i => decoder_panics t i acts
  | _ => False
  end.

Lemma not_crashed_prefix t cap acts a s : rrun t cap receiver_init (acts ++ [a]) = Some s -> exists s0, rrun t cap receiver_init acts = Some s0 /\ r_crashed s0 = false /\ rstep t cap s0 a = Some s.
Proof.
  intro H. rewrite rrun_app in H. destruct (rrun t cap receiver_init acts) as [s0|]; [|discriminate]. exists s0. split; [reflexivity|].
  cbn in H. destruct (rstep t cap s0 a) as [s1|] eqn:E; [|discriminate]. injection H as <-. split; [|reflexivity].
  unfold rstep in E. destruct (r_crashed s0); [discriminate | reflexivity].
Qed.

Theorem C39_crash_iff : forall t cap acts a s, rrun t cap receiver_init (acts ++ [a]) = Some s ->
  (r_crashed s = true <-> crash_cause t acts a).
Proof.
  intros t cap acts a s H. destruct (not_crashed_prefix _ _ _ _ _ H) as (s0 & H0 & Hc & Hs).
  destruct (run_inv _ _ _ _ H0) as [Ic _ Iac _ _ Ie Icl _ _ _].
  unfold rstep in Hs. rewrite Hc in Hs. destruct a; cbn [crash_cause].
  - rewrite <- Ie. destruct (r_end s0); injection Hs as <-; cbn; rewrite ?Hc; tauto.
  - destruct (r_pc s0); try discriminate. injection Hs as <-. cbn. rewrite ?Hc. intuition congruence.
  - destruct (r_pc s0); try discriminate. injection Hs as <-. destruct err; cbn; rewrite ?Hc; intuition congruence.
  - destruct (r_pc s0); try discriminate. destruct (length (r_errq s0) <? err_cap)%nat; [|discriminate]. injection Hs as <-. cbn. rewrite ?Hc. intuition congruence.
  - destruct (r_pc s0); try discriminate. injection Hs as <-. cbn. intuition congruence.
  - destruct (r_pc s0); try discriminate. injection Hs as <-. cbn. intuition congruence.
  - destruct (nth_error (r_conns s0) i) as [[| | |]|] eqn:Ei; try discriminate. injection Hs as <-. split; [|reflexivity]. intros _.
    rewrite Iac, nth_error_app1; [rewrite nth_error_map, Ei; reflexivity|]. rewrite map_length. apply nth_error_Some. congruence.
  - destruct (nth_error (r_conns s0) i) as [[| st| |]|] eqn:Ei; try discriminate. destruct (Z.of_nat (length chunk) <=? tok_room st)%Z; [|discriminate].
    cbv zeta in Hs. injection Hs as <-. cbn. rewrite ?Hc. intuition congruence.
  - destruct (nth_error (r_conns s0) i) as [[| |[|e errs] pairs next|]|]; try discriminate. destruct (length (r_errq s0) <? err_cap)%nat; [|discriminate].
    injection Hs as <-. cbn. rewrite ?Hc. intuition congruence.
  - destruct (nth_error (r_conns s0) i) as [[| |[|e errs] [|p pairs] next|]|]; try discriminate. rewrite <- Icl. destruct (r_closed s0).
    + injection Hs as <-. cbn. tauto.
    + destruct (length (r_queue s0) <? cap)%nat; [|discriminate]. injection Hs as <-. cbn. rewrite ?Hc. intuition congruence.
  - destruct (nth_error (r_conns s0) i) as [[| |[|e errs] [|p pairs] next|]|] eqn:Ei; try discriminate. injection Hs as <-.
    specialize (Ic i). rewrite Ei in Ic. unfold conn_ok in Ic. destruct Ic as (N & _ & _). unfold decoder_panics. rewrite N.
    destruct next; cbn; rewrite ?Hc; intuition congruence.
  - destruct (r_queue s0); [destruct (r_closed s0); [|discriminate]|]; injection Hs as <-; cbn; rewrite ?Hc; intuition congruence.
  - destruct (nth_error (r_conns s0) i) as [[| |[|e errs] [|p pairs] next|]|]; try discriminate. destruct (r_closed s0); [discriminate|].
    destruct (length (r_queue s0) =? 0)%nat; [|discriminate]. injection Hs as <-. cbn. rewrite ?Hc. intuition congruence.
  - destruct (r_errq s0); [discriminate|]. injection Hs as <-. cbn. rewrite ?Hc. intuition congruence.
Qed.
Print Assumptions C39_crash_iff.

(** So: one End at most, every Accept giving a connection, no connection sending after the close,
    and no decoder panic: the process never crashes. *)
Theorem C39_safe : forall t cap acts s, rrun t cap receiver_init acts = Some s ->
  (forall a b, acts = a ++ REndCall :: b -> ~ In REndCall a) ->
  ~ In false (accepts acts) ->
  (forall a i b, acts = a ++ KPush i :: b -> ~ In RStepClosePipe a) ->
  (forall i a b, acts = a ++ b -> ~ decoder_panics t i a) ->
  r_crashed s = false.
Proof.
  intros t cap acts s H He Ha Hp Hd. destruct (r_crashed s) eqn:E; [|reflexivity]. exfalso.
  destruct acts as [|a acts _] using rev_ind; [injection H as <-; discriminate|].
  apply (C39_crash_iff _ _ _ _ _ H) in E. destruct a; cbn in E; try contradiction.
  - eapply He; [|exact E]. reflexivity.
  - apply Ha. rewrite accepts_app. apply in_or_app. left. eapply nth_error_In. exact E.
  - eapply Hp; [|exact E]. reflexivity.
  - eapply Hd; [|exact E]. reflexivity.
Qed.
Print Assumptions C39_safe.

(** Each cause really happens.  An error from Accept that comes without a connection (what the
    TCP and unix listeners return) always leads to a crash once its goroutine runs: *)
Theorem C39_accept_error_refuted : forall t cap acts s e, rrun t cap receiver_init acts = Some s -> r_crashed s = false ->
  r_pc s = RAccept -> (length (r_errq s) < 10)%nat ->
  exists s', rrun t cap receiver_init (acts ++ [RAccepted false (Some e); RPushErr; KStart (length (r_conns s))]) = Some s' /\ r_crashed s' = true.
Proof.
  intros t cap acts s e H Hc Hpc Hl. rewrite rrun_app, H. cbn [rrun]. unfold rstep at 1. rewrite Hc, Hpc.
  unfold rstep at 1. cbn [with_pc r_crashed r_pc r_errq]. rewrite Hc. unfold err_cap. destruct (Nat.ltb_spec (length (r_errq s)) 10); [|lia].
  unfold rstep at 1. cbn [with_pc spawn with_errq r_crashed r_conns]. rewrite Hc. rewrite nth_app_one, Nat.eqb_refl.
  eexists. split; [reflexivity|]. reflexivity.
Qed.
Print Assumptions C39_accept_error_refuted.

(** and the goroutine can do nothing else: *)
Theorem C39_nil_connection_only_crashes : forall t cap acts s i, rrun t cap receiver_init acts = Some s -> nth_error (r_conns s) i = Some KNil ->
  forall a s', rstep t cap s a = Some s' -> nth_error (r_conns s') i = Some KNil \/ r_crashed s' = true.
Proof.
  intros t cap acts s i H Hi a s' Hs. assert (Hlt : (i < length (r_conns s))%nat) by (apply nth_error_Some; congruence).
  assert (Hset : forall j k k', nth_error (r_conns s) j = Some k -> k <> KNil -> nth_error (set_nth (r_conns s) j k') i = Some KNil)
    by (intros j k k' Hj Hk; rewrite nth_set_other by congruence; exact Hi).
  unfold rstep in Hs. destruct (r_crashed s) eqn:Hc; [discriminate|].
  destruct a.
  - destruct (r_end s); injection Hs as <-; cbn; auto.
  - destruct (r_pc s); try discriminate. injection Hs as <-. cbn; auto.
  - destruct (r_pc s); try discriminate. injection Hs as <-. destruct err; cbn; auto. left. rewrite nth_error_app1; assumption.
  - destruct (r_pc s); try discriminate. destruct (length (r_errq s) <? err_cap)%nat; [|discriminate]. injection Hs as <-. cbn. left. rewrite nth_error_app1; assumption.
  - destruct (r_pc s); try discriminate. injection Hs as <-. cbn; auto.
  - destruct (r_pc s); try discriminate. injection Hs as <-. cbn; auto.
  - destruct (nth_error (r_conns s) i0) as [[| | |]|]; try discriminate. injection Hs as <-. cbn; auto.
  - destruct (nth_error (r_conns s) i0) as [[| st| |]|] eqn:Ei; try discriminate. destruct (Z.of_nat (length chunk) <=? tok_room st)%Z; [|discriminate].
    cbv zeta in Hs. injection Hs as <-. cbn. left. eapply Hset; eauto; congruence.
  - destruct (nth_error (r_conns s) i0) as [[| |[|e errs] pairs next|]|] eqn:Ei; try discriminate. destruct (length (r_errq s) <? err_cap)%nat; [|discriminate].
    injection Hs as <-. cbn. left. eapply Hset; eauto; congruence.
  - destruct (nth_error (r_conns s) i0) as [[| |[|e errs] [|p pairs] next|]|] eqn:Ei; try discriminate. destruct (r_closed s).
    + injection Hs as <-. cbn. auto.
    + destruct (length (r_queue s) <? cap)%nat; [|discriminate]. injection Hs as <-. cbn. left. eapply Hset; eauto; congruence.
  - destruct (nth_error (r_conns s) i0) as [[| |[|e errs] [|p pairs] next|]|] eqn:Ei; try discriminate. injection Hs as <-.
    destruct next; cbn; auto; left; eapply Hset; eauto; congruence.
  - destruct (r_queue s); [destruct (r_closed s); [|discriminate]|]; injection Hs as <-; cbn; auto.
  - destruct (nth_error (r_conns s) i0) as [[| |[|e errs] [|p pairs] next|]|] eqn:Ei; try discriminate. destruct (r_closed s); [discriminate|].
    destruct (length (r_queue s) =? 0)%nat; [|discriminate]. injection Hs as <-. cbn. left. eapply Hset; eauto; congruence.
  - destruct (r_errq s); [discriminate|]. injection Hs as <-. cbn. auto.
Qed.
Print Assumptions C39_nil_connection_only_crashes.

(** End while a connection is open: its next pair crashes the process.  (RAccepted comes before the
    close because runQueue only looks at End between two Accepts.) *)
Theorem C39_end_with_open_connection_refuted : forall cap, exists s,
  rrun TLFEnded cap receiver_init
    [RStepSelect; RAccepted true None; REndCall; RStepSelect; RStepClosePipe; RStepCloseListener; KReadReturns 0 frame_a None; KPush 0] = Some s /\ r_crashed s = true.
Proof.
  intro cap. eexists. split; vm_compute; reflexivity.
Qed.
Print Assumptions C39_end_with_open_connection_refuted.

(** A peer can crash the process with one line. *)
Theorem C39_peer_refuted : forall cap, exists s,
  rrun TLFEnded cap receiver_init [RStepSelect; RAccepted true None; KReadReturns 0 (bs "<1>1 - h a p m -") None; KNextTurn 0] = Some s /\ r_crashed s = true.
Proof. intro cap. eexists. split; vm_compute; reflexivity. Qed.
Print Assumptions C39_peer_refuted.

(** End is only noticed when Accept returns: as long as it does not, the pipeline stays open and
    Receive is never told. *)
Theorem C39_end_waits_for_accept : forall t cap acts more s s', rrun t cap receiver_init acts = Some s -> r_pc s = RAccept ->
  rrun t cap s more = Some s' -> (forall conn err, ~ In (RAccepted conn err) more) ->
  r_closed s' = false /\ r_lclosed s' = false /\ r_pc s' = RAccept.
Proof.
  intros t cap acts more s s' H Hpc H' Hm.
  assert (Hpc' : r_pc s' = RAccept).
  { clear H acts. revert s Hpc H' Hm. induction more as [|a more IH]; intros s Hpc H' Hm; [injection H' as <-; exact Hpc|].
    cbn in H'. destruct (rstep t cap s a) as [s1|] eqn:E; [|discriminate].
    apply (IH s1); [|exact H'|intros c e Hi; apply (Hm c e); right; exact Hi].
    unfold rstep in E. destruct (r_crashed s); [discriminate|]. destruct a; rewrite ?Hpc in E; try discriminate.
    - injection E as <-. destruct (r_end s); first [exact Hpc | reflexivity].
    - exfalso. apply (Hm conn err). left. reflexivity.
    - destruct (nth_error (r_conns s) i) as [[| | |]|]; try discriminate. injection E as <-. first [exact Hpc | reflexivity].
    - destruct (nth_error (r_conns s) i) as [[| st| |]|]; try discriminate. destruct (Z.of_nat (length chunk) <=? tok_room st)%Z; [|discriminate]. cbv zeta in E. injection E as <-. first [exact Hpc | reflexivity].
    - destruct (nth_error (r_conns s) i) as [[| |[|e errs] pairs next|]|]; try discriminate. destruct (length (r_errq s) <? err_cap)%nat; [|discriminate]. injection E as <-. first [exact Hpc | reflexivity].
    - destruct (nth_error (r_conns s) i) as [[| |[|e errs] [|p pairs] next|]|]; try discriminate. destruct (r_closed s); [injection E as <-; exact Hpc|].
      destruct (length (r_queue s) <? cap)%nat; [|discriminate]. injection E as <-. first [exact Hpc | reflexivity].
    - destruct (nth_error (r_conns s) i) as [[| |[|e errs] [|p pairs] next|]|]; try discriminate. injection E as <-. destruct next; first [exact Hpc | reflexivity].
    - destruct (r_queue s); [destruct (r_closed s); [|discriminate]|]; injection E as <-; first [exact Hpc | reflexivity].
    - destruct (nth_error (r_conns s) i) as [[| |[|e errs] [|p pairs] next|]|]; try discriminate. destruct (r_closed s); [discriminate|].
      destruct (length (r_queue s) =? 0)%nat; [|discriminate]. injection E as <-. first [exact Hpc | reflexivity].
    - destruct (r_errq s); [discriminate|]. injection E as <-. first [exact Hpc | reflexivity]. }
  assert (H2 : rrun t cap receiver_init (acts ++ more) = Some s') by (rewrite rrun_app, H; exact H').
  destruct (run_inv _ _ _ _ H2) as [_ _ _ _ _ _ _ Ipc Il _]. rewrite Hpc' in Ipc, Il. split; [|split; [|exact Hpc']].
  - destruct (r_closed s'); [|reflexivity]. destruct Ipc as [Ipc _]. destruct (Ipc eq_refl); discriminate.
  - destruct (r_lclosed s'); [|reflexivity]. destruct Il as [Il _]. specialize (Il eq_refl). discriminate.
Qed.
Print Assumptions C39_end_waits_for_accept.

(** ** the unix datagram listener *)

(** Its runs are runs of the receiver. *)
Lemma unixgram_is_run t cap acts : forall s accepted s' accepted', unixgram_run t cap s accepted acts = Some (s', accepted') ->
  exists acts', rrun t cap s acts' = Some s' /\
    length (accepts acts') = length (accepts acts) /\ (In REndCall acts' <-> In REndCall acts) /\ (In RStepClosePipe acts' <-> In RStepClosePipe acts).
Proof.
  induction acts as [|a acts IH]; intros s accepted s' accepted' H.
  - injection H as <- <-. exists []. cbn. tauto.
  - cbn [unixgram_run] in H. destruct a as [| |conn err| | | | | | | | | | |];
      try (destruct (rstep t cap s _) as [s1|] eqn:E in H; [|discriminate]; destruct (IH _ _ _ _ H) as (acts' & H1 & H2 & H3 & H4);
           eexists (_ :: acts'); cbn [rrun]; rewrite E; split; [exact H1|]; cbn; intuition congruence).
    destruct (unixgram_accept accepted (r_lclosed s)) as [[c e]|]; [|discriminate].
    destruct (rstep t cap s (RAccepted c e)) as [s1|] eqn:E; [|discriminate]. destruct (IH _ _ _ _ H) as (acts' & H1 & H2 & H3 & H4).
    exists (RAccepted c e :: acts'). cbn [rrun]. rewrite E. split; [exact H1|]. cbn. split; [f_equal; exact H2|]. intuition congruence.
Qed.

(** Accept never fails while the receiver runs: there is one goroutine and its connection is not nil. *)
Lemma unixgram_inv t cap acts : forall s accepted s' accepted',
  unixgram_run t cap s accepted acts = Some (s', accepted') ->
  (r_lclosed s = true -> r_pc s = RDone) ->
  length (r_conns s) = (if accepted then 1 else 0)%nat -> ~ In KNil (r_conns s) ->
  (forall e c, r_pc s <> RSendErr e c) ->
  (r_lclosed s' = true -> r_pc s' = RDone) /\
  length (r_conns s') = (if accepted' then 1 else 0)%nat /\ ~ In KNil (r_conns s') /\ forall e c, r_pc s' <> RSendErr e c.
Proof.
  assert (Hlen : forall A (l : list A) i x, length (set_nth l i x) = length l) by (induction l; intros [|j] x; cbn; auto).
  assert (Hin : forall (l : list kpc) i k x, In x (set_nth l i k) -> In x l \/ x = k).
  { induction l as [|y l IH]; intros [|j] k x Hx; cbn in *; intuition auto. destruct (IH _ _ _ H); auto. }
  induction acts as [|a acts IH]; intros s accepted s' accepted' H H1 H2 H3 H4.
  - injection H as <- <-. auto.
  - cbn [unixgram_run] in H.
    assert (Hset : forall i k, k <> KNil -> length (set_nth (r_conns s) i k) = (if accepted then 1 else 0)%nat /\ ~ In KNil (set_nth (r_conns s) i k)).
    { intros i k Hk. rewrite Hlen. split; [exact H2|]. intro Hi. destruct (Hin _ _ _ _ Hi); [auto | congruence]. }
    destruct a as [| |conn err| | | | | | | | | | |].
    3: { destruct (unixgram_accept accepted (r_lclosed s)) as [[c e]|] eqn:Ea; [|discriminate].
         destruct (rstep t cap s (RAccepted c e)) as [s1|] eqn:E; [|discriminate].
         unfold rstep in E. destruct (r_crashed s); [discriminate|]. destruct (r_pc s) eqn:Epc; try discriminate.
         unfold unixgram_accept in Ea. destruct accepted.
         - destruct (r_lclosed s); [|discriminate]. specialize (H1 eq_refl). discriminate.
         - injection Ea as <- <-. injection E as <-. eapply IH; eauto; cbn.
           + intro Hl. specialize (H1 Hl). discriminate.
           + rewrite app_length, H2. reflexivity.
           + intro Hi. apply in_app_or in Hi. destruct Hi as [Hi|[Hi|[]]]; [auto | discriminate].
           + congruence. }
    all: destruct (rstep t cap s _) as [s1|] eqn:E in H; [|discriminate]; apply (IH s1 accepted s' accepted' H);
      unfold rstep in E; (destruct (r_crashed s); [discriminate|]).
    all: try (destruct (nth_error (r_conns s) i) as [[| st|[|e errs] [|p pairs] next|]|] eqn:Ei; try discriminate).
    all: try (destruct (r_pc s) eqn:Epc; try discriminate).
    all: try (destruct (r_queue s) eqn:Eq; try discriminate).
    all: try (destruct (r_closed s) eqn:Ecl; try discriminate).
    all: try (destruct (r_errq s) eqn:Eer; try discriminate).
    all: try (destruct (length _ <? _)%nat eqn:Elt in E; try discriminate).
    all: try (destruct (length _ =? 0)%nat eqn:Elt in E; try discriminate).
    all: try (destruct (Z.leb _ _) eqn:Elt in E; try discriminate).
    all: cbv zeta in E; injection E as <-; try destruct (r_end s); try destruct next; cbn; auto.
    all: try (apply Hset; congruence).
    all: try congruence.
    all: try (intro Hl; specialize (H1 Hl); congruence).
    all: exfalso; eapply H4; reflexivity.
Qed.

(** Accept of that listener: the connection and no error the first time; no connection and an error
    when the listener is closed; otherwise it waits. *)
Theorem C39_unixgram_accept :
  (forall closed, unixgram_accept false closed = Some (true, None)) /\
  (forall closed, unixgram_accept true closed = None <-> closed = false) /\
  (forall c e, unixgram_accept true true = Some (c, e) -> c = false /\ e <> None).
Proof.
  split; [reflexivity|]. split; [intros []; cbn; split; congruence|]. intros c e H. injection H as <- <-. split; [reflexivity|discriminate].
Qed.
Print Assumptions C39_unixgram_accept.

(** Once runQueue is in the second Accept of a unix datagram listener, End never has any effect:
    that Accept only returns after the listener is closed, which only runQueue does. *)
Theorem C39_unixgram_end_never_effective : forall t cap acts s, unixgram_run t cap receiver_init false acts = Some (s, true) -> r_pc s = RAccept ->
  forall more s' accepted', unixgram_run t cap s true more = Some (s', accepted') -> r_closed s' = false /\ r_pc s' = RAccept.
Proof.
  intros t cap acts s H Hpc more.
  destruct (unixgram_inv _ _ _ _ _ _ _ H) as (Hl & Hn & Hk & Hse); cbn; auto; try congruence.
  assert (Hlc : r_lclosed s = false) by (destruct (r_lclosed s); [specialize (Hl eq_refl); congruence | reflexivity]).
  destruct (unixgram_is_run _ _ _ _ _ _ _ H) as (acts' & Hr & _).
  clear Hl Hn Hk Hse H.
  assert (Hgen : forall more s0 s' accepted', unixgram_run t cap s0 true more = Some (s', accepted') -> r_pc s0 = RAccept -> r_lclosed s0 = false ->
    exists acts2, rrun t cap s0 acts2 = Some s' /\ forall conn err, ~ In (RAccepted conn err) acts2).
  { clear. induction more as [|a more IH]; intros s0 s' accepted' H Hpc Hl.
    - injection H as <- <-. exists []. cbn. auto.
    - cbn [unixgram_run] in H. destruct a as [| |conn err| | | | | | | | | | |].
      3: { unfold unixgram_accept in H. rewrite Hl in H. discriminate. }
      all: destruct (rstep t cap s0 _) as [s1|] eqn:E in H; [|discriminate].
      all: destruct (IH s1 s' accepted' H) as (acts2 & Hr & Hno);
        [unfold rstep in E | unfold rstep in E | eexists (_ :: acts2); cbn [rrun]; rewrite E; split; [exact Hr | intros c e [Hi|Hi]; [discriminate | eapply Hno; exact Hi]]].
      all: (destruct (r_crashed s0); [discriminate|]); rewrite ?Hpc in E; try discriminate.
      all: try (destruct (nth_error (r_conns s0) i) as [[| st|[|e errs] [|p pairs] next|]|] eqn:Ei; try discriminate).
      all: try (destruct (r_queue s0) eqn:Eq; try discriminate).
      all: try (destruct (r_closed s0) eqn:Ecl; try discriminate).
      all: try (destruct (r_errq s0) eqn:Eer; try discriminate).
      all: try (destruct (length _ <? _)%nat eqn:Elt in E; try discriminate).
      all: try (destruct (length _ =? 0)%nat eqn:Elt in E; try discriminate).
      all: try (destruct (Z.leb _ _) eqn:Elt in E; try discriminate).
      all: cbv zeta in E; injection E as <-; try destruct (r_end s0); try destruct next; cbn; auto. }
  intros s' accepted' H'. destruct (Hgen _ _ _ _ H' Hpc Hlc) as (acts2 & Hr2 & Hno).
  destruct (C39_end_waits_for_accept _ _ _ _ _ _ Hr Hpc Hr2 Hno) as (Hc & _ & Hp). auto.
Qed.
Print Assumptions C39_unixgram_end_never_effective.

(** No Accept error ever reaches the goroutines of a unix datagram receiver: it never gets a nil
    connection. *)
Theorem C39_unixgram_no_nil_connection : forall t cap acts s accepted, unixgram_run t cap receiver_init false acts = Some (s, accepted) -> ~ In KNil (r_conns s).
Proof. intros t cap acts s accepted H. destruct (unixgram_inv _ _ _ _ _ _ _ H) as (_ & _ & Hk & _); cbn; auto; congruence. Qed.
Print Assumptions C39_unixgram_no_nil_connection.

(** Non-vacuity: a clean shutdown; a unix datagram receiver in its second Accept with End called. *)
Example C39_nonvacuous :
  (exists s, rrun TLFEnded 4 receiver_init [RStepSelect; RAccepted true None; KReadReturns 0 frame_a (Some REOF); KPush 0; KNextTurn 0; REndCall;
     RStepSelect; RStepClosePipe; RStepCloseListener; RReceive; RReceive] = Some s /\ r_crashed s = false /\ r_pc s = RDone /\ length (r_got s) = 2%nat) /\
  (exists s, unixgram_run TZeroEnded 4 receiver_init false [RStepSelect; RAccepted true None; RStepSelect; REndCall] = Some (s, true) /\ r_pc s = RAccept).
Proof. split; vm_compute; eexists; repeat split. Qed.

(** NewReceiver: nil without transport, and the capacity of the pipeline *)
Theorem C40_new_receiver : forall t lenQueue,
  new_receiver None lenQueue = None /\ new_receiver (Some t) lenQueue = Some (t, Z.to_nat lenQueue).
Proof. intros t n. split; [reflexivity|]. unfold new_receiver. destruct (Z.leb_spec n 0); [|reflexivity]. destruct n; try reflexivity; lia. Qed.
Print Assumptions C40_new_receiver.
