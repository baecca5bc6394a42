(** PropLive.v -- liveness of a Sender (C92), and C46/C48 stated on histories only. *)
From Coq Require Import List NArith ZArith Lia Bool.
From Verif Require Import Base BaseFacts MTransport MSender LSender PropSender PropSender2 PropSender3.
Import ListNotations.

(** ** C92: whatever the schedule, End comes to an end *)

(** What can keep the goroutine busy: a tick, a Send, a Connect or a write that fails.  Everything
    else is the goroutine's own progress on a network that works, the user reading an error, or End. *)
Definition disturbance (a : saction) : bool :=
  match a with
  | ATick | ASend _ | AConnect (Some _) | AWrite _ WNoBufs | AWrite _ (WErr _) => true
  | _ => false
  end.
Definition disturbances (acts : list saction) : nat := length (filter disturbance acts).

(** a potential: how many undisturbed steps are left at most *)
Definition waiting (s : sstate) : nat := match s_queue s with [] => 0 | _ => 1 end.
Definition potential (s : sstate) : nat :=
  if s_crashed s then 0 else
  ((if s_end s then 1 else 2) + length (s_errq s) +
   match s_pc s with
   | PExit => 0
   | PCloseErr => 1
   | PCloseDone => 2
   | PClose => 3
   | PDrain => 4 + 5 * waiting s
   | PSelect => 5 + 5 * waiting s
   | PWrite d => 1 + waiting s + (if d then 4 else 5)
   | PLock d => 2 + waiting s + (if d then 4 else 5)
   | PConnect d => 3 + waiting s + (if d then 4 else 5)
   | PErrConnect d _ | PErrWrite d _ => 2 + 5 * waiting s + (if d then 4 else 5)
   end)%nat.

Lemma potential_step s a s' : sstep s a = Some s' -> (length (s_errq s) <= 1)%nat ->
  (potential s' + 1 <= potential s + (if disturbance a then 6 else 0))%nat.
Proof.
  intros Hs Hq. unfold sstep in Hs. destruct (s_crashed s) eqn:Hc; [discriminate|]. unfold potential at 2. rewrite Hc.
  destruct a; cbn [disturbance].
  - destruct (locked s); [discriminate|]. injection Hs as <-. unfold potential, waiting. snorm.
    assert (Hn : match s_queue s ++ [frame] with [] => 0 | _ => 1 end = 1%nat) by (destruct (s_queue s); reflexivity). rewrite Hn.
    destruct (s_pc s), (s_queue s), (s_end s); lia.
  - destruct (s_pc s) eqn:Ep; try discriminate. injection Hs as <-. unfold potential, waiting, flush_entry. snorm. rewrite Hc. destruct (s_out s), (s_queue s), (s_end s); lia.
  - injection Hs as <-. destruct (s_end s); unfold potential, waiting; snorm; lia.
  - destruct (s_pc s) eqn:Ep; try discriminate. destruct (s_end s) eqn:Ee; [|discriminate]. injection Hs as <-. unfold potential, waiting. snorm. rewrite Hc, Ee. lia.
  - destruct (s_pc s) eqn:Ep; try discriminate. destruct err; injection Hs as <-; unfold potential, waiting; snorm; rewrite ?Hc; destruct (s_queue s), (s_end s), d; lia.
  - destruct (s_pc s) eqn:Ep; try discriminate. destruct (s_errclosed s); [injection Hs as <-; unfold potential; snorm; destruct (s_end s); lia|].
    destruct (length (s_errq s) <? serr_cap)%nat; [|discriminate]. injection Hs as <-. unfold potential, waiting, flush_return. snorm. rewrite app_length. cbn [length].
    destruct (s_queue s), (s_end s), d; lia.
  - destruct (s_pc s) eqn:Ep; try discriminate. injection Hs as <-. unfold potential, waiting. snorm. rewrite Hc. destruct (s_queue s), (s_end s), d; lia.
  - destruct (s_pc s) eqn:Ep; try discriminate. destruct (s_queue s) as [|f q] eqn:Eq; [discriminate|]. destruct (s_out s).
    2:{ injection Hs as <-. unfold potential, waiting. snorm. rewrite Eq. destruct r, (s_end s), d; lia. }
    cbv zeta in Hs. unfold waiting. rewrite Eq. remember (f :: q) as Q eqn:EQ in Hs. clear EQ.
    destruct (Nat.leb_spec k (length (concat Q))) as [Hk|]; [|discriminate]. cbn [andb] in Hs. destruct r as [| |e].
    + destruct (Nat.eqb_spec k (length (concat Q))) as [->|]; [|discriminate]. injection Hs as <-. unfold potential, waiting. snorm. rewrite consume_all.
      destruct (s_end s), d; lia.
    + injection Hs as <-. unfold potential, waiting, flush_return. snorm. destruct (consume k Q), (s_end s), d; lia.
    + injection Hs as <-. unfold potential, waiting, flush_return. snorm. destruct (consume k Q), (s_end s), d; lia.
  - destruct (s_pc s) eqn:Ep; try discriminate. destruct (s_queue s) as [|f q] eqn:Eq; [|discriminate]. injection Hs as <-. unfold potential, waiting, flush_return. snorm.
    rewrite Hc, Eq. destruct (s_end s), d; lia.
  - destruct (s_pc s) eqn:Ep; try discriminate. destruct (s_errclosed s); [injection Hs as <-; unfold potential; snorm; destruct (s_end s); lia|].
    destruct (length (s_errq s) <? serr_cap)%nat; [|discriminate]. injection Hs as <-. unfold potential, waiting, flush_return. snorm. rewrite app_length. cbn [length].
    destruct (s_queue s), (s_end s), d; lia.
  - destruct (s_pc s) eqn:Ep; try discriminate. injection Hs as <-. unfold potential, waiting, flush_entry. snorm. rewrite Hc.
    destruct (s_queue s) as [|f q] eqn:Eq; [|destruct (s_out s)]; destruct (s_end s); lia.
  - destruct (s_pc s) eqn:Ep; try discriminate. destruct (s_out s); injection Hs as <-; unfold potential; snorm; destruct (s_end s); lia.
  - destruct (s_pc s) eqn:Ep; try discriminate. destruct (s_completed s); injection Hs as <-; unfold potential; snorm; destruct (s_end s); lia.
  - destruct (s_pc s) eqn:Ep; try discriminate. destruct (s_errclosed s); injection Hs as <-; unfold potential; snorm; destruct (s_end s); lia.
  - destruct (s_errq s) as [|e q] eqn:Eq; [discriminate|]. injection Hs as <-. unfold potential, waiting. snorm. cbn [length]. destruct (s_pc s), (s_queue s), (s_end s); lia.
Qed.

Lemma potential_run more : forall acts s s', srun sender_init acts = Some s -> srun s more = Some s' ->
  (potential s' + length more <= potential s + 6 * disturbances more)%nat.
Proof.
  induction more as [|a more IH]; intros acts s s' H Hr; cbn [srun] in Hr; [injection Hr as <-; cbn; lia|].
  destruct (sstep s a) as [s1|] eqn:Es; [|discriminate].
  assert (H1 : srun sender_init (acts ++ [a]) = Some s1) by (rewrite srun_app, H; cbn [srun]; rewrite Es; reflexivity).
  specialize (IH _ _ _ H1 Hr). pose proof (potential_step _ _ _ Es (v_errq _ _ (srun_inv _ _ H))) as Hp.
  unfold disturbances. cbn [filter length]. fold (disturbances more). destruct (disturbance a); cbn [length]; unfold disturbances in *; lia.
Qed.

(** However the goroutine, the user and the network are scheduled, the number of steps is bounded by
    the number of ticks, Sends and network failures: nothing spins. *)
Theorem C92_bounded_work : forall acts s more s', srun sender_init acts = Some s -> srun s more = Some s' ->
  (length more <= 15 + 6 * disturbances more)%nat.
Proof.
  intros acts s more s' H Hr. pose proof (potential_run _ _ _ _ H Hr) as Hp.
  assert (Hb : (potential s <= 15)%nat); [|lia].
  pose proof (v_errq _ _ (srun_inv _ _ H)) as Hq. pose proof (v_deferred _ _ (srun_inv _ _ H)) as Hd. unfold potential, waiting.
  destruct (s_crashed s); [lia|]. destruct (s_pc s) as [|[]|[]|[]|[]|[]| | | | |], (s_queue s), (s_end s); lia.
Qed.
Print Assumptions C92_bounded_work.

(** Once End is called, and until it has returned (or the process has crashed), a step that is not a
    disturbance is always possible: if the user reads the errors and the network works, ... *)
Theorem C92_progress : forall acts s, srun sender_init acts = Some s -> In AEndCall acts -> s_crashed s = false -> s_completed s = false ->
  exists a, disturbance a = false /\ a <> AEndCall /\ sstep s a <> None.
Proof.
  intros acts s H He Hc Hcp. pose proof (srun_inv _ _ H) as I0. apply (v_end _ _ I0) in He.
  destruct (s_errq s) as [|e q] eqn:Eq; [|exists AUserErr; split; [reflexivity|]; split; [discriminate|]; unfold sstep; rewrite Hc, Eq; discriminate].
  pose proof (v_out _ _ I0) as Io. pose proof (v_completed _ _ I0) as Ic. pose proof (v_errclosed _ _ I0) as Iec. destruct (s_pc s) eqn:Ep.
  - exists ASelectEnd. split; [reflexivity|]. split; [discriminate|]. unfold sstep. rewrite Hc, Ep, He. discriminate.
  - exists (AConnect None). split; [reflexivity|]. split; [discriminate|]. unfold sstep. rewrite Hc, Ep. discriminate.
  - exists APushErrConn. split; [reflexivity|]. split; [discriminate|]. unfold sstep. rewrite Hc, Ep, Eq. destruct (s_errclosed s); discriminate.
  - exists ALock. split; [reflexivity|]. split; [discriminate|]. unfold sstep. rewrite Hc, Ep. discriminate.
  - destruct (s_queue s) as [|f q] eqn:Eqq.
    + exists AWriteDone. split; [reflexivity|]. split; [discriminate|]. unfold sstep. rewrite Hc, Ep, Eqq. discriminate.
    + exists (AWrite (length (concat (f :: q))) WOk). split; [reflexivity|]. split; [discriminate|]. unfold sstep. rewrite Hc, Ep, Eqq. destruct (s_out s); [|discriminate].
      cbv zeta. rewrite Nat.leb_refl, Nat.eqb_refl. discriminate.
  - exists APushErrWrite. split; [reflexivity|]. split; [discriminate|]. unfold sstep. rewrite Hc, Ep, Eq. destruct (s_errclosed s); discriminate.
  - exists ADrain. split; [reflexivity|]. split; [discriminate|]. unfold sstep. rewrite Hc, Ep. discriminate.
  - exists ACloseOut. split; [reflexivity|]. split; [discriminate|]. unfold sstep. rewrite Hc, Ep. destruct (s_out s); discriminate.
  - exists ACloseDone. split; [reflexivity|]. split; [discriminate|]. unfold sstep. rewrite Hc, Ep. discriminate.
  - exfalso. destruct Ic as [_ Ic]. rewrite Ic in Hcp by auto. discriminate.
  - exfalso. destruct Ic as [_ Ic]. rewrite Ic in Hcp by auto. discriminate.
Qed.
Print Assumptions C92_progress.

(** ... End returns: every schedule without further disturbance stops after at most 15 steps, and where
    none of these steps is possible any more End has returned, or the process has crashed because
    there was no connection to close. *)
Theorem C92_end_terminates : forall acts s more s', srun sender_init acts = Some s -> In AEndCall acts -> s_crashed s = false ->
  srun s more = Some s' -> disturbances more = 0%nat -> ~ In AEndCall more ->
  (length more <= 15)%nat /\
  ((forall a, disturbance a = false -> a <> AEndCall -> sstep s' a = None) ->
     s_completed s' = true \/ (s_crashed s' = true /\ exists l, acts ++ more = l ++ [ACloseOut] /\ ~ connected l)).
Proof.
  intros acts s more s' H He Hcs Hr Hd Hne. split; [pose proof (C92_bounded_work _ _ _ _ H Hr); lia|]. intros Hstop.
  assert (H' : srun sender_init (acts ++ more) = Some s') by (rewrite srun_app, H; exact Hr).
  destruct (s_completed s') eqn:Ecp; [left; reflexivity|right]. destruct (s_crashed s') eqn:Ecr.
  - split; [reflexivity|]. destruct more as [|m more _] using rev_ind; [cbn [srun] in Hr; congruence|].
    rewrite app_assoc in H' |- *. destruct (C43_crash_iff _ _ _ H') as [Hx _]. destruct (Hx Ecr) as [[-> Hi]|[-> Hn]].
    + exfalso. apply Hne. apply in_or_app. right. left. reflexivity.
    + exists (acts ++ more). auto.
  - exfalso. destruct (C92_progress _ _ H') as (a & Ha & Hn & Hs); [apply in_or_app; left; exact He|exact Ecr|exact Ecp|]. apply Hs. apply Hstop; assumption.
Qed.
Print Assumptions C92_end_terminates.

(** concrete: End called while a message waits; 8 steps later it has returned, and nothing but the error
    channel is left to close *)
Example C92_nonvacuous : exists s s',
  srun sender_init [ASend (fr (bs "one")); AEndCall] = Some s /\
  srun s [ASelectEnd; ADrain; AConnect None; ALock; AWrite 4 WOk; AWriteDone; ADrain; ACloseOut; ACloseDone; ACloseErr] = Some s' /\
  s_completed s' = true /\ written (s_log s') = fr (bs "one") /\
  disturbances [ASelectEnd; ADrain; AConnect None; ALock; AWrite 4 WOk; AWriteDone; ADrain; ACloseOut; ACloseDone; ACloseErr] = 0%nat /\
  forall a, disturbance a = false -> a <> AEndCall -> sstep s' a = None.
Proof.
  eexists. eexists. split; [vm_compute; reflexivity|]. split; [vm_compute; reflexivity|]. split; [reflexivity|]. split; [reflexivity|]. split; [reflexivity|].
  intros a Ha Hn. destruct a as [| | | |[]| | |k []| | | | | | |]; try discriminate; try reflexivity. congruence.
Qed.

(** ** C46 and C48 on histories *)

(** the errors of the network so far, as actions; and how many errors the user has read *)
Definition failing (a : saction) : bool := match a with AConnect (Some _) | AWrite _ (WErr _) => true | _ => false end.
Definition failures (acts : list saction) : list saction := filter failing acts.
Definition reads (acts : list saction) : nat := length (filter (fun a => match a with AUserErr => true | _ => false end) acts).

Lemma reads_goterr acts : forall s, srun sender_init acts = Some s -> length (s_goterr s) = reads acts.
Proof.
  induction acts as [|a acts IH] using rev_ind; intros s H; [injection H as <-; reflexivity|].
  destruct (last_step _ _ _ H) as (s0 & H0 & Hc & Hs). specialize (IH _ H0). unfold reads in *. rewrite filter_app, app_length, <- IH.
  unfold sstep in Hs. rewrite Hc in Hs. destruct a as [f| | | |err| | |k r| | | | | | |]; cbn [filter length];
    repeat match type of Hs with
    | context [match ?x with _ => _ end] => destruct x; try discriminate
    end; injection Hs as <-; snorm; rewrite ?app_length; cbn [length]; lia.
Qed.

Lemma failures_errors acts : length (failures acts) = length (net_errors acts).
Proof.
  induction acts as [|a acts IH]; [reflexivity|]. unfold failures, net_errors in *. cbn [filter flat_map].
  destruct a as [| | | |[e|]| | |k [| |e]| | | | | | |]; cbn [failing app length]; rewrite ?IH; reflexivity.
Qed.

(** the error being reported is the last one *)
Lemma last_failure acts : forall s, srun sender_init acts = Some s ->
  match s_pc s with
  | PErrConnect _ e => exists l, failures acts = l ++ [AConnect (Some e)]
  | PErrWrite _ e => exists l k, failures acts = l ++ [AWrite k (WErr e)]
  | _ => True
  end.
Proof.
  induction acts as [|a acts IH] using rev_ind; intros s H; [injection H as <-; exact I|].
  destruct (last_step _ _ _ H) as (s0 & H0 & Hc & Hs). specialize (IH _ H0). unfold failures in *. rewrite filter_app.
  unfold sstep in Hs. rewrite Hc in Hs. destruct a as [f| | | |err| | |k r| | | | | | |]; cbn [filter failing]; rewrite ?app_nil_r.
  - destruct (locked s0); [discriminate|]. injection Hs as <-. exact IH.
  - destruct (s_pc s0); try discriminate. injection Hs as <-. unfold flush_entry. snorm. destruct (s_out s0); exact I.
  - injection Hs as <-. destruct (s_end s0); exact IH.
  - destruct (s_pc s0); try discriminate. destruct (s_end s0); [|discriminate]. injection Hs as <-. exact I.
  - destruct (s_pc s0); try discriminate. destruct err as [e|]; injection Hs as <-; [|exact I]. snorm. eauto.
  - destruct (s_pc s0) eqn:Ep; try discriminate. destruct (s_errclosed s0); [injection Hs as <-; snorm; rewrite Ep; exact IH|].
    destruct (length (s_errq s0) <? serr_cap)%nat; [|discriminate]. injection Hs as <-. snorm. destruct d; exact I.
  - destruct (s_pc s0); try discriminate. injection Hs as <-. exact I.
  - destruct (s_pc s0) eqn:Ep; try discriminate. destruct (s_queue s0) as [|f q]; [discriminate|]. destruct (s_out s0); [|injection Hs as <-; snorm; rewrite Ep; exact I].
    cbv zeta in Hs. remember (f :: q) as Q eqn:EQ in Hs. clear EQ. destruct (_ && _); [|discriminate]. injection Hs as <-. snorm. destruct r as [| |e]; [exact I|destruct d; exact I|]. eauto.
  - destruct (s_pc s0); try discriminate. destruct (s_queue s0); [|discriminate]. injection Hs as <-. snorm. destruct d; exact I.
  - destruct (s_pc s0) eqn:Ep; try discriminate. destruct (s_errclosed s0); [injection Hs as <-; snorm; rewrite Ep; exact IH|].
    destruct (length (s_errq s0) <? serr_cap)%nat; [|discriminate]. injection Hs as <-. snorm. destruct d; exact I.
  - destruct (s_pc s0); try discriminate. injection Hs as <-. snorm. destruct (s_queue s0); [exact I|]. unfold flush_entry. destruct (s_out s0); exact I.
  - destruct (s_pc s0) eqn:Ep; try discriminate. destruct (s_out s0); injection Hs as <-; snorm; rewrite ?Ep; exact I.
  - destruct (s_pc s0) eqn:Ep; try discriminate. destruct (s_completed s0); injection Hs as <-; snorm; rewrite ?Ep; exact I.
  - destruct (s_pc s0) eqn:Ep; try discriminate. destruct (s_errclosed s0); injection Hs as <-; snorm; rewrite ?Ep; exact I.
  - destruct (s_errq s0); [discriminate|]. injection Hs as <-. exact IH.
Qed.

(** Sends are blocked until the user reads an error exactly when two errors of the network are unread
    and the last one is that of a write. *)
Theorem C46_blocked_history : forall acts s f, srun sender_init acts = Some s -> s_crashed s = false ->
  ((forall more, ~ In AUserErr more -> srun s (more ++ [ASend f]) = None) <->
   (length (failures acts) = reads acts + 2)%nat /\ exists l k e, failures acts = l ++ [AWrite k (WErr e)]).
Proof.
  intros acts s f H Hc. rewrite (C46_blocked_forever_iff acts s f H Hc). pose proof (srun_inv _ _ H) as I0.
  pose proof (v_errs _ _ I0) as Ie. pose proof (v_errq _ _ I0) as Iq. pose proof (last_failure _ _ H) as Hl. rewrite failures_errors, <- Ie, !app_length, (reads_goterr _ _ H).
  unfold pending_error. split.
  - intros (d & e & Hp & Hq). rewrite Hp in *. destruct Hl as (l & k & Hl). destruct (s_errq s) as [|x [|y q]]; cbn [length] in *; [congruence| |lia]. split; [lia|]. exists l, k, e. exact Hl.
  - intros [Hn (l & k & e & Hf)]. destruct (s_pc s) eqn:Ep; cbn [length] in Hn; try lia.
    + destruct Hl as (l' & Hl). rewrite Hf in Hl. apply app_inj_tail in Hl as [_ Hl]. discriminate.
    + exists d, e0. split; [reflexivity|]. destruct (s_errq s); [cbn [length] in Hn; lia|discriminate].
Qed.
Print Assumptions C46_blocked_history.

(** After End has returned, nothing is written any more, and Send still returns nil. *)
Theorem C48_after_end : forall acts s, srun sender_init acts = Some s -> s_completed s = true ->
  (forall more s', srun s more = Some s' -> written (s_log s') = written (s_log s)) /\
  (s_crashed s = false -> forall f, exists s', sstep s (ASend f) = Some s').
Proof.
  intros acts s H Hcp. assert (Hd : after_drain (s_pc s) = true).
  { pose proof (v_completed _ _ (srun_inv _ _ H)) as Hx. destruct (proj1 Hx Hcp) as [->| ->]; reflexivity. }
  destruct (C48_send_after_end_is_lost acts s H Hd) as [H1 H2]. split.
  - intros more s' Hr. apply (H1 more s' Hr).
  - intros Hc f. specialize (H2 Hc f). destruct (sstep s (ASend f)) as [s'|]; [eauto|congruence].
Qed.
Print Assumptions C48_after_end.

Example C46_history_nonvacuous :
  let acts := [ASend (fr (bs "x")); ATick; AConnect (Some 1%nat); APushErrConn; ATick; AConnect None; ALock; AWrite 0 (WErr 2)] in
  failures acts = [AConnect (Some 1%nat)] ++ [AWrite 0 (WErr 2)] /\ reads acts = 0%nat /\ exists s, srun sender_init acts = Some s /\ s_crashed s = false.
Proof. cbv zeta. split; [reflexivity|]. split; [reflexivity|]. eexists. split; vm_compute; reflexivity. Qed.
