(** PropLive2.v -- C98: what one tick does. *)
From Coq Require Import List NArith ZArith Lia Bool.
From Verif Require Import Base BaseFacts MTransport MSender LSender PropSender PropSender2 PropSender3 PropLive.
Import ListNotations.

(** the network fails: a Connect or a write that does not succeed *)
Definition failure (a : saction) : bool := match a with AConnect (Some _) | AWrite _ WNoBufs | AWrite _ (WErr _) => true | _ => false end.
(** nothing can happen but a tick, a Send, a failure or a call of End *)
Definition idle (s : sstate) : Prop := forall a, disturbance a = false -> a <> AEndCall -> sstep s a = None.

Definition flushing (pc : spc) : bool := match pc with PConnect false | PLock false | PWrite false => true | _ => false end.

Lemma written_app a b : written (a ++ b) = written a ++ written b.
Proof. unfold written. rewrite map_app, concat_app. reflexivity. Qed.

(** One step never takes back what was written. *)
Lemma written_grows s a s' : sstep s a = Some s' -> exists rest, written (s_log s') = written (s_log s) ++ rest.
Proof.
  intros H. assert (K : exists l, s_log s' = s_log s ++ l); [|destruct K as (l & ->); rewrite written_app; eauto].
  unfold sstep in H. destruct (s_crashed s); [discriminate|].
  destruct a; repeat match type of H with
    | (match ?x with _ => _ end) = Some _ => destruct x eqn:?; try discriminate
    | (if ?x then _ else _) = Some _ => destruct x eqn:?; try discriminate
    end; cbv zeta in H; repeat match type of H with (if ?x then _ else _) = Some _ => destruct x eqn:?; try discriminate end;
    injection H as <-; cbn [s_log set_pc scrash]; try (exists []; rewrite app_nil_r; reflexivity); try (eexists; reflexivity);
    match goal with |- context [if ?x then _ else _] => destruct x end; exists []; rewrite app_nil_r; reflexivity.
Qed.

Lemma flush_step s a s' : sstep s a = Some s' -> failure a = false -> flushing (s_pc s) = true ->
  flushing (s_pc s') = true \/ s_crashed s' = true \/ (a = AWriteDone /\ s_queue s = [] /\ s_log s' = s_log s).
Proof.
  intros H Hf Hp. unfold sstep in H. destruct (s_crashed s); [discriminate|].
  destruct (s_pc s) as [|d| |d|d| | | | | |] eqn:Ep; try discriminate; destruct d; try discriminate.
  - destruct a; try discriminate.
    + destruct (locked s); [discriminate|]. injection H as <-. left. cbn; rewrite ?Ep; reflexivity.
    + injection H as <-. destruct (s_end s); [right; left; reflexivity|left; cbn; rewrite ?Ep; reflexivity].
    + destruct err; [discriminate|]. injection H as <-. left. reflexivity.
    + destruct (s_errq s); [discriminate|]. injection H as <-. left. cbn; rewrite ?Ep; reflexivity.
  - destruct a; try discriminate.
    + destruct (locked s); [discriminate|]. injection H as <-. left. cbn; rewrite ?Ep; reflexivity.
    + injection H as <-. destruct (s_end s); [right; left; reflexivity|left; cbn; rewrite ?Ep; reflexivity].
    + injection H as <-. left. reflexivity.
    + destruct (s_errq s); [discriminate|]. injection H as <-. left. cbn; rewrite ?Ep; reflexivity.
  - destruct a; try discriminate.
    + destruct (locked s); [discriminate|]. injection H as <-. left. cbn; rewrite ?Ep; reflexivity.
    + injection H as <-. destruct (s_end s); [right; left; reflexivity|left; cbn; rewrite ?Ep; reflexivity].
    + destruct (s_queue s); [discriminate|]. destruct (s_out s); [|injection H as <-; right; left; reflexivity]. cbv zeta in H. destruct (_ && _); [|discriminate]. injection H as <-.
      destruct r; try discriminate. left. reflexivity.
    + destruct (s_queue s) eqn:Eq; [|discriminate]. injection H as <-. right. right. auto.
    + destruct (s_errq s); [discriminate|]. injection H as <-. left. cbn; rewrite ?Ep; reflexivity.
Qed.

(** Once a tick is taken and the network does not fail, everything that had been sent before the tick is on
    the network by the time the goroutine can take the next tick (or End returns), whatever else
    happens: more Sends, End, the user reading errors, more ticks. *)
Theorem C98_one_tick : forall acts more s, srun sender_init (acts ++ ATick :: more) = Some s -> (forall a, In a more -> failure a = false) ->
  sstep s ATick <> None \/ s_completed s = true -> exists rest, written (s_log s) = concat (sends acts) ++ rest.
Proof.
  intros acts more s H Hf Hw. change (ATick :: more) with ([ATick] ++ more) in H. rewrite app_assoc, srun_app in H.
  destruct (srun sender_init (acts ++ [ATick])) as [s0|] eqn:E0; [|discriminate].
  assert (K : (forall a, In a more -> failure a = false) -> flushing (s_pc s) = true \/ s_crashed s = true /\ flushing (s_pc s) = true \/ exists rest, written (s_log s) = concat (sends acts) ++ rest).
  { clear Hf Hw. pattern more, s. refine (snoc_ind_run _ s0 (acts ++ [ATick]) E0 _ _ more s H).
    - intros _. left. rewrite srun_app in E0. destruct (srun sender_init acts) as [s1|]; [|discriminate]. cbn [srun] in E0. unfold sstep in E0.
      destruct (s_crashed s1); [discriminate|]. destruct (s_pc s1); try discriminate. injection E0 as <-. unfold set_pc, flush_entry. cbn. destruct (s_out s1); reflexivity.
    - intros m a s1 s2 _ I1 IH Hc Hs Hf. assert (Hf1 : forall a, In a m -> failure a = false) by (intros b Hb; apply Hf, in_or_app; auto).
      assert (Hfa : failure a = false) by (apply Hf, in_or_app; right; left; reflexivity). specialize (IH Hf1).
      assert (Hp : flushing (s_pc s1) = true -> flushing (s_pc s2) = true \/ s_crashed s2 = true /\ flushing (s_pc s2) = true \/ exists rest, written (s_log s2) = concat (sends acts) ++ rest).
      { intros Hp. destruct (flush_step _ _ _ Hs Hfa Hp) as [K|[K|(-> & Hq & Hl)]]; [left; exact K| |].
        - right. left. split; [exact K|]. clear -Hs K Hp. unfold sstep in Hs. destruct (s_crashed s1) eqn:Ec; [discriminate|].
          destruct (s_pc s1) as [|d| |d|d| | | | | |] eqn:Ep; try discriminate; destruct a; try discriminate;
            repeat match type of Hs with
              | (match ?x with _ => _ end) = Some _ => destruct x eqn:?; try discriminate
              | (if ?x then _ else _) = Some _ => destruct x eqn:?; try discriminate
              end; injection Hs as <-; cbn [s_crashed s_pc set_pc scrash] in *; try congruence; rewrite ?Ep; try exact Hp;
            match goal with |- context [if ?x then _ else _] => destruct x end; cbn [s_pc scrash]; rewrite ?Ep; exact Hp.
        - right. right. pose proof (v_bytes _ _ I1) as Hv. rewrite Hq in Hv. cbn [concat] in Hv. rewrite app_nil_r, <- app_assoc in Hv.
          rewrite Hl, Hv, sends_app, concat_app. eauto. }
      destruct IH as [IH|[[IH _]|(rest & IH)]]; [auto|congruence|]. right. right. destruct (written_grows _ _ _ Hs) as (r2 & ->). rewrite IH, <- app_assoc. eauto. }
  specialize (K Hf). assert (Hn : flushing (s_pc s) = false).
  { assert (Hrun : srun sender_init ((acts ++ [ATick]) ++ more) = Some s) by (rewrite srun_app, E0; exact H).
    destruct Hw as [Hw|Hw].
    - unfold sstep in Hw. destruct (s_crashed s); [congruence|]. destruct (s_pc s); try congruence; reflexivity.
    - destruct (v_completed _ _ (srun_inv _ _ Hrun)) as [K' _]. destruct (K' Hw) as [-> | ->]; reflexivity. }
  rewrite Hn in K. destruct K as [K|[[_ K]|K]]; [discriminate|discriminate|exact K].
Qed.
Print Assumptions C98_one_tick.

(** Left alone, the goroutine waits for a tick, or End has returned. *)
Theorem C98_at_rest : forall acts s, srun sender_init acts = Some s -> s_crashed s = false -> idle s ->
  (sstep s ATick <> None /\ ~ In AEndCall acts) \/ s_completed s = true.
Proof.
  intros acts s H Hc Hi. pose proof (srun_inv _ _ H) as I0.
  assert (He : s_end s = true -> s_completed s = true).
  { intros He. destruct (s_completed s) eqn:Ecp; [reflexivity|exfalso]. destruct (C92_progress acts s H) as (a & H1 & H2 & H3); try assumption; [apply (v_end _ _ I0); exact He|]. apply H3, Hi; assumption. }
  destruct (s_end s) eqn:Ee; [right; auto|]. assert (Hn : ~ In AEndCall acts) by (intros K; apply (v_end _ _ I0) in K; congruence).
  left. split; [|exact Hn]. pose proof (fun a => Hi a) as Hall.
  destruct (s_errq s) as [|e q] eqn:Eq; [|specialize (Hall AUserErr eq_refl ltac:(discriminate)); unfold sstep in Hall; rewrite Hc, Eq in Hall; discriminate].
  pose proof (v_deferred _ _ I0) as Id. destruct (s_pc s) eqn:Ep.
  - unfold sstep. rewrite Hc, Ep. discriminate.
  - specialize (Hall (AConnect None) eq_refl ltac:(discriminate)). unfold sstep in Hall. rewrite Hc, Ep in Hall. discriminate.
  - specialize (Hall APushErrConn eq_refl ltac:(discriminate)). unfold sstep in Hall. rewrite Hc, Ep, Eq in Hall. destruct (s_errclosed s); discriminate.
  - specialize (Hall ALock eq_refl ltac:(discriminate)). unfold sstep in Hall. rewrite Hc, Ep in Hall. discriminate.
  - destruct (s_queue s) as [|f q] eqn:Eqq.
    + specialize (Hall AWriteDone eq_refl ltac:(discriminate)). unfold sstep in Hall. rewrite Hc, Ep, Eqq in Hall. discriminate.
    + specialize (Hall (AWrite (length (concat (f :: q))) WOk) eq_refl ltac:(discriminate)). unfold sstep in Hall. rewrite Hc, Ep, Eqq in Hall. destruct (s_out s); [|discriminate].
      cbv zeta in Hall. rewrite Nat.leb_refl, Nat.eqb_refl in Hall. discriminate.
  - specialize (Hall APushErrWrite eq_refl ltac:(discriminate)). unfold sstep in Hall. rewrite Hc, Ep, Eq in Hall. destruct (s_errclosed s); discriminate.
  - specialize (Hall ADrain eq_refl ltac:(discriminate)). unfold sstep in Hall. rewrite Hc, Ep in Hall. discriminate.
  - specialize (Hall ACloseOut eq_refl ltac:(discriminate)). unfold sstep in Hall. rewrite Hc, Ep in Hall. destruct (s_out s); discriminate.
  - specialize (Hall ACloseDone eq_refl ltac:(discriminate)). unfold sstep in Hall. rewrite Hc, Ep in Hall. discriminate.
  - specialize (Hall ACloseErr eq_refl ltac:(discriminate)). unfold sstep in Hall. rewrite Hc, Ep in Hall. discriminate.
  - exfalso. specialize (Id eq_refl). congruence.
Qed.
Print Assumptions C98_at_rest.

(** So: after a tick, every schedule in which the network works, nobody sends and the user reads the errors
    comes to rest within 15 steps, with everything written and the queue empty (or the process has crashed: C43). *)
Theorem C98_tick_flushes : forall acts more s, srun sender_init (acts ++ ATick :: more) = Some s -> disturbances more = 0%nat ->
  (length more <= 15)%nat /\
  (idle s -> s_crashed s = false -> written (s_log s) = concat (sends acts) /\ concat (s_queue s) = []).
Proof.
  intros acts more s H Hd. change (ATick :: more) with ([ATick] ++ more) in H. pose proof H as H'. rewrite app_assoc, srun_app in H.
  destruct (srun sender_init (acts ++ [ATick])) as [s0|] eqn:E0; [|discriminate]. split; [pose proof (C92_bounded_work _ _ _ _ E0 H); lia|]. intros Hi Hc.
  assert (Hf : forall a, In a more -> disturbance a = false).
  { intros a Ha. destruct (disturbance a) eqn:Ed; [exfalso|reflexivity]. unfold disturbances in Hd. assert (Hin : In a (filter disturbance more)) by (apply filter_In; auto).
    destruct (filter disturbance more); [destruct Hin|discriminate]. }
  destruct (C98_one_tick acts more s H') as (rest & Hw).
  - intros a Ha. specialize (Hf a Ha). destruct a; try reflexivity; try exact Hf.
  - destruct (C98_at_rest _ _ H' Hc Hi) as [[K _]|K]; auto.
  - pose proof (v_bytes _ _ (srun_inv _ _ H')) as Hv. rewrite sends_app in Hv. assert (Es : sends ([ATick] ++ more) = []).
    { clear -Hf. unfold sends. cbn [app flat_map]. induction more as [|a more IH]; [reflexivity|]. cbn [flat_map]. rewrite IH by (intros b Hb; apply Hf; right; exact Hb).
      specialize (Hf a (or_introl eq_refl)). destruct a; try reflexivity. discriminate. }
    rewrite Es, app_nil_r, Hw, <- app_assoc in Hv. rewrite <- (app_nil_r (concat (sends acts))) in Hv at 2. apply app_inv_head in Hv. apply app_eq_nil in Hv as [-> Hq].
    rewrite app_nil_r in Hw. auto.
Qed.
Print Assumptions C98_tick_flushes.

(** Non-vacuity: a frame is sent, a flush fails after one byte, another frame is sent; then a tick. *)
Definition before_tick : list saction := [ASend (bs "abc"); ATick; AConnect None; ALock; AWrite 1 (WErr 9); APushErrWrite; ASend (bs "de")].
Definition after_tick : list saction := [AUserErr; AConnect None; ALock; AWrite 4 WOk; AWriteDone].
Example C98_nonvacuous : exists s, srun sender_init (before_tick ++ ATick :: after_tick) = Some s /\ disturbances after_tick = 0%nat /\ s_crashed s = false /\ idle s /\
  sstep s ATick <> None /\ written (s_log s) = bs "abcde".
Proof.
  eexists. split; [vm_compute; reflexivity|]. split; [reflexivity|]. split; [reflexivity|]. split; [|split; [discriminate|vm_compute; reflexivity]].
  intros a H1 H2. destruct a; try discriminate; try reflexivity. congruence.
Qed.
Print Assumptions C98_nonvacuous.
(** The network must work: a tick during which a write stops short leaves bytes behind. *)
Example C98_failure_leaves_bytes : exists s, srun sender_init [ASend (bs "abc"); ATick; AConnect None; ALock; AWrite 1 WNoBufs] = Some s /\ sstep s ATick <> None /\ written (s_log s) = bs "a".
Proof. eexists. split; [vm_compute; reflexivity|]. split; [discriminate|vm_compute; reflexivity]. Qed.
