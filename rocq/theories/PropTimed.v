(** PropTimed.v -- C114: how long a message waits, and how long End takes. *)
From Verif Require Import Base BaseFacts MTransport MConnect MSender MTimed LSender PropSender PropConnect.
Local Open Scope Z_scope.

(** ** specification vocabulary *)
Definition untimed (acts : list taction) : list saction := flat_map (fun x => match x with TAct a => [a] | _ => [] end) acts.
Definition elapsed (acts : list taction) : Z := fold_right Z.add 0 (map (fun x => match x with TWait dt => dt | _ => 0 end) acts).
(** the actions of the goroutine (the others are the user's) *)
Definition by_goroutine (a : saction) : bool := match a with ASend _ | AEndCall | AUserErr => false | _ => true end.
(** the goroutine is not blocked *)
Definition able (period : option Z) (s : tstate) : Prop := exists a, by_goroutine a = true /\ tstep period s (TAct a) <> None.
(** The machine and the network are prompt: the goroutine, when it is not blocked, performs its next
    action (a Connect and a write included) within [delta].  [w]: for how long it has been able to. *)
Fixpoint prompt (period : option Z) (delta : Z) (s : tstate) (w : Z) (acts : list taction) : Prop :=
  match acts with
  | [] => True
  | x :: more =>
      match tstep period s x with
      | None => True
      | Some s' =>
          match x with
          | TWait dt => (able period s -> w + dt <= delta /\ prompt period delta s' (w + dt) more) /\ (~ able period s -> prompt period delta s' 0 more)
          | TFire => prompt period delta s' w more
          | TAct a => prompt period delta s' (if by_goroutine a then 0 else w) more
          end
      end
  end.
(** no Connect and no write fails *)
Definition works (a : saction) : bool := match a with AConnect (Some _) => false | AWrite _ WNoBufs => false | AWrite _ (WErr _) => false | _ => true end.
Definition fault_free (acts : list taction) : Prop := forallb works (untimed acts) = true.

(** ** executions without their times *)
Lemma untimed_cons x acts : untimed (x :: acts) = match x with TAct a => [a] | _ => [] end ++ untimed acts.
Proof. reflexivity. Qed.

Lemma tstep_inv p s x s' : tstep p s x = Some s' ->
  match x with
  | TWait dt => 0 < dt /\ s_crashed (ts_s s) = false /\ (forall d, p = Some d -> ts_now s + dt <= ts_next s) /\ s' = {| ts_s := ts_s s; ts_now := ts_now s + dt; ts_next := ts_next s; ts_tick := ts_tick s |}
  | TFire => exists d, p = Some d /\ ts_now s = ts_next s /\ s' = {| ts_s := ts_s s; ts_now := ts_now s; ts_next := ts_next s + d; ts_tick := true |}
  | TAct a => (a = ATick -> ts_tick s = true) /\ sstep (ts_s s) a = Some (ts_s s') /\ ts_now s' = ts_now s /\ ts_next s' = ts_next s /\ ts_tick s' = match a with ATick => false | _ => ts_tick s end
  end.
Proof.
  destruct x as [dt| |a]; cbn [tstep].
  - destruct (Z.ltb_spec 0 dt); [|discriminate]. destruct (s_crashed (ts_s s)); [discriminate|]. cbn [negb andb]. destruct p as [d|].
    + destruct (Z.leb_spec (ts_now s + dt) (ts_next s)); [|discriminate]. intros E. injection E as <-. auto 6.
    + intros E. injection E as <-. repeat split; auto. intros d H'. discriminate.
  - destruct p as [d|]; [|discriminate]. destruct (Z.eqb_spec (ts_now s) (ts_next s)); [|discriminate]. intros E. injection E as <-. eauto.
  - destruct (match a with ATick => ts_tick s | _ => true end) eqn:Et; [|discriminate]. destruct (sstep (ts_s s) a) as [y|]; [|discriminate]. intros E. injection E as <-. cbn.
    split; [intros ->; exact Et|auto].
Qed.

Lemma trun_srun p : forall acts s s', trun p s acts = Some s' -> srun (ts_s s) (untimed acts) = Some (ts_s s').
Proof.
  induction acts as [|x acts IH]; intros s s' H; cbn [trun] in H; [injection H as <-; reflexivity|]. destruct (tstep p s x) as [s1|] eqn:E; [|discriminate].
  specialize (IH _ _ H). apply tstep_inv in E. rewrite untimed_cons. destruct x as [dt| |a]; cbn [List.app].
  - destruct E as (_ & _ & _ & ->). exact IH.
  - destruct E as (d & _ & _ & ->). exact IH.
  - destruct E as (_ & E & _). cbn [srun]. rewrite E. exact IH.
Qed.

(** Without its times, an execution is one of MSender.v: every property of a Sender holds of it. *)
Theorem C114_is_a_sender : forall p acts s, trun p (timed_init p) acts = Some s -> srun sender_init (untimed acts) = Some (ts_s s).
Proof. intros p acts s H. exact (trun_srun p acts (timed_init p) s H). Qed.
Print Assumptions C114_is_a_sender.

Lemma trun_app p a : forall s b, trun p s (a ++ b) = match trun p s a with Some s' => trun p s' b | None => None end.
Proof. induction a as [|x a IH]; intros s b; [reflexivity|]. cbn [List.app trun]. destruct (tstep p s x); [apply IH|reflexivity]. Qed.

Lemma clock_run d : 0 < d -> forall acts s s', ts_now s <= ts_next s <= ts_now s + d -> trun (Some d) s acts = Some s' -> ts_now s' <= ts_next s' <= ts_now s' + d.
Proof.
  intros Hd. induction acts as [|x acts IH]; intros s s' Hs H; cbn [trun] in H; [injection H as <-; exact Hs|]. destruct (tstep (Some d) s x) as [s1|] eqn:E; [|discriminate].
  apply (IH s1); [|exact H]. apply tstep_inv in E. destruct x as [dt| |a].
  - destruct E as (E1 & _ & E2 & ->). specialize (E2 d eq_refl). cbn. lia.
  - destruct E as (d' & E1 & E2 & ->). injection E1 as <-. cbn. lia.
  - destruct E as (_ & _ & -> & -> & _). exact Hs.
Qed.

(** ** who can move *)
Definition ready (s : tstate) : bool := match s_pc (ts_s s) with PSelect => ts_tick s || s_end (ts_s s) | _ => true end.
Definition live (pc : spc) : bool := match pc with PSelect | PConnect _ | PLock _ | PWrite _ | PDrain => true | _ => false end.

Lemma able_ready p s : s_crashed (ts_s s) = false -> live (s_pc (ts_s s)) = true -> ready s = true -> able p s.
Proof.
  intros Hc Hl Hr. unfold able, tstep, ready in *.
  destruct (s_pc (ts_s s)) as [|b|b e|b|b|b e| | | | |] eqn:Ep; try discriminate Hl.
  - apply orb_true_iff in Hr as [Hr|Hr]; [exists ATick; rewrite Hr|exists ASelectEnd]; unfold sstep; rewrite Hc, Ep; [|rewrite Hr]; split; [reflexivity|discriminate|reflexivity|discriminate].
  - exists (AConnect None). unfold sstep. rewrite Hc, Ep. split; [reflexivity|discriminate].
  - exists ALock. unfold sstep. rewrite Hc, Ep. split; [reflexivity|discriminate].
  - destruct (s_queue (ts_s s)) as [|f q] eqn:Eq; [exists AWriteDone|exists (AWrite (length (concat (f :: q))) WOk)]; unfold sstep; rewrite Hc, Ep, Eq; (split; [reflexivity|]); [discriminate|].
    destruct (s_out (ts_s s)); [|discriminate]. rewrite Nat.leb_refl, Nat.eqb_refl. discriminate.
  - exists ADrain. unfold sstep. rewrite Hc, Ep. split; [reflexivity|discriminate].
Qed.

Lemma not_able_select p s : s_pc (ts_s s) = PSelect -> ready s = false -> ~ able p s.
Proof.
  intros Hp Hr (a & Ha & H). unfold ready in Hr. rewrite Hp in Hr. apply orb_false_iff in Hr as [H1 H2]. apply H. unfold tstep.
  destruct a; try discriminate Ha; cbn; rewrite ?H1; try reflexivity; unfold sstep; destruct (s_crashed (ts_s s)); rewrite ?Hp, ?H2; reflexivity.
Qed.

Lemma written_step s a s' : sstep s a = Some s' -> exists more, s_log s' = s_log s ++ more.
Proof.
  intros H. unfold sstep in H. destruct (s_crashed s); [discriminate|].
  destruct a; repeat match type of H with context [match ?z with _ => _ end] => destruct z eqn:?; try discriminate H end; injection H as <-; cbn; eauto; exists []; rewrite app_nil_r; reflexivity.
Qed.

Lemma written_mono : forall acts s s', srun s acts = Some s' -> (length (written (s_log s)) <= length (written (s_log s')))%nat.
Proof.
  induction acts as [|a acts IH]; intros s s' H; cbn [srun] in H; [injection H as <-; lia|]. destruct (sstep s a) as [s1|] eqn:E; [|discriminate].
  apply IH in H. apply written_step in E as [more E]. rewrite E, written_app, app_length in H. lia.
Qed.

Definition stage (pc : spc) : Z := match pc with PWrite _ => 1 | PLock _ => 2 | PConnect _ => 3 | PDrain => 4 | _ => 5 end.
Lemma stage_step x a y : sstep x a = Some y -> works a = true -> live (s_pc x) = true -> s_queue x <> [] -> concat (s_queue y) <> [] -> s_crashed y = false ->
  live (s_pc y) = true /\ (by_goroutine a = true -> stage (s_pc y) + 1 <= stage (s_pc x) /\ s_pc y <> PSelect /\ (s_pc x = PSelect -> a = ATick \/ s_end x = true)) /\
  (by_goroutine a = false -> s_pc y = s_pc x /\ (s_end x = true -> s_end y = true)).
Proof.
  intros H Hw Hl Hq Hq1 Hc. unfold sstep in H. destruct (s_crashed x) eqn:Ec; [discriminate|]. unfold flush_entry, flush_return in H.
  destruct a; repeat match type of H with context [match ?z with _ => _ end] => destruct z eqn:?; try discriminate H end; injection H as <-; cbn in Hl, Hq, Hq1, Hc, Hw |- *; try discriminate Hw; try congruence;
    try (split; [reflexivity|split; [intros _; split; [lia|split; [discriminate|first [discriminate|auto; fail]]]|discriminate]]);
    try (split; [first [exact Hl|reflexivity]|split; [discriminate|auto]]).
  exfalso. match goal with H : _ && (k =? _)%nat = true |- _ => rename H into Heqb end. apply andb_true_iff in Heqb as [_ Heqb]. apply Nat.eqb_eq in Heqb. apply Hq1.
  match goal with |- concat ?q = [] => change q with (consume k (l :: l0)) end. rewrite Heqb, consume_all. reflexivity.
Qed.

Lemma crashed_stays p : forall acts s s', s_crashed (ts_s s) = true -> trun p s acts = Some s' -> s_crashed (ts_s s') = true.
Proof.
  induction acts as [|y acts IH]; intros s s' K H; cbn [trun] in H; [injection H as <-; exact K|]. destruct (tstep p s y) as [s2|] eqn:E; [|discriminate].
  apply (IH s2); [|exact H]. apply tstep_inv in E. destruct y; [destruct E as (_ & E & _); congruence|destruct E as (d & _ & _ & ->); exact K|destruct E as (_ & E & _)]. unfold sstep in E. rewrite K in E. discriminate.
Qed.

Lemma crashed_before p acts s s' : trun p s acts = Some s' -> s_crashed (ts_s s') = false -> s_crashed (ts_s s) = false.
Proof. intros H K. destruct (s_crashed (ts_s s)) eqn:E; [|reflexivity]. rewrite (crashed_stays p acts s s' E H) in K. discriminate. Qed.

(** ** a bound on the time left before everything is written *)
Definition left (delta : Z) (s : tstate) (w : Z) : Z := if ready s then stage (s_pc (ts_s s)) * delta - w else ts_next s - ts_now s + 5 * delta.

Lemma latency_run p delta L : 0 <= delta -> (forall d, p = Some d -> 0 < d) -> forall acts hist s w s',
  srun sender_init hist = Some (ts_s s) -> (L <= length (concat (sends hist)))%nat -> (p = None -> s_end (ts_s s) = true) -> (forall d, p = Some d -> ts_now s <= ts_next s) ->
  live (s_pc (ts_s s)) = true -> 0 <= w <= delta -> (ready s = false -> w = 0) ->
  trun p s acts = Some s' -> prompt p delta s w acts -> fault_free acts -> s_crashed (ts_s s') = false -> (length (written (s_log (ts_s s'))) < L)%nat ->
  elapsed acts <= left delta s w.
Proof.
  intros Hdelta Hp0. induction acts as [|x acts IH]; intros hist s w s' Hh HL Hend Hclock Hlive Hw Hw0 H Hpr Hff Hc HS.
  - cbn. unfold left, ready in *. cbn in H. injection H as <-. destruct (s_pc (ts_s s)); try discriminate Hlive; cbn [stage]; try nia.
    destruct (ts_tick s || s_end (ts_s s)) eqn:E; [nia|]. destruct p as [d|]; [specialize (Hclock d eq_refl); lia|]. rewrite (Hend eq_refl), orb_true_r in E. discriminate.
  - pose proof (trun_srun _ _ _ _ H) as Hrun. pose proof (written_mono _ _ _ Hrun) as Hm.
    cbn [trun] in H. cbn [prompt] in Hpr. destruct (tstep p s x) as [s1|] eqn:E; [|discriminate]. pose proof (srun_inv _ _ Hh) as V.
    assert (Hq : s_queue (ts_s s) <> []). { intros Z. pose proof (v_bytes _ _ V) as B. rewrite Z in B. cbn in B. rewrite app_nil_r in B. rewrite <- B in HL. lia. }
    pose proof (crashed_before _ _ _ _ H Hc) as Hcs1. assert (Hcs : s_crashed (ts_s s) = false).
    { apply (crashed_before p [x] s s1); [|exact Hcs1]. cbn [trun]. rewrite E. reflexivity. }
    pose proof E as E0. apply tstep_inv in E. destruct x as [dt| |a].
    + (* time passes *)
      destruct E as (Hdt & _ & Hn & ->). unfold elapsed. cbn [map fold_right]. fold (elapsed acts). unfold fault_free in *. rewrite untimed_cons in Hff. cbn [List.app] in Hff.
      destruct (ready s) eqn:Er.
      * destruct Hpr as [Hpr _]. destruct (Hpr (able_ready _ _ Hcs Hlive Er)) as [Hle Hpr1]. 
        assert (R : elapsed acts <= left delta {| ts_s := ts_s s; ts_now := ts_now s + dt; ts_next := ts_next s; ts_tick := ts_tick s |} (w + dt)).
        { apply (IH hist _ _ s'); cbn [ts_s ts_now ts_next]; auto; [lia|]. intros Z. unfold ready in Er, Z. cbn in Z. congruence. }
        unfold left in *. unfold ready in *. cbn [ts_s ts_tick ts_now ts_next] in R. rewrite Er in *. lia.
      * specialize (Hw0 eq_refl). subst w. destruct Hpr as [_ Hpr]. assert (Hsel : s_pc (ts_s s) = PSelect) by (unfold ready in Er; destruct (s_pc (ts_s s)); try discriminate Er; reflexivity).
        specialize (Hpr (not_able_select p s Hsel Er)).
        assert (R : elapsed acts <= left delta {| ts_s := ts_s s; ts_now := ts_now s + dt; ts_next := ts_next s; ts_tick := ts_tick s |} 0).
        { apply (IH hist _ _ s'); cbn [ts_s ts_now ts_next]; auto; lia. }
        unfold left in *. unfold ready in *. cbn [ts_s ts_tick ts_now ts_next] in R. rewrite Er in *. lia.
    + (* the timer fires *)
      destruct E as (d & Hd & Hn & ->). pose proof (Hp0 d Hd) as Hd0. unfold elapsed. cbn [map fold_right]. fold (elapsed acts). unfold fault_free in *. rewrite untimed_cons in Hff. cbn [List.app] in Hff.
      assert (R : elapsed acts <= left delta {| ts_s := ts_s s; ts_now := ts_now s; ts_next := ts_next s + d; ts_tick := true |} w).
      { apply (IH hist _ _ s'); cbn [ts_s ts_now ts_next]; auto; [intros; lia|]. unfold ready. cbn. destruct (s_pc (ts_s s)); discriminate. }
      unfold left in *. unfold ready in *. cbn [ts_s ts_tick ts_now ts_next] in R. destruct (s_pc (ts_s s)) eqn:Ep; try discriminate Hlive; cbn [orb stage] in *; try lia.
      destruct (ts_tick s || s_end (ts_s s)) eqn:Er; [lia|]. specialize (Hw0 eq_refl). lia.
    + (* an action *)
      destruct E as (Hti & Es & En & Ex & Et). unfold elapsed. cbn [map fold_right]. fold (elapsed acts). unfold fault_free in *. rewrite untimed_cons in Hff. cbn [List.app forallb] in Hff. apply andb_true_iff in Hff as [Hwk Hff].
      assert (Hh1 : srun sender_init (hist ++ [a]) = Some (ts_s s1)) by (rewrite srun_app, Hh; cbn; rewrite Es; reflexivity).
      assert (HL1 : (L <= length (concat (sends (hist ++ [a]))))%nat) by (rewrite sends_app, concat_app, app_length; eapply Nat.le_trans; [exact HL|apply Nat.le_add_r]).
      assert (Hm1 : (length (written (s_log (ts_s s1))) < L)%nat). { pose proof (trun_srun _ _ _ _ H) as Hr1. apply written_mono in Hr1. exact (Nat.le_lt_trans _ _ _ Hr1 HS). }
      assert (V1 := srun_inv _ _ Hh1).
      assert (Hq1 : concat (s_queue (ts_s s1)) <> []). { intros Z. pose proof (v_bytes _ _ V1) as B. rewrite Z, app_nil_r in B. rewrite <- B in HL1. exact (Nat.lt_irrefl _ (Nat.le_lt_trans _ _ _ HL1 Hm1)). }
      assert (C1 : (p = None -> s_end (ts_s s1) = true)). { intros Z. apply (v_end _ _ V1). apply in_or_app. left. apply (v_end _ _ V). apply Hend. exact Z. }
      assert (C2 : forall d, p = Some d -> ts_now s1 <= ts_next s1) by (intros d Z; rewrite En, Ex; exact (Hclock d Z)).
      specialize (IH (hist ++ [a]) s1 (if by_goroutine a then 0 else w) s' Hh1 HL1 C1 C2).
      assert (M : live (s_pc (ts_s s1)) = true /\ 0 <= (if by_goroutine a then 0 else w) <= delta /\ (ready s1 = false -> (if by_goroutine a then 0 else w) = 0) /\ left delta s1 (if by_goroutine a then 0 else w) <= left delta s w).
      { destruct (stage_step _ _ _ Es Hwk Hlive Hq Hq1 Hcs1) as (S1 & S2 & S3). split; [exact S1|]. clear IH Hpr. destruct (by_goroutine a) eqn:Eg.
        - destruct (S2 eq_refl) as (T1 & T2 & T3). split; [split; [apply Z.le_refl|exact Hdelta]|]. split; [reflexivity|]. unfold left, ready.
          assert (Rx : match s_pc (ts_s s) with PSelect => ts_tick s || s_end (ts_s s) | _ => true end = true).
          { destruct (s_pc (ts_s s)) eqn:Ep; try reflexivity. destruct (T3 eq_refl) as [Z|Z]; [rewrite (Hti Z); reflexivity|rewrite Z; apply orb_true_r]. }
          rewrite Rx. assert (Ry : match s_pc (ts_s s1) with PSelect => ts_tick s1 || s_end (ts_s s1) | _ => true end = true) by (destruct (s_pc (ts_s s1)); try reflexivity; congruence).
          rewrite Ry. clear - T1 Hw Hdelta. nia.
        - destruct (S3 eq_refl) as (T1 & T2). split; [exact Hw|]. assert (Tk : ts_tick s1 = ts_tick s) by (rewrite Et; destruct a; try reflexivity; discriminate Eg).
          unfold left, ready in *. rewrite T1, Tk, En, Ex in *. destruct (s_pc (ts_s s)) eqn:Ep; try (split; [discriminate|apply Z.le_refl]).
          destruct (ts_tick s); cbn [orb] in *; [split; [discriminate|apply Z.le_refl]|]. destruct (s_end (ts_s s)) eqn:Ee.
          + rewrite (T2 eq_refl). split; [discriminate|apply Z.le_refl].
          + specialize (Hw0 eq_refl). subst w. split; [reflexivity|]. destruct (s_end (ts_s s1)); [|apply Z.le_refl]. cbn [stage].
            destruct p as [d|]; [specialize (Hclock d eq_refl); clear - Hclock; lia|]. specialize (Hend eq_refl). discriminate. }
      destruct M as (M1 & M2 & M3 & M4). exact (Z.le_trans _ _ _ (IH M1 M2 M3 H Hpr Hff Hc HS) M4).
Qed.

Lemma clock_init d acts s : 0 < d -> trun (Some d) (timed_init (Some d)) acts = Some s -> ts_now s <= ts_next s <= ts_now s + d.
Proof. intros Hd H. apply (clock_run d Hd acts (timed_init (Some d))); [cbn; lia|exact H]. Qed.

Lemma prefix_of {A} (a b c d : list A) : a ++ b = c ++ d -> (length c <= length a)%nat -> exists m, a = c ++ m.
Proof.
  intros H Hl. exists (skipn (length c) a). rewrite <- (firstn_skipn (length c) a) at 1. f_equal.
  assert (E : firstn (length c) (a ++ b) = firstn (length c) (c ++ d)) by (rewrite H; reflexivity).
  rewrite !firstn_app, Nat.sub_diag in E. replace (length c - length a)%nat with 0%nat in E by lia. cbn in E. rewrite !app_nil_r, firstn_all in E. exact E.
Qed.

Lemma live_of s : pending_error s = [] -> after_drain (s_pc s) = false -> live (s_pc s) = true.
Proof. unfold pending_error. destruct (s_pc s); try reflexivity; discriminate. Qed.

Lemma srun_sends_prefix h1 h2 s : srun sender_init (h1 ++ h2) = Some s -> (length (concat (sends h1)) <= length (written (s_log s)))%nat ->
  exists more, written (s_log s) = concat (sends h1) ++ more.
Proof.
  intros H Hl. pose proof (v_bytes _ _ (srun_inv _ _ H)) as B. rewrite sends_app, concat_app in B. exact (prefix_of _ _ _ _ B Hl).
Qed.

Lemma timed_latency period delta before s0 after s (bound : Z) : 0 <= delta -> (forall d, period = Some d -> 0 < d) ->
  trun period (timed_init period) before = Some s0 -> pending_error (ts_s s0) = [] -> after_drain (s_pc (ts_s s0)) = false ->
  trun period s0 after = Some s -> prompt period delta s0 0 after -> fault_free after -> s_crashed (ts_s s) = false -> (period = None -> In AEndCall (untimed before)) ->
  left delta s0 0 <= bound -> bound < elapsed after ->
  exists more, written (s_log (ts_s s)) = concat (sends (untimed before)) ++ more.
Proof.
  intros Hd Hp Hr He Ha H Hpr Hff Hc Hend Hb Hel. pose proof (C114_is_a_sender _ _ _ Hr) as Hh. pose proof (trun_srun _ _ _ _ H) as Hs.
  assert (Hall : srun sender_init (untimed before ++ untimed after) = Some (ts_s s)) by (rewrite srun_app, Hh; exact Hs).
  destruct (le_lt_dec (length (concat (sends (untimed before)))) (length (written (s_log (ts_s s))))) as [L|L]; [exact (srun_sends_prefix _ _ _ Hall L)|]. exfalso.
  assert (R : elapsed after <= left delta s0 0).
  { apply (latency_run period delta (length (concat (sends (untimed before)))) Hd Hp after (untimed before) s0 0 s); auto.
    - intros Z. apply (v_end _ _ (srun_inv _ _ Hh)). exact (Hend Z).
    - intros d Hd'. subst period. exact (proj1 (clock_init d before s0 (Hp d eq_refl) Hr)).
    - exact (live_of _ He Ha).
    - split; [apply Z.le_refl|exact Hd]. }
  clear - R Hb Hel. lia.
Qed.

(** Every message whose Send has returned is written once one period of the ticker, and five prompt
    actions, have passed without a failure: whatever the goroutine was doing (also when its last attempt
    has failed, once the error is reported: the bytes are sent again), unless it has left its last loop. *)
Theorem C114_latency : forall d delta before s0 after s, 0 < d -> 0 <= delta ->
  trun (Some d) (timed_init (Some d)) before = Some s0 -> pending_error (ts_s s0) = [] -> after_drain (s_pc (ts_s s0)) = false ->
  trun (Some d) s0 after = Some s -> prompt (Some d) delta s0 0 after -> fault_free after -> s_crashed (ts_s s) = false ->
  d + 5 * delta < elapsed after ->
  exists more, written (s_log (ts_s s)) = concat (sends (untimed before)) ++ more.
Proof.
  intros d delta before s0 after s Hd Hdelta Hr He Ha H Hpr Hff Hc Hel.
  pose proof (clock_init d before s0 Hd Hr) as K.
  apply (timed_latency (Some d) delta before s0 after s (d + 5 * delta)); auto; [intros d' Hd'; injection Hd' as <-; exact Hd|discriminate|].
  unfold left. destruct (ready s0); [|lia]. destruct (s_pc (ts_s s0)); cbn [stage]; lia.
Qed.
Print Assumptions C114_latency.

(** Once End is called, it is five prompt actions, whatever the ticker. *)
Theorem C114_latency_ending : forall period delta before s0 after s, (forall d, period = Some d -> 0 < d) -> 0 <= delta ->
  trun period (timed_init period) before = Some s0 -> In AEndCall (untimed before) -> pending_error (ts_s s0) = [] -> after_drain (s_pc (ts_s s0)) = false ->
  trun period s0 after = Some s -> prompt period delta s0 0 after -> fault_free after -> s_crashed (ts_s s) = false ->
  5 * delta < elapsed after ->
  exists more, written (s_log (ts_s s)) = concat (sends (untimed before)) ++ more.
Proof.
  intros period delta before s0 after s Hd Hdelta Hr Hend He Ha H Hpr Hff Hc Hel.
  apply (timed_latency period delta before s0 after s (5 * delta)); auto.
  pose proof (C114_is_a_sender _ _ _ Hr) as Hh. apply (v_end _ _ (srun_inv _ _ Hh)) in Hend.
  unfold left, ready. rewrite Hend, orb_true_r. destruct (s_pc (ts_s s0)); cbn [stage]; lia.
Qed.
Print Assumptions C114_latency_ending.

Lemma no_select_end acts : forall s, srun sender_init acts = Some s -> ~ In AEndCall acts -> ~ In ASelectEnd acts.
Proof.
  induction acts as [|a l IH] using rev_ind; [intros s _ _ []|]. intros s H Hn Z. rewrite in_app_iff in Hn. rewrite srun_app in H. destruct (srun sender_init l) as [s1|] eqn:E; [|discriminate]. apply in_app_iff in Z as [Z|[Z|[]]].
  - exact (IH s1 eq_refl ltac:(tauto) Z).
  - subst a. cbn in H. unfold sstep in H. destruct (s_crashed s1); [discriminate|].
    destruct (s_pc s1); try discriminate. destruct (s_end s1) eqn:K; [|discriminate]. apply Hn. left. apply (v_end _ _ (srun_inv _ _ E)). exact K.
Qed.

(** Without ticker (FlushDelay of at most one millisecond) there is no bound: until End is called
    nothing is written, however long it takes. *)
Theorem C114_no_ticker : forall acts s, trun None (timed_init None) acts = Some s -> ~ In AEndCall (untimed acts) -> written (s_log (ts_s s)) = [] /\ s_queue (ts_s s) = sends (untimed acts).
Proof.
  intros acts s H Hn.
  assert (G : forall acts s0 s, trun None s0 acts = Some s -> ts_tick s0 = false -> ~ In ATick (untimed acts)).
  { clear. induction acts as [|x acts IH]; intros s0 s H Ht; [intros []|]. cbn [trun] in H. destruct (tstep None s0 x) as [s1|] eqn:E; [|discriminate]. apply tstep_inv in E. rewrite untimed_cons.
    destruct x as [dt| |a]; cbn [List.app].
    - destruct E as (_ & _ & _ & ->). exact (IH _ _ H Ht).
    - destruct E as (d & E & _). discriminate.
    - destruct E as (E1 & _ & _ & _ & E2). intros [Z|Z]; [subst a; rewrite (E1 eq_refl) in Ht; discriminate|]. apply (IH _ _ H); [|exact Z]. rewrite E2. destruct a; auto. }
  specialize (G acts _ _ H eq_refl). apply C114_is_a_sender in H.
  assert (Hs : ~ In ASelectEnd (untimed acts)) by exact (no_select_end _ _ H Hn).
  destruct (PropSender.C42_nothing_without_tick _ _ H G Hs) as [A B]. rewrite A. auto.
Qed.
Print Assumptions C114_no_ticker.

(** ** how long End takes *)
Definition stage_end (pc : spc) (empty : bool) : Z :=
  match pc with
  | PCloseDone => 1 | PClose => 2 | PDrain => if empty then 3 else 8
  | PWrite true => if empty then 4 else 5 | PLock true => 6 | PConnect true => 7
  | PSelect => 9
  | PWrite false => if empty then 10 else 11 | PLock false => 12 | PConnect false => 13
  | _ => 0
  end.
Definition is_nil {A} (l : list A) : bool := match l with [] => true | _ => false end.
Definition busy (pc : spc) : bool := match pc with PErrConnect _ _ | PErrWrite _ _ | PCloseErr | PExit => false | _ => true end.

Lemma end_step x a y : sstep x a = Some y -> works a = true -> busy (s_pc x) = true -> s_end x = true -> (forall f, a <> ASend f) -> s_crashed y = false ->
  s_end y = true /\ (s_completed y = false -> busy (s_pc y) = true /\
    (by_goroutine a = true -> stage_end (s_pc y) (is_nil (s_queue y)) + 1 <= stage_end (s_pc x) (is_nil (s_queue x)) + (match a with ATick => 5 | _ => 0 end)) /\
    (by_goroutine a = false -> s_pc y = s_pc x /\ s_queue y = s_queue x)).
Proof.
  intros H Hw Hb He Hf Hc. unfold sstep in H. destruct (s_crashed x) eqn:Ec; [discriminate|]. unfold flush_entry, flush_return in H.
  destruct a; try (exfalso; eapply Hf; reflexivity); repeat match type of H with context [match ?z with _ => _ end] => destruct z eqn:?; try discriminate H end; injection H as <-; cbn in Hb, Hc, He, Hw |- *; try discriminate Hw; try congruence;
    try (split; [auto; fail|intros Hk; first [discriminate Hk|split; [first [assumption|reflexivity]|split; [intros Hz; try discriminate Hz; cbn; try lia|first [discriminate|auto]]]]]).
  all: repeat match goal with H : s_queue ?x = _ |- context [s_queue ?x] => rewrite H; cbn [is_nil] end.
  all: try (match goal with Hk : _ && (?k =? _)%nat = true, Hx : s_queue _ = ?l :: ?l0 |- _ =>
      apply andb_true_iff in Hk as [_ Hk]; apply Nat.eqb_eq in Hk; match goal with |- context [is_nil ?q] => change q with (consume k (l :: l0)); rewrite Hk, consume_all; cbn [is_nil] end end).
  all: repeat match goal with |- context [is_nil ?q] => destruct (is_nil q) end; repeat match goal with d : bool |- _ => destruct d end; cbn; try lia.
Qed.

Definition potential (horizon : Z) (s : tstate) : Z :=
  stage_end (s_pc (ts_s s)) (is_nil (s_queue (ts_s s))) + (if ts_tick s then 5 else 0) + (if ts_next s <=? horizon then 5 else 0).

Lemma busy_able p s : s_crashed (ts_s s) = false -> busy (s_pc (ts_s s)) = true -> s_end (ts_s s) = true -> able p s.
Proof.
  intros Hc Hb He. destruct (live (s_pc (ts_s s))) eqn:El.
  - apply able_ready; [exact Hc|exact El|]. unfold ready. rewrite He, orb_true_r. destruct (s_pc (ts_s s)); reflexivity.
  - unfold able, tstep. destruct (s_pc (ts_s s)) eqn:Ep; try discriminate Hb; try discriminate El.
    + exists ACloseOut. unfold sstep. rewrite Hc, Ep. split; [reflexivity|]. destruct (s_out (ts_s s)); discriminate.
    + exists ACloseDone. unfold sstep. rewrite Hc, Ep. split; [reflexivity|discriminate].
Qed.

Lemma completed_stays acts : forall s s', srun s acts = Some s' -> s_completed s' = false -> s_completed s = false.
Proof.
  induction acts as [|a acts IH]; intros s s' H K; cbn [srun] in H; [injection H as <-; exact K|]. destruct (sstep s a) as [s1|] eqn:E; [|discriminate].
  specialize (IH _ _ H K). clear H. unfold sstep in E. destruct (s_crashed s); [discriminate|].
  destruct a; repeat match type of E with context [match ?z with _ => _ end] => destruct z eqn:?; try discriminate E end; injection E as <-; cbn in IH; congruence.
Qed.

Lemma stage_end_pos pc e : busy pc = true -> 1 <= stage_end pc e <= 13.
Proof. destruct pc as [|[]|[]|[]|[]|[]| | | | |]; destruct e; cbn; intros H; try discriminate H; lia. Qed.

Lemma end_run p delta T : 0 <= delta -> (forall d, p = Some d -> 23 * delta < d) -> forall acts s w s',
  s_end (ts_s s) = true -> busy (s_pc (ts_s s)) = true -> 0 <= w <= delta -> T - 23 * delta <= ts_now s -> (forall d, p = Some d -> ts_now s <= ts_next s) ->
  ts_now s + (potential T s * delta - w) <= T ->
  trun p s acts = Some s' -> prompt p delta s w acts -> fault_free acts -> sends (untimed acts) = [] -> s_crashed (ts_s s') = false -> s_completed (ts_s s') = false ->
  elapsed acts <= potential T s * delta - w.
Proof.
  intros Hdelta Hp0. induction acts as [|x acts IH]; intros s w s' Hend Hbusy Hw Hlow Hclock HT H Hpr Hff Hns Hc Hco.
  - cbn. pose proof (stage_end_pos _ (is_nil (s_queue (ts_s s))) Hbusy) as Q. assert (1 <= potential T s) by (unfold potential; destruct (ts_tick s), (ts_next s <=? T); lia). nia.
  - pose proof (trun_srun _ _ _ _ H) as Hrun. pose proof (completed_stays _ _ _ Hrun Hco) as Hco0.
    cbn [trun] in H. cbn [prompt] in Hpr. destruct (tstep p s x) as [s1|] eqn:E; [|discriminate].
    pose proof (crashed_before _ _ _ _ H Hc) as Hcs1. assert (Hcs : s_crashed (ts_s s) = false).
    { apply (crashed_before p [x] s s1); [|exact Hcs1]. cbn [trun]. rewrite E. reflexivity. }
    apply tstep_inv in E. unfold fault_free in *. rewrite untimed_cons in Hff, Hns. destruct x as [dt| |a]; cbn [List.app forallb] in Hff; unfold elapsed; cbn [map fold_right]; fold (elapsed acts).
    + destruct E as (Hdt & _ & Hn & ->). destruct Hpr as [Hpr _]. destruct (Hpr (busy_able p s Hcs Hbusy Hend)) as [Hle Hpr1].
      assert (R : elapsed acts <= potential T {| ts_s := ts_s s; ts_now := ts_now s + dt; ts_next := ts_next s; ts_tick := ts_tick s |} * delta - (w + dt)).
      { unfold potential in *. apply (IH _ _ s'); cbn [ts_s ts_now ts_next ts_tick]; auto; clear - Hdt Hw Hle Hlow HT; lia. }
      unfold potential in *. cbn [ts_s ts_now ts_next ts_tick] in R. clear - R. lia.
    + destruct E as (d & Hd & Hn & ->). pose proof (Hp0 d Hd) as Hd0.
      pose proof (stage_end_pos _ (is_nil (s_queue (ts_s s))) Hbusy) as Q.
      assert (F : (ts_next s <=? T) = true).
      { apply Z.leb_le. rewrite <- Hn. assert (H0 : 1 <= potential T s) by (unfold potential; clear - Q; destruct (ts_tick s), (ts_next s <=? T); lia). clear - HT H0 Hw Hdelta. nia. }
      assert (F1 : (ts_next s + d <=? T) = false) by (apply Z.leb_gt; clear - Hn Hd0 Hlow; lia).
      assert (P : potential T {| ts_s := ts_s s; ts_now := ts_now s; ts_next := ts_next s + d; ts_tick := true |} <= potential T s).
      { unfold potential. cbn [ts_s ts_next ts_tick]. rewrite F, F1. clear. destruct (ts_tick s); lia. }
      assert (R : elapsed acts <= potential T {| ts_s := ts_s s; ts_now := ts_now s; ts_next := ts_next s + d; ts_tick := true |} * delta - w).
      { apply (IH _ _ s'); cbn [ts_s ts_now ts_next ts_tick]; auto; [intros; clear - Hn Hd0 Hlow Hdelta; lia|]. clear - P HT Hdelta. nia. }
      clear - R P Hdelta. nia.
    + destruct E as (Hti & Es & En & Ex & Et). apply andb_true_iff in Hff as [Hwk Hff].
      assert (Hf : forall f, a <> ASend f) by (intros f ->; discriminate Hns).
      assert (Hns1 : sends (untimed acts) = []) by (rewrite sends_app in Hns; apply app_eq_nil in Hns; tauto).
      assert (Hco1 : s_completed (ts_s s1) = false). { pose proof (trun_srun _ _ _ _ H) as Hr1. exact (completed_stays _ _ _ Hr1 Hco). }
      destruct (end_step _ _ _ Es Hwk Hbusy Hend Hf Hcs1) as (E1 & E2). destruct (E2 Hco1) as (E3 & E4 & E5).
      assert (M : 0 <= (if by_goroutine a then 0 else w) <= delta /\ potential T s1 * delta - (if by_goroutine a then 0 else w) <= potential T s * delta - w).
      { unfold potential. rewrite Ex. destruct (by_goroutine a) eqn:Eg.
        - specialize (E4 eq_refl). split; [split; [apply Z.le_refl|exact Hdelta]|]. rewrite Et.
          assert (Q : stage_end (s_pc (ts_s s1)) (is_nil (s_queue (ts_s s1))) + (match a with ATick => if false then 5 else 0 | _ => if ts_tick s then 5 else 0 end) + 1
                      <= stage_end (s_pc (ts_s s)) (is_nil (s_queue (ts_s s))) + (if ts_tick s then 5 else 0)).
          { clear - E4 Hti. destruct a; try (rewrite (Hti eq_refl)); lia. }
          clear - Q Hw Hdelta.
          assert (Q1 : stage_end (s_pc (ts_s s1)) (is_nil (s_queue (ts_s s1))) + (if match a with ATick => false | _ => ts_tick s end then 5 else 0) + (if ts_next s <=? T then 5 else 0) + 1
                      <= stage_end (s_pc (ts_s s)) (is_nil (s_queue (ts_s s))) + (if ts_tick s then 5 else 0) + (if ts_next s <=? T then 5 else 0)).
          { revert Q. generalize (if ts_next s <=? T then 5 else 0). intros z Q. destruct a; lia. }
          revert Q1. match goal with |- ?A + 1 <= ?B -> _ => generalize A B end. clear - Hw Hdelta. intros A B Q. nia.
        - destruct (E5 eq_refl) as (T1 & T2). split; [exact Hw|]. rewrite T1, T2, Et. destruct a; try discriminate Eg; apply Z.le_refl. }
      destruct M as (M2 & M4).
      refine (Z.le_trans _ _ _ (IH s1 (if by_goroutine a then 0 else w) s' E1 E3 M2 _ _ _ H Hpr Hff Hns1 Hc Hco) M4).
      * rewrite En. exact Hlow.
      * intros d Hd. rewrite En, Ex. exact (Hclock d Hd).
      * rewrite En. clear - M4 HT. lia.
Qed.

(** End returns within 23 prompt actions if nothing fails and nobody logs any more -- with a ticker, if its
    period is longer than that (the select of the goroutine may prefer the ticker to End each time it fires). *)
Theorem C114_end : forall period delta before s0 after s, 0 <= delta -> (forall d, period = Some d -> 0 < d /\ 23 * delta < d) ->
  trun period (timed_init period) before = Some s0 -> In AEndCall (untimed before) -> pending_error (ts_s s0) = [] ->
  trun period s0 after = Some s -> prompt period delta s0 0 after -> fault_free after -> sends (untimed after) = [] -> s_crashed (ts_s s) = false ->
  23 * delta < elapsed after ->
  s_completed (ts_s s) = true.
Proof.
  intros period delta before s0 after s Hdelta Hp Hr Hend He H Hpr Hff Hns Hc Hel.
  destruct (s_completed (ts_s s)) eqn:Hco; [reflexivity|]. exfalso.
  pose proof (C114_is_a_sender _ _ _ Hr) as Hh. pose proof (srun_inv _ _ Hh) as V. pose proof (trun_srun _ _ _ _ H) as Hs.
  assert (Hco0 : s_completed (ts_s s0) = false) by exact (completed_stays _ _ _ Hs Hco).
  assert (Hbusy : busy (s_pc (ts_s s0)) = true).
  { unfold pending_error in He. destruct (s_pc (ts_s s0)) eqn:Ep; try reflexivity; try discriminate He; exfalso; assert (K : s_completed (ts_s s0) = true) by (apply (v_completed _ _ V); rewrite Ep; auto); congruence. }
  assert (Pb : potential (ts_now s0 + 23 * delta) s0 <= 23).
  { unfold potential. pose proof (stage_end_pos _ (is_nil (s_queue (ts_s s0))) Hbusy). destruct (ts_tick s0), (ts_next s0 <=? ts_now s0 + 23 * delta); lia. }
  assert (R : elapsed after <= potential (ts_now s0 + 23 * delta) s0 * delta - 0).
  { apply (end_run period delta (ts_now s0 + 23 * delta) Hdelta) with (s' := s); auto.
    - intros d Hd. apply Hp. exact Hd.
    - apply (v_end _ _ V). exact Hend.
    - split; [apply Z.le_refl|exact Hdelta].
    - lia.
    - intros d ->. exact (proj1 (clock_init d before s0 (proj1 (Hp d eq_refl)) Hr)).
    - revert Pb. generalize (potential (ts_now s0 + 23 * delta) s0). clear - Hdelta. intros. nia. }
  revert R Pb. generalize (potential (ts_now s0 + 23 * delta) s0). clear - Hdelta Hel. intros. nia.
Qed.
Print Assumptions C114_end.

(** What Dial gives: half a second and five prompt actions. *)
Theorem C114_dial : forall network address k tr period dt delta before s0 after s, dial network address = inr (k, tr, period) -> In (network, dt) dial_networks -> 0 <= delta ->
  trun period (timed_init period) before = Some s0 -> pending_error (ts_s s0) = [] -> after_drain (s_pc (ts_s s0)) = false ->
  trun period s0 after = Some s -> prompt period delta s0 0 after -> fault_free after -> s_crashed (ts_s s) = false ->
  500000000 + 5 * delta < elapsed after ->
  exists more, written (s_log (ts_s s)) = concat (sends (untimed before)) ++ more.
Proof.
  intros network address k tr period dt delta before s0 after s Hdial Hin. destruct (C58_dial_default _ _ _ _ _ _ Hdial Hin) as [_ ->]. intros. eapply C114_latency; eauto. lia.
Qed.
Print Assumptions C114_dial.

(** ** the bound is reached *)
(** a computable test of promptness *)
Definition exited (s : sstate) : bool := match s_pc s with PExit => true | _ => false end.
Lemma not_able_exit p s : exited (ts_s s) = true -> ~ able p s.
Proof.
  intros He (a & Ha & H). unfold exited in He. destruct (s_pc (ts_s s)) eqn:Ep; try discriminate He. apply H. unfold tstep.
  destruct a; try discriminate Ha; cbn; unfold sstep; destruct (s_crashed (ts_s s)); rewrite ?Ep; try reflexivity; destruct (ts_tick s); reflexivity.
Qed.
Fixpoint promptb (period : option Z) (delta : Z) (s : tstate) (w : Z) (acts : list taction) : bool :=
  match acts with
  | [] => true
  | x :: more =>
      match tstep period s x with
      | None => true
      | Some s' =>
          match x with
          | TWait dt => if exited (ts_s s) then promptb period delta s' 0 more else
                        live (s_pc (ts_s s)) && negb (s_crashed (ts_s s)) && (if ready s then (w + dt <=? delta) && promptb period delta s' (w + dt) more else promptb period delta s' 0 more)
          | TFire => promptb period delta s' w more
          | TAct a => promptb period delta s' (if by_goroutine a then 0 else w) more
          end
      end
  end.
Lemma promptb_ok period delta : forall acts s w, promptb period delta s w acts = true -> prompt period delta s w acts.
Proof.
  induction acts as [|x acts IH]; intros s w H; [exact I|]. cbn [promptb prompt] in *. destruct (tstep period s x) as [s'|]; [|exact I].
  destruct x as [dt| |a]; [|apply IH; exact H|apply IH; exact H]. destruct (exited (ts_s s)) eqn:Ex.
  { split; [intros K; exfalso; exact (not_able_exit _ _ Ex K)|]. intros _. apply IH. exact H. }
  apply andb_true_iff in H as [H1 H]. apply andb_true_iff in H1 as [Hl Hc]. apply negb_true_iff in Hc.
  destruct (ready s) eqn:Er.
  - apply andb_true_iff in H as [H1 H]. apply Z.leb_le in H1. split; [intros _; split; [exact H1|apply IH; exact H]|]. intros K. exfalso. apply K. apply able_ready; assumption.
  - assert (Hsel : s_pc (ts_s s) = PSelect) by (unfold ready in Er; destruct (s_pc (ts_s s)); try discriminate Er; reflexivity).
    split; [intros K; exfalso; exact (not_able_select _ _ Hsel Er K)|]. intros _. apply IH. exact H.
Qed.

(** A message sent at the start, and End called just before the first tick: with prompt actions of one
    millisecond each, nothing is written after 500 + 5 milliseconds; one more action and it is. *)
Definition ms : Z := 1000000.
Definition slow_message : list taction :=
  [TWait (500 * ms); TAct AEndCall; TFire; TWait ms; TAct ASelectEnd; TWait ms; TAct ADrain; TWait ms; TAct (AConnect None); TWait ms; TAct ALock; TWait ms].
Theorem C114_latency_exact : exists s0 s s', trun (Some (500 * ms)) (timed_init (Some (500 * ms))) [TAct (ASend (bs "late"))] = Some s0 /\
  pending_error (ts_s s0) = [] /\ after_drain (s_pc (ts_s s0)) = false /\
  trun (Some (500 * ms)) s0 slow_message = Some s /\ prompt (Some (500 * ms)) ms s0 0 slow_message /\ fault_free slow_message /\ s_crashed (ts_s s) = false /\
  elapsed slow_message = 500 * ms + 5 * ms /\ written (s_log (ts_s s)) = [] /\
  trun (Some (500 * ms)) s [TAct (AWrite 4 WOk); TWait ms] = Some s' /\ written (s_log (ts_s s')) = bs "late".
Proof.
  eexists _, _, _. split; [vm_compute; reflexivity|]. split; [reflexivity|]. split; [reflexivity|]. split; [vm_compute; reflexivity|].
  split; [apply promptb_ok; vm_compute; reflexivity|]. split; [vm_compute; reflexivity|]. split; [reflexivity|]. split; [vm_compute; reflexivity|]. split; [vm_compute; reflexivity|].
  split; [vm_compute; reflexivity|]. vm_compute. reflexivity.
Qed.
Print Assumptions C114_latency_exact.

(** A case of C114_latency: a message sent while another is being written, and the next tick. *)
Definition busy_start : list taction :=
  [TAct (ASend (bs "a")); TWait (500 * ms); TFire; TWait ms; TAct ATick; TWait ms; TAct (AConnect None); TWait ms; TAct ALock; TWait ms; TAct (AWrite 1 WOk); TWait ms; TAct AWriteDone; TAct (ASend (bs "b"))].
Definition busy_more : list taction :=
  [TWait (495 * ms); TFire; TWait ms; TAct ATick; TWait ms; TAct ALock; TWait ms; TAct (AWrite 1 WOk); TWait ms; TAct AWriteDone; TWait (20 * ms)].
Example C114_nonvacuous : exists s0 s, trun (Some (500 * ms)) (timed_init (Some (500 * ms))) busy_start = Some s0 /\ pending_error (ts_s s0) = [] /\ after_drain (s_pc (ts_s s0)) = false /\
  trun (Some (500 * ms)) s0 busy_more = Some s /\ prompt (Some (500 * ms)) ms s0 0 busy_more /\ fault_free busy_more /\ s_crashed (ts_s s) = false /\
  500 * ms + 5 * ms < elapsed busy_more /\ written (s_log (ts_s s0)) = bs "a" /\ written (s_log (ts_s s)) = bs "ab".
Proof.
  eexists _, _. split; [vm_compute; reflexivity|]. split; [reflexivity|]. split; [reflexivity|]. split; [vm_compute; reflexivity|].
  split; [apply promptb_ok; vm_compute; reflexivity|]. split; [vm_compute; reflexivity|]. split; [reflexivity|]. split; [vm_compute; reflexivity|]. split; vm_compute; reflexivity.
Qed.

(** A case of C114_end. *)
Definition ending : list taction :=
  [TWait ms; TAct ASelectEnd; TWait ms; TAct ADrain; TWait ms; TAct ALock; TWait ms; TAct (AWrite 1 WOk); TWait ms; TAct AWriteDone; TWait ms; TAct ADrain; TAct ACloseOut; TAct ACloseDone; TAct ACloseErr; TWait (20 * ms)].
Example C114_end_nonvacuous : exists s0 s, trun (Some (500 * ms)) (timed_init (Some (500 * ms))) (busy_start ++ [TAct AEndCall]) = Some s0 /\ pending_error (ts_s s0) = [] /\ 
  trun (Some (500 * ms)) s0 ending = Some s /\ prompt (Some (500 * ms)) ms s0 0 ending /\ fault_free ending /\ sends (untimed ending) = [] /\ s_crashed (ts_s s) = false /\ 23 * ms < elapsed ending /\ s_completed (ts_s s) = true.
Proof.
  eexists _, _. split; [vm_compute; reflexivity|]. split; [reflexivity|]. split; [vm_compute; reflexivity|]. split; [apply promptb_ok; vm_compute; reflexivity|]. split; [vm_compute; reflexivity|]. split; [reflexivity|]. split; [reflexivity|]. split; vm_compute; reflexivity.
Qed.

(** ** with a period that is not longer, End can wait for ever *)
Definition spin : list taction := [TAct ATick; TWait ms; TAct ALock; TWait ms; TFire; TAct AWriteDone].
Definition spinning (s : tstate) : Prop :=
  s_pc (ts_s s) = PSelect /\ s_queue (ts_s s) = [] /\ s_out (ts_s s) = Some 0%nat /\ s_end (ts_s s) = true /\ s_completed (ts_s s) = false /\ s_crashed (ts_s s) = false /\ ts_tick s = true /\ ts_next s = ts_now s + 2 * ms.

Ltac timed_cbn := cbn [trun prompt tstep sstep ts_s ts_now ts_next ts_tick s_crashed s_pc flush_entry s_out set_pc s_queue s_end s_completed s_errq s_errclosed s_goterr s_log s_next negb andb flush_return by_goroutine].

Lemma prompt_then p delta g b s1 : by_goroutine g = true -> prompt p delta s1 0 b -> forall a s w, trun p s (a ++ [TAct g]) = Some s1 -> prompt p delta s w (a ++ [TAct g]) -> prompt p delta s w ((a ++ [TAct g]) ++ b).
Proof.
  intros Hg Hb. induction a as [|x a IH]; intros s w H Hp.
  - cbn [List.app trun prompt] in *. destruct (tstep p s (TAct g)); [|exact I]. injection H as ->. rewrite Hg. exact Hb.
  - cbn [List.app trun prompt] in *. destruct (tstep p s x) as [s'|]; [|exact I]. destruct x as [dt| |c]; [|apply IH; assumption|apply IH; assumption].
    destruct Hp as [H1 H2]. split; intros K; [destruct (H1 K) as [H3 H4]; split; [exact H3|]; apply IH; assumption|apply IH; [assumption|exact (H2 K)]].
Qed.

Lemma spin_once s : spinning s -> exists s', trun (Some (2 * ms)) s spin = Some s' /\ spinning s' /\ prompt (Some (2 * ms)) ms s 0 spin.
Proof.
  destruct s as [[pc q out en co eq ec go lo ne cr] now nxt tk]. unfold spinning. cbn [ts_s ts_now ts_next ts_tick s_pc s_queue s_out s_end s_completed s_crashed]. intros (-> & -> & -> & -> & -> & -> & -> & ->).
  assert (L1 : now + ms <=? now + 2 * ms = true) by (apply Z.leb_le; unfold ms; lia).
  assert (L2 : now + ms + ms <=? now + 2 * ms = true) by (apply Z.leb_le; unfold ms; lia).
  assert (L3 : now + ms + ms =? now + 2 * ms = true) by (apply Z.eqb_eq; unfold ms; lia).
  assert (L4 : 0 <? ms = true) by reflexivity.
  assert (A : forall p s, match s_pc (ts_s s) with PLock _ | PWrite _ => true | _ => false end = true -> s_crashed (ts_s s) = false -> able p s).
  { intros p s Hp Hc. apply able_ready; [exact Hc| |]; unfold ready; destruct (s_pc (ts_s s)); try discriminate Hp; reflexivity. }
  eexists. split.
  { unfold spin. timed_cbn. rewrite L4, L1. timed_cbn. rewrite ?L4, ?L2. timed_cbn. rewrite L3. timed_cbn. reflexivity. }
  split; [cbn; repeat split; unfold ms; lia|]. unfold spin.
  timed_cbn. rewrite L4, L1. timed_cbn. split; [|intros K; exfalso; apply K; apply A; reflexivity]. intros _. split; [unfold ms; lia|].
  rewrite ?L4, ?L2. timed_cbn. split; [|intros K; exfalso; apply K; apply A; reflexivity]. intros _. split; [unfold ms; lia|].
  rewrite L3. timed_cbn. exact I.
Qed.

Lemma spin_again n : forall s, spinning s -> exists after s', trun (Some (2 * ms)) s after = Some s' /\ spinning s' /\ prompt (Some (2 * ms)) ms s 0 after /\ fault_free after /\ sends (untimed after) = [] /\ elapsed after = Z.of_nat n * (2 * ms).
Proof.
  induction n as [|n IH]; intros s Hs; [exists [], s; repeat split; auto; apply Hs|]. destruct (spin_once s Hs) as (s1 & H1 & H2 & H3). destruct (IH s1 H2) as (after & s' & A & B & C & D & E & F).
  exists (spin ++ after), s'. rewrite trun_app, H1. split; [exact A|]. split; [exact B|]. split.
  { change spin with ([TAct ATick; TWait ms; TAct ALock; TWait ms; TFire] ++ [TAct AWriteDone]) in *. eapply prompt_then; [reflexivity|exact C|exact H1|exact H3]. }
  split; [exact D|]. split; [exact E|]. unfold elapsed, spin. cbn [List.app map fold_right]. fold (elapsed after). rewrite F. unfold ms. lia.
Qed.

(** With a ticker of two milliseconds and prompt actions of one millisecond, the goroutine may choose the
    ticker for ever: however long one waits, there is an execution where End has not returned. *)
Theorem C114_fast_ticker : exists before s0, trun (Some (2 * ms)) (timed_init (Some (2 * ms))) before = Some s0 /\ In AEndCall (untimed before) /\ pending_error (ts_s s0) = [] /\
  forall T, exists after s, trun (Some (2 * ms)) s0 after = Some s /\ prompt (Some (2 * ms)) ms s0 0 after /\ fault_free after /\ sends (untimed after) = [] /\ s_crashed (ts_s s) = false /\
    T < elapsed after /\ s_completed (ts_s s) = false.
Proof.
  exists [TWait (2 * ms); TFire; TAct ATick; TAct (AConnect None); TAct ALock; TAct AWriteDone; TWait (2 * ms); TFire; TAct AEndCall].
  assert (X : exists s0, trun (Some (2 * ms)) (timed_init (Some (2 * ms))) [TWait (2 * ms); TFire; TAct ATick; TAct (AConnect None); TAct ALock; TAct AWriteDone; TWait (2 * ms); TFire; TAct AEndCall] = Some s0 /\ spinning s0 /\ pending_error (ts_s s0) = []).
  { eexists. split; [vm_compute; reflexivity|]. split; [|reflexivity]. repeat split. }
  destruct X as (s0 & X1 & X2 & X3). exists s0. split; [exact X1|]. split; [cbn; auto 12|]. split; [exact X3|]. intros T.
  destruct (spin_again (Z.to_nat (Z.max 0 T) + 1)%nat s0 X2) as (after & s' & A & (B1 & B2 & B3 & B4 & B5 & B6 & B7 & B8) & C & D & E & F).
  exists after, s'. repeat (split; [assumption|]). split; [|exact B5]. rewrite F. unfold ms. lia.
Qed.
Print Assumptions C114_fast_ticker.
