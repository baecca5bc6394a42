(** PropStdio.v -- C113: several Senders on the standard error (or output) of the process. *)
From Verif Require Import Base BaseFacts MSender MStdio LSender.

(** the bytes a Sender has written *)
Definition bytes_written (s : sstate) : bytes := concat (map (fun e => match e with EWrite _ d => d | _ => [] end) (s_log s)).
(** the actions of one Sender in an execution, and the frames of its calls of Send *)
Definition own_actions (i : nat) (acts : list (nat * saction)) : list saction := map snd (filter (fun x => (fst x =? i)%nat) acts).
Definition sent_frames (acts : list saction) : list bytes := flat_map (fun a => match a with ASend f => [f] | _ => [] end) acts.
Definition count_if (f : saction -> bool) (acts : list saction) : nat := length (filter f acts).
Definition is_write (a : saction) : bool := match a with AWrite _ _ => true | _ => false end.
Definition is_report (a : saction) : bool := match a with APushErrWrite => true | _ => false end.
Definition reporting (s : sstate) : nat := match s_pc s with PErrWrite _ _ => 1 | _ => 0 end.
(** the goroutine has left the loop of its deferred function *)
Definition leaving (s : sstate) : bool := match s_pc s with PClose | PCloseDone | PCloseErr | PExit => true | _ => false end.

Lemma fd_step_inv s i a s' : fd_step s (i, a) = Some s' ->
  fd_crashed s = false /\ fd_answers (fd_closed s) a = true /\ sstep (fd_senders s i) a = Some (fd_senders s' i) /\
  (forall j, j <> i -> fd_senders s' j = fd_senders s j) /\ fd_closed s' = fd_closed s || (closes a && negb (s_crashed (fd_senders s' i))) /\ fd_crashed s' = s_crashed (fd_senders s' i).
Proof.
  unfold fd_step. destruct (fd_crashed s); [discriminate|]. destruct (fd_answers _ a); [|discriminate]. destruct (sstep _ a) as [x|]; [|discriminate].
  intros H. injection H as <-. cbn [fd_senders fd_closed fd_crashed]. rewrite Nat.eqb_refl. repeat split.
  intros j Hj. apply Nat.eqb_neq in Hj. rewrite Hj. reflexivity.
Qed.

(** Each Sender goes through an execution of a single Sender (MSender.v): its other properties hold. *)
Theorem C113_each_is_a_sender : forall acts s i, fd_run fd_init acts = Some s -> srun sender_init (own_actions i acts) = Some (fd_senders s i).
Proof.
  assert (G : forall acts s s' i, fd_run s acts = Some s' -> srun (fd_senders s i) (own_actions i acts) = Some (fd_senders s' i)).
  { induction acts as [|[j a] acts IH]; intros s s' i H; cbn [fd_run] in H; [injection H as <-; reflexivity|].
    destruct (fd_step s (j, a)) as [s1|] eqn:E; [|discriminate]. apply fd_step_inv in E as (_ & _ & E & Ho & _). unfold own_actions. cbn [filter fst].
    destruct (Nat.eqb_spec j i) as [->|Hj]; cbn [map snd srun].
    - rewrite E. apply (IH s1). exact H.
    - rewrite <- (Ho i) by congruence. apply (IH s1). exact H. }
  intros acts s i H. exact (G acts fd_init s i H).
Qed.
Print Assumptions C113_each_is_a_sender.

(** ** one step *)
Ltac step_cases Hx Ep :=
  repeat match type of Hx with context [match ?y with _ => _ end] => destruct y eqn:?; try discriminate Hx end; injection Hx as <-; cbn.

Lemma step_close x a y : sstep x a = Some y -> forall c, In (EClose c) (s_log y) <-> In (EClose c) (s_log x) \/ (a = ACloseOut /\ s_out x = Some c /\ s_crashed y = false).
Proof.
  intros H c. unfold sstep in H. destruct (s_crashed x) eqn:Ec; [discriminate|].
  destruct a; repeat match type of H with context [match ?z with _ => _ end] => destruct z eqn:?; try discriminate H end; injection H as <-; cbn; rewrite ?in_app_iff; cbn;
    try (split; [intros K; left; exact K|intros [K|[K _]]; [exact K|discriminate]]);
    try (split; [intros [K|[K|[]]]; [left; exact K|discriminate]|intros [K|[K _]]; [left; exact K|discriminate]]).
  all: try (split; [intros K; left; exact K|intros [K|(_ & _ & K)]; [exact K|discriminate]]).
  all: try (split; [intros K; left; exact K|intros [K|(_ & K & _)]; [exact K|discriminate]]).
  all: try (split; [intros [K|[K|[]]]; [left; exact K|right; injection K as ->; auto]|intros [K|(_ & K & _)]; [left; exact K|right; left; congruence]]).
Qed.

(** The file is closed from the moment some Sender closes its connection, which End makes it do. *)
Theorem C113_closed_iff : forall acts s, fd_run fd_init acts = Some s -> (fd_closed s = true <-> exists i c, In (EClose c) (s_log (fd_senders s i))).
Proof.
  assert (G : forall acts s s', (fd_closed s = true <-> exists i c, In (EClose c) (s_log (fd_senders s i))) -> fd_run s acts = Some s' ->
     (fd_closed s' = true <-> exists i c, In (EClose c) (s_log (fd_senders s' i)))).
  { induction acts as [|[j a] acts IH]; intros s s' Hs H; cbn [fd_run] in H; [injection H as <-; exact Hs|].
    destruct (fd_step s (j, a)) as [s1|] eqn:E; [|discriminate]. apply (IH s1); [|exact H]. apply fd_step_inv in E as (_ & _ & E & Ho & Hc & _).
    rewrite Hc, orb_true_iff, Hs. split.
    - intros [(i & c & K)|K].
      + exists i, c. destruct (Nat.eq_dec i j) as [->|Hi]; [apply (step_close _ _ _ E); left; exact K|rewrite (Ho i Hi); exact K].
      + apply andb_true_iff in K as [K1 K2]. destruct a; try discriminate K1. apply negb_true_iff in K2.
        assert (X : exists c, s_out (fd_senders s j) = Some c).
        { unfold sstep in E. destruct (s_crashed (fd_senders s j)); [discriminate|]. destruct (s_pc (fd_senders s j)); try discriminate. destruct (s_out (fd_senders s j)) as [c|]; [eauto|].
          injection E as E. rewrite <- E in K2. discriminate. }
        destruct X as [c X]. exists j, c. apply (step_close _ _ _ E). right. auto.
    - intros (i & c & K). destruct (Nat.eq_dec i j) as [->|Hi].
      + apply (step_close _ _ _ E) in K as [K|(-> & _ & K)]; [left; eauto|right]. cbn. rewrite K. reflexivity.
      + rewrite (Ho i Hi) in K. left. eauto. }
  intros acts s H. apply (G acts fd_init s); [|exact H]. cbn. split; [discriminate|]. intros (i & c & []).
Qed.
Print Assumptions C113_closed_iff.

Lemma bytes_written_app s l : concat (map (fun e => match e with EWrite _ d => d | _ => [] end) (s_log s ++ l)) = bytes_written s ++ concat (map (fun e => match e with EWrite _ d => d | _ => [] end) l).
Proof. unfold bytes_written. rewrite map_app, concat_app. reflexivity. Qed.

Lemma consume_0 q : concat (consume 0 q) = concat q.
Proof.
  induction q as [|b q IH]; [reflexivity|]. cbn [consume]. destruct b as [|c b]; cbn [length Nat.ltb Nat.leb]; [exact IH|reflexivity].
Qed.

(** what a step does once the file is closed *)
Lemma dead_step x a y : fd_answers true a = true -> sstep x a = Some y ->
  bytes_written y = bytes_written x /\ concat (s_queue y) = concat (s_queue x) ++ concat (sent_frames [a]) /\
  (s_crashed y = false -> reporting x + (if is_write a then 1 else 0) = reporting y + (if is_report a then 1 else 0))%nat /\
  (s_queue x <> [] -> leaving x = false -> s_completed y = s_completed x /\ s_errclosed y = s_errclosed x /\ leaving y = false).
Proof.
  intros Ha H. pose proof (consume_0 (s_queue x)) as Hc. unfold sstep in H. destruct (s_crashed x) eqn:Ec; [discriminate|]. unfold reporting, leaving.
  destruct a; cbn [fd_answers] in Ha; try discriminate Ha.
  all: repeat match type of H with context [match ?z with _ => _ end] => destruct z eqn:?; try discriminate H end; try discriminate Ha; injection H as <-; cbn.
  all: rewrite ?concat_app; cbn [concat]; rewrite ?app_nil_r; unfold bytes_written; cbn [s_log]; rewrite ?bytes_written_app; cbn [map concat]; rewrite ?app_nil_r.
  all: try (repeat split; auto; fail).
  all: unfold flush_entry, flush_return; rewrite ?Heqs; try match goal with |- context [match s_out ?z with _ => _ end] => destruct (s_out z) end; try (destruct d); try (repeat split; auto; intros; discriminate).
  all: try (apply Nat.eqb_eq in Ha; subst; cbn [firstn]; rewrite ?app_nil_r; change ((if match length l with 0%nat => false | S m' => (0 <=? m')%nat end then skipn 0 l :: l0 else consume (0 - length l) l0)) with (consume 0 (l :: l0)); rewrite Hc; repeat split; auto; fail).
  all: try (repeat split; auto; try discriminate; try congruence).
  all: rewrite Heql; reflexivity.
Qed.

Lemma own_cons i j a acts : own_actions i ((j, a) :: acts) = (if (j =? i)%nat then [a] else []) ++ own_actions i acts.
Proof. unfold own_actions. cbn [filter fst]. destruct (j =? i)%nat; reflexivity. Qed.

Lemma sent_app a b : sent_frames (a ++ b) = sent_frames a ++ sent_frames b.
Proof. unfold sent_frames. apply flat_map_app. Qed.

Lemma count_cons f a acts : count_if f (a :: acts) = ((if f a then 1 else 0) + count_if f acts)%nat.
Proof. unfold count_if. cbn [filter]. destruct (f a); reflexivity. Qed.

Lemma dead_run : forall acts s s', fd_closed s = true -> fd_run s acts = Some s' -> forall i,
  fd_closed s' = true /\ bytes_written (fd_senders s' i) = bytes_written (fd_senders s i) /\
  concat (s_queue (fd_senders s' i)) = concat (s_queue (fd_senders s i)) ++ concat (sent_frames (own_actions i acts)) /\
  (fd_crashed s' = false -> reporting (fd_senders s i) + count_if is_write (own_actions i acts) = reporting (fd_senders s' i) + count_if is_report (own_actions i acts))%nat /\
  (concat (s_queue (fd_senders s i)) <> [] -> leaving (fd_senders s i) = false ->
     s_completed (fd_senders s' i) = s_completed (fd_senders s i) /\ s_errclosed (fd_senders s' i) = s_errclosed (fd_senders s i) /\ leaving (fd_senders s' i) = false).
Proof.
  induction acts as [|[j a] acts IH]; intros s s' Hs H i; cbn [fd_run] in H.
  - injection H as <-. cbn. rewrite app_nil_r. repeat split; auto. all: rewrite ?Nat.add_0_r; auto.
  - destruct (fd_step s (j, a)) as [s1|] eqn:E; [|discriminate]. pose proof E as E0. apply fd_step_inv in E as (_ & Ha & E & Ho & Hc & Hk). rewrite Hs in Ha, Hc. cbn in Hc.
    destruct (IH s1 s' Hc H i) as (I1 & I2 & I3 & I4 & I5). rewrite own_cons. destruct (Nat.eqb_spec j i) as [->|Hj].
    + destruct (dead_step _ _ _ Ha E) as (D1 & D2 & D3 & D4). split; [exact I1|]. split; [congruence|]. split; [rewrite I3, D2, sent_app, concat_app, app_assoc; reflexivity|]. split.
      * intros K. specialize (I4 K). cbn [List.app]. rewrite !count_cons.
        assert (Ks : s_crashed (fd_senders s1 i) = false).
        { rewrite <- Hk. destruct acts as [|b acts]; [injection H as <-; exact K|]. cbn [fd_run] in H. unfold fd_step in H. destruct (fd_crashed s1); [discriminate H|reflexivity]. }
        specialize (D3 Ks). clear - I4 D3. revert I4 D3. generalize (reporting (fd_senders s i)) (reporting (fd_senders s1 i)) (reporting (fd_senders s' i)) (count_if is_write (own_actions i acts)) (count_if is_report (own_actions i acts)).
        intros n1 n2 n3 n4 n5. destruct (is_write a), (is_report a); intros; lia.
      * intros Q L. assert (Q1 : s_queue (fd_senders s i) <> []) by (intros Z; rewrite Z in Q; apply Q; reflexivity). destruct (D4 Q1 L) as (F1 & F2 & F3).
        destruct I5 as (G1 & G2 & G3); [rewrite D2; intros Z; apply app_eq_nil in Z as [Z _]; exact (Q Z)|exact F3|]. repeat split; congruence.
    + rewrite <- (Ho i) by congruence. cbn [List.app]. auto.
Qed.

(** Once it is closed, no Sender writes a byte any more: every message sent from then on, and every
    message still waiting, stays in the queue (sending it still succeeds: C49). *)
Theorem C113_never_written_again : forall before s after s' i,
  fd_run fd_init before = Some s -> fd_closed s = true -> fd_run s after = Some s' ->
  bytes_written (fd_senders s' i) = bytes_written (fd_senders s i) /\
  concat (s_queue (fd_senders s' i)) = concat (s_queue (fd_senders s i)) ++ concat (sent_frames (own_actions i after)).
Proof. intros before s after s' i _ Hs H. destruct (dead_run after s s' Hs H i) as (_ & A & B & _). auto. Qed.
Print Assumptions C113_never_written_again.

(** Each of its attempts to write ends in an error that the Sender reports (one may be waiting to be). *)
Theorem C113_each_attempt_reports : forall before s after s' i,
  fd_run fd_init before = Some s -> fd_closed s = true -> fd_run s after = Some s' -> fd_crashed s' = false ->
  (reporting (fd_senders s i) + count_if is_write (own_actions i after) = reporting (fd_senders s' i) + count_if is_report (own_actions i after))%nat.
Proof. intros before s after s' i _ Hs H K. destruct (dead_run after s s' Hs H i) as (_ & _ & _ & A & _). auto. Qed.
Print Assumptions C113_each_attempt_reports.

(** End of a Sender that had something to write never returns, and its error channel is never closed. *)
Theorem C113_end_never_returns : forall before s after s' i,
  fd_run fd_init before = Some s -> fd_closed s = true -> concat (s_queue (fd_senders s i)) <> [] -> leaving (fd_senders s i) = false -> fd_run s after = Some s' ->
  s_completed (fd_senders s' i) = false /\ s_errclosed (fd_senders s' i) = false.
Proof.
  intros before s after s' i Hr Hs Hq Hl H. destruct (dead_run after s s' Hs H i) as (_ & _ & _ & _ & A). destruct (A Hq Hl) as (A1 & A2 & _).
  pose proof (srun_inv _ _ (C113_each_is_a_sender _ _ i Hr)) as V. rewrite A1, A2. unfold leaving in Hl. split.
  - destruct (s_completed (fd_senders s i)) eqn:E; [|reflexivity]. exfalso. apply (v_completed _ _ V) in E. destruct (s_pc (fd_senders s i)); try discriminate; destruct E as [E|E]; discriminate.
  - destruct (s_errclosed (fd_senders s i)) eqn:E; [|reflexivity]. exfalso. apply (v_errclosed _ _ V) in E. rewrite E in Hl. discriminate.
Qed.
Print Assumptions C113_end_never_returns.

(** ** its loop *)
Definition spinning (s : fdstate) (i : nat) : Prop :=
  fd_crashed s = false /\ fd_closed s = true /\ s_crashed (fd_senders s i) = false /\ s_pc (fd_senders s i) = PDrain /\
  concat (s_queue (fd_senders s i)) <> [] /\ s_errq (fd_senders s i) = [] /\ s_errclosed (fd_senders s i) = false.

Lemma fd_run_app a : forall s b, fd_run s (a ++ b) = match fd_run s a with Some s' => fd_run s' b | None => None end.
Proof. induction a as [|x a IH]; intros s b; [reflexivity|]. cbn [List.app fd_run]. destruct (fd_step s x); [apply IH|reflexivity]. Qed.

Lemma fd_step_do s i a y : fd_crashed s = false -> fd_answers (fd_closed s) a = true -> sstep (fd_senders s i) a = Some y ->
  exists s', fd_step s (i, a) = Some s' /\ fd_senders s' i = y.
Proof. intros Hk Ha Hy. unfold fd_step. rewrite Hk, Ha, Hy. eexists. split; [reflexivity|]. cbn [fd_senders]. rewrite Nat.eqb_refl. reflexivity. Qed.

Lemma answers_open c a : fd_answers true a = true -> fd_answers c a = true.
Proof. destruct a; cbn; auto. destruct r; cbn; [discriminate|auto|]. intros ->. apply orb_true_r. Qed.

(** no goroutine has panicked *)
Lemma none_crashed : forall acts s, fd_run fd_init acts = Some s -> fd_crashed s = false -> forall j, s_crashed (fd_senders s j) = false.
Proof.
  assert (G : forall acts s s', (fd_crashed s = false -> forall j, s_crashed (fd_senders s j) = false) -> fd_run s acts = Some s' -> fd_crashed s' = false -> forall j, s_crashed (fd_senders s' j) = false).
  { induction acts as [|[j a] acts IH]; intros x x' Hx H; cbn [fd_run] in H; [injection H as <-; exact Hx|]. destruct (fd_step x (j, a)) as [x1|] eqn:E; [|discriminate]. apply (IH x1); [|exact H].
    apply fd_step_inv in E as (E1 & _ & _ & Ho & _ & Hk1). intros K k. destruct (Nat.eq_dec k j) as [->|Hj]; [congruence|]. rewrite (Ho k Hj). apply Hx. exact E1. }
  intros acts s H. apply (G acts fd_init s); [cbn; auto|exact H].
Qed.

(** a run of one Sender alone *)
Lemma solo_run i : forall acts s y, fd_crashed s = false -> forallb (fd_answers true) acts = true -> srun (fd_senders s i) acts = Some y -> s_crashed y = false ->
  exists s', fd_run s (map (pair i) acts) = Some s' /\ fd_senders s' i = y /\ fd_crashed s' = false /\ fd_closed s' = fd_closed s || existsb closes acts.
Proof.
  induction acts as [|a acts IH]; intros s y Hk Ha H Hy; cbn [srun] in H.
  - injection H as <-. exists s. cbn. rewrite orb_false_r. auto.
  - cbn [forallb] in Ha. apply andb_true_iff in Ha as [Ha Has]. destruct (sstep (fd_senders s i) a) as [z|] eqn:E; [|discriminate].
    destruct (fd_step_do s i a z Hk (answers_open _ _ Ha) E) as (s1 & E1 & E2). pose proof E1 as E3. apply fd_step_inv in E3 as (_ & _ & _ & _ & Hc & Hk1).
    assert (Hz : s_crashed z = false). { destruct acts; cbn [srun] in H; [injection H as <-; exact Hy|]. unfold sstep in H. destruct (s_crashed z); [discriminate H|reflexivity]. }
    rewrite E2, Hz in Hk1, Hc. cbn in Hc. rewrite andb_true_r in Hc. rewrite <- E2 in H. destruct (IH s1 y Hk1 Has H Hy) as (s' & A & B & C & D). exists s'. cbn [map fd_run existsb]. rewrite E1, D, Hc, orb_assoc. auto.
Qed.

Definition cycle (out : option nat) (e : nat) : list saction :=
  ADrain :: (match out with None => [AConnect None] | Some _ => [] end) ++ [ALock; AWrite 0 (WErr e); APushErrWrite; AUserErr].

Lemma cycle_run s e : s_crashed s = false -> s_pc s = PDrain -> concat (s_queue s) <> [] -> s_errq s = [] -> s_errclosed s = false ->
  exists y, srun s (cycle (s_out s) e) = Some y /\ s_crashed y = false /\ s_pc y = PDrain /\ concat (s_queue y) = concat (s_queue s) /\ s_errq y = [] /\ s_errclosed y = false /\
    s_goterr y = s_goterr s ++ [e].
Proof.
  destruct s as [pc q out en co eq ec go lo ne cr]. cbn [s_pc s_queue s_out s_errq s_errclosed s_crashed s_goterr]. intros -> -> Hq -> ->.
  destruct q as [|f q]; [exfalso; apply Hq; reflexivity|]. pose proof (consume_0 (f :: q)) as Hc.
  destruct out as [c|]; unfold cycle; cbn [List.app]; cbn [srun sstep set_pc scrash s_pc s_queue s_out s_end s_completed s_errq s_errclosed s_goterr s_log s_next s_crashed flush_entry Nat.leb andb length serr_cap Nat.ltb flush_return List.app];
    (eexists; split; [reflexivity|]); cbn [s_crashed s_pc s_queue s_errq s_errclosed s_goterr]; rewrite Hc; repeat split; reflexivity.
Qed.

Lemma cycle_count out e : count_if is_report (cycle out e) = 1%nat /\ forallb (fd_answers true) (cycle out e) = true.
Proof. destruct out; cbn; auto. Qed.

Lemma own_all i acts : own_actions i (map (pair i) acts) = acts.
Proof. induction acts as [|a acts IH]; [reflexivity|]. cbn [map]. rewrite own_cons, Nat.eqb_refl. cbn [List.app]. rewrite IH. reflexivity. Qed.

Lemma count_app f a b : count_if f (a ++ b) = (count_if f a + count_if f b)%nat.
Proof. unfold count_if. rewrite filter_app, app_length. reflexivity. Qed.

Lemma spin_run i : forall es s, spinning s i -> exists acts s', fd_run s (map (pair i) acts) = Some s' /\ count_if is_report acts = length es /\ spinning s' i /\
  s_goterr (fd_senders s' i) = s_goterr (fd_senders s i) ++ es.
Proof.
  induction es as [|e es IH]; intros s Hs.
  - exists [], s. cbn. rewrite app_nil_r. auto.
  - destruct Hs as (Hk & Hc & A & B & C & D & F). destruct (cycle_run _ e A B C D F) as (y & R & Y1 & Y2 & Y3 & Y4 & Y5 & Y6). destruct (cycle_count (s_out (fd_senders s i)) e) as [N1 N2].
    destruct (solo_run i _ s y Hk N2 R Y1) as (s1 & S1 & S2 & S3 & S4). rewrite Hc in S4. cbn in S4.
    assert (P : spinning s1 i). { unfold spinning. rewrite S2, Y3. clear IH. tauto. }
    destruct (IH s1 P) as (acts & s' & T1 & T2 & T3 & T4). exists (cycle (s_out (fd_senders s i)) e ++ acts), s'. rewrite map_app, fd_run_app, S1, count_app, N1, T2, T4, S2, Y6, <- app_assoc. cbn [length List.app]. auto.
Qed.

(** Such a Sender, asked to End, goes round its loop and reports errors without bound, as long as they are read. *)
Theorem C113_reports_for_ever : forall before s i, fd_run fd_init before = Some s -> fd_crashed s = false -> fd_closed s = true ->
  s_pc (fd_senders s i) = PDrain -> concat (s_queue (fd_senders s i)) <> [] -> s_errq (fd_senders s i) = [] ->
  forall errs : list nat, exists acts s', fd_run s (map (pair i) acts) = Some s' /\ count_if is_report acts = length errs /\
    s_goterr (fd_senders s' i) = s_goterr (fd_senders s i) ++ errs /\ s_completed (fd_senders s' i) = false.
Proof.
  intros before s i Hr Hk Hc Hp Hq He errs. pose proof (srun_inv _ _ (C113_each_is_a_sender _ _ i Hr)) as V.
  assert (L : leaving (fd_senders s i) = false) by (unfold leaving; rewrite Hp; reflexivity).
  assert (Hcr : s_crashed (fd_senders s i) = false) by exact (none_crashed _ _ Hr Hk i).
  destruct (spin_run i errs s) as (acts & s' & A & B & _ & D).
  { destruct (C113_end_never_returns before s [] s i Hr Hc Hq L eq_refl) as [_ X]. unfold spinning. split; [exact Hk|]. split; [exact Hc|]. split; [exact Hcr|]. split; [exact Hp|]. split; [exact Hq|]. split; [exact He|exact X]. }
  exists acts, s'. destruct (C113_end_never_returns before s _ s' i Hr Hc Hq L A) as [X _]. auto.
Qed.
Print Assumptions C113_reports_for_ever.

(** A Sender with nothing to write still ends: closing the closed file fails, and that is ignored. *)
Theorem C113_empty_queue_ends : forall before s i c, fd_run fd_init before = Some s -> fd_crashed s = false ->
  s_pc (fd_senders s i) = PDrain -> s_queue (fd_senders s i) = [] -> s_out (fd_senders s i) = Some c ->
  exists s', fd_run s [(i, ADrain); (i, ACloseOut); (i, ACloseDone); (i, ACloseErr)] = Some s' /\ fd_crashed s' = false /\
    s_completed (fd_senders s' i) = true /\ s_errclosed (fd_senders s' i) = true /\ fd_closed s' = true.
Proof.
  intros before s i c Hr Hk Hp Hq Ho. pose proof (srun_inv _ _ (C113_each_is_a_sender _ _ i Hr)) as V.
  assert (Hco : s_completed (fd_senders s i) = false). { destruct (s_completed (fd_senders s i)) eqn:E; [|reflexivity]. apply (v_completed _ _ V) in E. rewrite Hp in E. destruct E; discriminate. }
  assert (Hec : s_errclosed (fd_senders s i) = false). { destruct (s_errclosed (fd_senders s i)) eqn:E; [|reflexivity]. apply (v_errclosed _ _ V) in E. rewrite Hp in E. discriminate. }
  pose proof (none_crashed _ _ Hr Hk i) as Hcr.
  assert (R : exists y, srun (fd_senders s i) [ADrain; ACloseOut; ACloseDone; ACloseErr] = Some y /\ s_crashed y = false /\ s_completed y = true /\ s_errclosed y = true).
  { revert Hp Hq Ho Hco Hec Hcr. clear. destruct (fd_senders s i) as [pc q out en co eq ec go lo ne cr]. cbn [s_pc s_queue s_out s_completed s_errclosed s_crashed]. intros -> -> -> -> -> ->.
    eexists. split; [reflexivity|]. cbn. auto. }
  destruct R as (y & R & Y1 & Y2 & Y3). destruct (solo_run i [ADrain; ACloseOut; ACloseDone; ACloseErr] s y Hk eq_refl R Y1) as (s' & A & B & C & D). exists s'. rewrite B, D. cbn [existsb closes orb]. rewrite orb_true_r. auto.
Qed.
Print Assumptions C113_empty_queue_ends.

(** ** two Senders on stderr: one End silences the other *)
Definition logging : list (nat * saction) :=
  [(0%nat, ASend (bs "a")); (1%nat, ASend (bs "b")); (1%nat, ATick); (1%nat, AConnect None); (1%nat, ALock); (1%nat, AWrite 1 WOk); (1%nat, AWriteDone);
   (0%nat, AEndCall); (0%nat, ASelectEnd); (0%nat, ADrain); (0%nat, AConnect None); (0%nat, ALock); (0%nat, AWrite 1 WOk); (0%nat, AWriteDone); (0%nat, ADrain);
   (0%nat, ACloseOut); (0%nat, ACloseDone); (0%nat, ACloseErr)].
Definition logging_more : list (nat * saction) :=
  [(1%nat, ASend (bs "c")); (1%nat, ATick); (1%nat, ALock); (1%nat, AWrite 0 (WErr 9)); (1%nat, APushErrWrite); (1%nat, AUserErr); (1%nat, AEndCall); (1%nat, ASelectEnd)].

Example C113_nonvacuous : exists s, fd_run fd_init (logging ++ logging_more) = Some s /\ fd_crashed s = false /\ fd_closed s = true /\
  s_completed (fd_senders s 0%nat) = true /\ bytes_written (fd_senders s 0%nat) = bs "a" /\ bytes_written (fd_senders s 1%nat) = bs "b" /\
  s_pc (fd_senders s 1%nat) = PDrain /\ s_queue (fd_senders s 1%nat) = [bs "c"] /\ s_errq (fd_senders s 1%nat) = [] /\ leaving (fd_senders s 1%nat) = false /\ s_goterr (fd_senders s 1%nat) = [9%nat].
Proof. eexists. split; [vm_compute; reflexivity|]. vm_compute. auto 12. Qed.

Lemma silenced s0 after s' : fd_run fd_init logging = Some s0 -> fd_run s0 (logging_more ++ after) = Some s' ->
  bytes_written (fd_senders s' 1%nat) = bs "b" /\ s_completed (fd_senders s' 1%nat) = false.
Proof.
  intros R0 H. destruct C113_nonvacuous as (x & X1 & _ & X3 & _ & _ & X6 & _ & X8 & _ & X10 & _).
  assert (X : fd_run s0 logging_more = Some x). { rewrite fd_run_app, R0 in X1. exact X1. }
  rewrite fd_run_app, X in H. split.
  - rewrite <- X6. apply (C113_never_written_again (logging ++ logging_more) x after s' 1%nat X1 X3 H).
  - apply (C113_end_never_returns (logging ++ logging_more) x after s' 1%nat X1 X3); [rewrite X8; discriminate|exact X10|exact H].
Qed.

(** The expectation: a Sender whose End has returned does not harm another one.  It is false: after
    [logging], the messages given to the other Sender are never written, and its End never returns,
    whatever happens. *)
Theorem C113_refuted : exists s, fd_run fd_init logging = Some s /\ s_completed (fd_senders s 0%nat) = true /\
  forall after s', fd_run s (logging_more ++ after) = Some s' ->
    bytes_written (fd_senders s' 1%nat) = bs "b" /\ s_completed (fd_senders s' 1%nat) = false.
Proof.
  assert (X : exists s, fd_run fd_init logging = Some s /\ s_completed (fd_senders s 0%nat) = true) by (eexists; split; [vm_compute; reflexivity|reflexivity]).
  destruct X as (s & X1 & X2). exists s. split; [exact X1|]. split; [exact X2|]. intros after s' H. exact (silenced _ _ _ X1 H).
Qed.
Print Assumptions C113_refuted.
