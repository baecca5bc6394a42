(** PropSender2.v -- C43 to C49. *)
From Verif Require Import Base BaseFacts MTransport MSData MMessage MSender LSender PropSender.

Lemma last_step acts a s : srun sender_init (acts ++ [a]) = Some s -> exists s0, srun sender_init acts = Some s0 /\ s_crashed s0 = false /\ sstep s0 a = Some s.
Proof.
  intro H. rewrite srun_app in H. destruct (srun sender_init acts) as [s0|]; [|discriminate]. exists s0. split; [reflexivity|].
  cbn in H. destruct (sstep s0 a) as [s1|] eqn:E; [|discriminate]. injection H as <-. split; [|reflexivity].
  unfold sstep in E. destruct (s_crashed s0); [discriminate | reflexivity].
Qed.

(** ** C43: exactly when the process crashes *)

(** Is there a current connection?  Every reported write error gives one up. *)
Definition connected (acts : list saction) : Prop := (lost acts < connects acts)%nat.

Theorem C43_crash_iff : forall acts a s, srun sender_init (acts ++ [a]) = Some s ->
  (s_crashed s = true <-> (a = AEndCall /\ In AEndCall acts) \/ (a = ACloseOut /\ ~ connected acts)).
Proof.
  intros acts a s H. destruct (last_step _ _ _ H) as (s0 & H0 & Hc & Hs). destruct (srun_inv _ _ H0). unfold connected.
  unfold sstep in Hs. rewrite Hc in Hs.
  destruct a; try (assert (Hno : forall P, s_crashed s = false -> (s_crashed s = true <-> P)) by (intros; exfalso; congruence)).
  - destruct (locked s0); [discriminate|]. injection Hs as <-. cbn. intuition congruence.
  - destruct (s_pc s0); try discriminate. injection Hs as <-. cbn. rewrite Hc. intuition congruence.
  - destruct (s_end s0); injection Hs as <-; cbn; intuition congruence.
  - destruct (s_pc s0); try discriminate. destruct (s_end s0); [|discriminate]. injection Hs as <-. cbn. rewrite Hc. intuition congruence.
  - destruct (s_pc s0); try discriminate. destruct err; injection Hs as <-; cbn; rewrite ?Hc; intuition congruence.
  - destruct (s_pc s0) eqn:Epc; try discriminate. destruct (s_errclosed s0) eqn:Ec.
    { exfalso. destruct v_errclosed as [Hx _]. specialize (Hx eq_refl). discriminate. }
    destruct (length (s_errq s0) <? serr_cap)%nat; [|discriminate]. injection Hs as <-. cbn. intuition congruence.
  - destruct (s_pc s0); try discriminate. injection Hs as <-. cbn. rewrite Hc. intuition congruence.
  - destruct (s_pc s0) eqn:Epc; try discriminate. destruct (s_queue s0) as [|f q] eqn:Eq; [discriminate|]. rewrite <- Eq in *.
    destruct (s_out s0) as [c|]; [|congruence]. cbv zeta in Hs.
    destruct ((k <=? length (concat (s_queue s0)))%nat && _) in Hs; [|discriminate]. injection Hs as <-. cbn. intuition congruence.
  - destruct (s_pc s0); try discriminate. destruct (s_queue s0); [|discriminate]. injection Hs as <-. cbn. rewrite Hc. intuition congruence.
  - destruct (s_pc s0) eqn:Epc; try discriminate. destruct (s_errclosed s0) eqn:Ec.
    { exfalso. destruct v_errclosed as [Hx _]. specialize (Hx eq_refl). discriminate. }
    destruct (length (s_errq s0) <? serr_cap)%nat; [|discriminate]. injection Hs as <-. cbn. intuition congruence.
  - destruct (s_pc s0); try discriminate. injection Hs as <-. cbn. rewrite Hc. intuition congruence.
  - destruct (s_pc s0); try discriminate. destruct (s_out s0); injection Hs as <-; cbn.
    + split; [discriminate|]. intros [[Hx _]|[_ Hx]]; [discriminate | lia].
    + split; [|reflexivity]. intros _. right. split; [reflexivity | lia].
  - destruct (s_pc s0) eqn:Epc; try discriminate. destruct (s_completed s0) eqn:Ec.
    { exfalso. destruct v_completed as [Hx _]. destruct (Hx eq_refl); discriminate. }
    injection Hs as <-. cbn. intuition congruence.
  - destruct (s_pc s0) eqn:Epc; try discriminate. destruct (s_errclosed s0) eqn:Ec.
    { exfalso. destruct v_errclosed as [Hx _]. specialize (Hx eq_refl). discriminate. }
    injection Hs as <-. cbn. intuition congruence.
  - destruct (s_errq s0); [discriminate|]. injection Hs as <-. cbn. intuition congruence.
Qed.
Print Assumptions C43_crash_iff.

(** So a sender with one End, and a current connection when the queue is found empty, never crashes. *)
Theorem C43_safe : forall acts s, srun sender_init acts = Some s ->
  (forall a b, acts = a ++ AEndCall :: b -> ~ In AEndCall a) -> (forall a b, acts = a ++ ACloseOut :: b -> connected a) -> s_crashed s = false.
Proof.
  intros acts s H He Hc. destruct (s_crashed s) eqn:E; [|reflexivity]. exfalso.
  destruct acts as [|a acts _] using rev_ind; [injection H as <-; discriminate|].
  apply (C43_crash_iff _ _ _ H) in E. destruct E as [[-> Hi]|[-> Hi]].
  - eapply He; [|exact Hi]. reflexivity.
  - apply Hi. eapply Hc. reflexivity.
Qed.
Print Assumptions C43_safe.

(** End on a sender that never ticked and never sent always crashes: *)
Theorem C43_idle_refuted :
  (forall acts s, srun sender_init acts = Some s -> ~ In ATick acts -> sends acts = [] -> In ACloseOut acts -> s_crashed s = true) /\
  exists s, srun sender_init [AEndCall; ASelectEnd; ADrain; ACloseOut] = Some s /\ s_crashed s = true.
Proof.
  split; [|vm_compute; eexists; split; reflexivity].
  assert (Hi : forall acts s, srun sender_init acts = Some s -> ~ In ATick acts -> sends acts = [] ->
    s_out s = None /\ s_queue s = [] /\ (In ACloseOut acts -> s_crashed s = true) /\ match s_pc s with PSelect | PDrain | PClose => True | _ => False end).
  { intros acts. induction acts as [|a acts IH] using rev_ind; intros s H H1 H2; [injection H as <-; cbn; tauto|].
    rewrite srun_app in H. destruct (srun sender_init acts) as [s0|] eqn:E; [|discriminate]. cbn in H.
    destruct (sstep s0 a) as [s1|] eqn:Es; [|discriminate]. injection H as <-. rewrite in_app_iff in H1. rewrite sends_app in H2. apply app_eq_nil in H2. destruct H2 as [H2 H3].
    destruct (IH s0 eq_refl) as (Ho & Hq & Hcl & Hpc); [tauto|assumption|].
    unfold sstep in Es. destruct (s_crashed s0) eqn:Ec; [discriminate|].
    assert (Hn : In ACloseOut (acts ++ [a]) -> a = ACloseOut).
    { rewrite in_app_iff. cbn. intros [Hx|[Hx|[]]]; [specialize (Hcl Hx); discriminate | exact Hx]. }
    destruct a; try discriminate.
    - cbn in H1. tauto.
    - injection Es as <-. destruct (s_end s0); snorm; repeat split; auto; intro Hx; specialize (Hn Hx); discriminate.
    - destruct (s_pc s0); try contradiction; try discriminate. destruct (s_end s0); [|discriminate]. injection Es as <-. snorm. repeat split; auto; intro Hx; specialize (Hn Hx); discriminate.
    - destruct (s_pc s0); try contradiction; discriminate.
    - destruct (s_pc s0); try contradiction; discriminate.
    - destruct (s_pc s0); try contradiction; discriminate.
    - destruct (s_pc s0); try contradiction; discriminate.
    - destruct (s_pc s0); try contradiction; discriminate.
    - destruct (s_pc s0); try contradiction; discriminate.
    - destruct (s_pc s0); try contradiction; try discriminate. rewrite Hq in Es. injection Es as <-. snorm. repeat split; auto; intro Hx; specialize (Hn Hx); discriminate.
    - destruct (s_pc s0) eqn:Epc; try contradiction; try discriminate. rewrite Ho in Es. injection Es as <-. snorm. rewrite Epc. auto.
    - destruct (s_pc s0); try contradiction; discriminate.
    - destruct (s_pc s0); try contradiction; discriminate.
    - destruct (s_errq s0); [discriminate|]. injection Es as <-. snorm. repeat split; auto; intro Hx; specialize (Hn Hx); discriminate. }
  intros acts s H H1 H2 H3. destruct (Hi _ _ H H1 H2) as (_ & _ & Hx & _). auto.
Qed.
Print Assumptions C43_idle_refuted.

(** and so does End after a connection was lost with nothing left to send: *)
Theorem C43_lost_refuted : exists s,
  srun sender_init [ASend (fr (bs "x")); ATick; AConnect None; ALock; AWrite 2 (WErr 1); APushErrWrite; AEndCall; ASelectEnd; ADrain; ACloseOut] = Some s /\ s_crashed s = true.
Proof. vm_compute. eexists. split; reflexivity. Qed.
Print Assumptions C43_lost_refuted.

Example C43_nonvacuous : exists s, srun sender_init busy = Some s /\ s_crashed s = false /\ connected busy.
Proof. vm_compute. eexists. split; [reflexivity|]. split; [reflexivity|]. repeat constructor. Qed.

(** ** C44 *)
Definition boundary (fs : list bytes) (n : nat) : Prop := exists pre post, fs = pre ++ post /\ n = length (concat pre).

(** every write that fails stops between two frames *)
Definition clean_failures (acts : list saction) : Prop :=
  forall p k e q, acts = p ++ AWrite k (WErr e) :: q -> boundary (sends p) (accepted_bytes p + k).

(** bytes accepted by the connections before connection c *)
Definition before (c : nat) (log : list sevent) : bytes := concat (map (fun c' => on c' log) (seq 0 c)).

Lemma boundary_more (fs gs : list bytes) n : boundary fs n -> boundary (fs ++ gs) n.
Proof. intros (pre & post & -> & ->). exists pre, (post ++ gs). rewrite app_assoc. auto. Qed.

Lemma before_other c log c' d : (c <= c')%nat -> before c (log ++ [EWrite c' d]) = before c log.
Proof.
  intro H. unfold before. f_equal. apply map_ext_in. intros x Hx. apply in_seq in Hx. rewrite on_app. unfold on at 2. cbn.
  destruct (Nat.eqb_spec c' x); [lia|]. cbn. apply app_nil_r.
Qed.
Lemma before_event c log e : (forall c' d, e <> EWrite c' d) -> before c (log ++ [e]) = before c log.
Proof.
  intro H. unfold before. f_equal. apply map_ext. intro x. rewrite on_app. unfold on at 2. destruct e; cbn; try apply app_nil_r. exfalso. eapply H. reflexivity.
Qed.

(** the connections given up or failing end on a boundary *)
Lemma lost_boundary acts : forall s, srun sender_init acts = Some s -> clean_failures acts ->
  (forall c, (c < s_next s)%nat -> (s_out s <> Some c \/ (exists d e, s_pc s = PErrWrite d e)) -> boundary (sends acts) (length (before (S c) (s_log s)))).
Proof.
  induction acts as [|a acts IH] using rev_ind; intros s H Hcl; [injection H as <-; cbn; lia|].
  destruct (last_step _ _ _ H) as (s0 & H0 & Hc0 & Hs). pose proof (srun_inv _ _ H0) as I0. pose proof (srun_inv _ _ H) as I1.
  assert (Hcl0 : clean_failures acts) by (intros p k e q E; apply (Hcl p k e (q ++ [a])); rewrite E, <- app_assoc; reflexivity).
  specialize (IH s0 H0 Hcl0).
  assert (Hsame : s_next s = s_next s0 -> (forall c, before c (s_log s) = before c (s_log s0)) ->
     (forall c, (c < s_next s0)%nat -> (s_out s <> Some c \/ (exists d e, s_pc s = PErrWrite d e)) -> (s_out s0 <> Some c \/ (exists d e, s_pc s0 = PErrWrite d e))) ->
     forall c, (c < s_next s)%nat -> (s_out s <> Some c \/ (exists d e, s_pc s = PErrWrite d e)) -> boundary (sends (acts ++ [a])) (length (before (S c) (s_log s)))).
  { intros E1 E2 E3 c Hlt Hx. rewrite E2, sends_app. apply boundary_more. rewrite E1 in Hlt. apply IH; auto. }
  unfold sstep in Hs. rewrite Hc0 in Hs. destruct a.
  - destruct (locked s0) eqn:El; [discriminate|]. injection Hs as <-. apply Hsame; snorm; auto.
  - destruct (s_pc s0) eqn:Epc; try discriminate. injection Hs as <-. apply Hsame; snorm; auto. intros c _ [Hx|(d & e & Hx)]; auto. exfalso.
    unfold flush_entry in Hx. destruct (s_out s0); discriminate.
  - injection Hs as <-. destruct (s_end s0); apply Hsame; snorm; auto.
  - destruct (s_pc s0) eqn:Epc; try discriminate. destruct (s_end s0); [|discriminate]. injection Hs as <-. apply Hsame; snorm; auto. intros c _ [Hx|(d & e & Hx)]; auto. discriminate.
  - destruct (s_pc s0) eqn:Epc; try discriminate. pose proof (v_out _ _ I0) as Io. rewrite Epc in Io. destruct err as [e|]; injection Hs as <-.
    + apply Hsame; snorm; auto. intros c _ [Hx|(d' & e' & Hx)]; auto. discriminate.
    + snorm. intros c Hlt [Hx|(d' & e' & Hx)]; [|discriminate]. rewrite before_event by congruence. rewrite sends_app. apply boundary_more.
      apply IH; [|left; rewrite Io; congruence]. destruct (Nat.eq_dec c (s_next s0)); [congruence | lia].
  - destruct (s_pc s0) eqn:Epc; try discriminate. pose proof (v_out _ _ I0) as Io. rewrite Epc in Io. destruct (s_errclosed s0); [injection Hs as <-; apply Hsame; snorm; auto; rewrite ?Epc; auto|].
    destruct (length (s_errq s0) <? serr_cap)%nat; [|discriminate]. injection Hs as <-. apply Hsame; snorm; auto. intros c _ [Hx|(d' & e' & Hx)]; auto. destruct d; discriminate.
  - destruct (s_pc s0) eqn:Epc; try discriminate. injection Hs as <-. apply Hsame; snorm; auto. intros c _ [Hx|(d' & e' & Hx)]; auto. discriminate.
  - (* a write *)
    destruct (s_pc s0) eqn:Epc; try discriminate. destruct (s_queue s0) as [|f q] eqn:Eq; [discriminate|]. rewrite <- Eq in *.
    destruct (s_out s0) as [c0|] eqn:Eo; [|injection Hs as <-; apply Hsame; snorm; auto; rewrite ?Epc, ?Eo; auto]. cbv zeta in Hs.
    destruct ((k <=? length (concat (s_queue s0)))%nat && _) eqn:Ek in Hs; [|discriminate]. apply andb_prop in Ek. destruct Ek as [Ek _]. apply Nat.leb_le in Ek.
    pose proof (v_cur _ _ I0 c0 Eo) as Hn. pose proof (v_order _ _ I1) as Hor. pose proof (v_accepted _ _ I1) as Hac.
    injection Hs as <-. snorm. intros c Hlt Hx. destruct (Nat.eq_dec c c0) as [->|Hne].
    + destruct r as [| |e].
      * destruct Hx as [Hx|(d' & e' & Hx)]; [congruence | discriminate].
      * destruct Hx as [Hx|(d' & e' & Hx)]; [congruence | destruct d; discriminate].
      * unfold before. rewrite <- Hn, <- Hor. rewrite Hac, accepted_app, sends_app. apply boundary_more.
        replace (accepted_bytes [AWrite k (WErr e)]) with k by (unfold accepted_bytes; cbn; lia). apply (Hcl acts k e []). reflexivity.
    + rewrite before_other by lia. rewrite sends_app. apply boundary_more. apply IH; [lia | left; congruence].
  - destruct (s_pc s0) eqn:Epc; try discriminate. destruct (s_queue s0); [|discriminate]. injection Hs as <-. apply Hsame; snorm; auto. intros c _ [Hx|(d' & e' & Hx)]; auto. destruct d; discriminate.
  - destruct (s_pc s0) eqn:Epc; try discriminate. destruct (s_errclosed s0); [injection Hs as <-; apply Hsame; snorm; auto; rewrite ?Epc; auto|].
    destruct (length (s_errq s0) <? serr_cap)%nat; [|discriminate]. injection Hs as <-. apply Hsame; snorm; auto. intros c _ _. right. rewrite ?Epc. eauto.
  - destruct (s_pc s0) eqn:Epc; try discriminate. injection Hs as <-. apply Hsame; snorm; auto. intros c _ [Hx|(d' & e' & Hx)]; auto.
    destruct (s_queue s0); [discriminate|]. unfold flush_entry in Hx. destruct (s_out s0); discriminate.
  - destruct (s_pc s0) eqn:Epc; try discriminate. destruct (s_out s0) as [c0|] eqn:Eo; injection Hs as <-.
    + apply Hsame; snorm; auto; [intro c; apply before_event; congruence|]. intros c _ [Hx|(d' & e' & Hx)]; [left; congruence | discriminate].
    + apply Hsame; snorm; auto. rewrite ?Eo, ?Epc. auto.
  - destruct (s_pc s0) eqn:Epc; try discriminate. destruct (s_completed s0); injection Hs as <-; apply Hsame; snorm; auto.
    + rewrite ?Epc. auto.
    + intros c _ [Hx|(d' & e' & Hx)]; auto. discriminate.
  - destruct (s_pc s0) eqn:Epc; try discriminate. destruct (s_errclosed s0); injection Hs as <-; apply Hsame; snorm; auto.
    + rewrite ?Epc. auto.
    + intros c _ [Hx|(d' & e' & Hx)]; auto. discriminate.
  - destruct (s_errq s0); [discriminate|]. injection Hs as <-. apply Hsame; snorm; auto.
Qed.

Lemma out_dec (a b : option nat) : {a = b} + {a <> b}.
Proof. decide equality. apply Nat.eq_dec. Defined.

Lemma seq_split_at c n : (c < n)%nat -> seq 0 n = seq 0 c ++ c :: seq (S c) (n - S c).
Proof. intro H. replace n with (c + S (n - S c))%nat at 1 by lia. rewrite seq_app. reflexivity. Qed.

Lemma before_S c log : before (S c) log = before c log ++ on c log.
Proof. unfold before. rewrite seq_S, map_app, concat_app. cbn. rewrite app_nil_r. reflexivity. Qed.

(** the longest run of whole frames in a prefix of the stream *)
Lemma take_frames (fs : list bytes) : forall b r : bytes, b ++ r = concat fs -> exists f2 f3 part, fs = f2 ++ f3 /\ b = concat f2 ++ part /\
  (part = [] \/ exists (f : bytes) (rest : list bytes) (z : bytes), f3 = f :: rest /\ f = part ++ z /\ z <> []).
Proof.
  induction fs as [|f fs IH]; intros b r H.
  - cbn in H. apply app_eq_nil in H. destruct H as [-> _]. exists [], [], []. cbn. auto.
  - destruct (Nat.lt_ge_cases (length b) (length f)) as [Hlt|Hge].
    + exists [], (f :: fs), b. split; [reflexivity|]. split; [reflexivity|]. right. exists f, fs, (skipn (length b) f). split; [reflexivity|].
      cbn in H. assert (Hb : b = firstn (length b) f).
      { rewrite <- (firstn_all b) at 1. replace (firstn (length b) b) with (firstn (length b) (b ++ r)) by (rewrite firstn_app, Nat.sub_diag, firstn_O, app_nil_r; reflexivity).
        rewrite H, firstn_app. replace (length b - length f)%nat with 0%nat by lia. rewrite firstn_O, app_nil_r. reflexivity. }
      split; [rewrite Hb at 1; symmetry; apply firstn_skipn|]. intro Hz. apply (f_equal (@length N)) in Hz. rewrite skipn_length in Hz. cbn in Hz. lia.
    + cbn in H. assert (Hb : b = f ++ skipn (length f) b).
      { rewrite <- (firstn_skipn (length f) b) at 1. f_equal. replace (firstn (length f) b) with (firstn (length f) (b ++ r)).
        - rewrite H, firstn_app, Nat.sub_diag, firstn_O, app_nil_r, firstn_all. reflexivity.
        - rewrite firstn_app. replace (length f - length b)%nat with 0%nat by lia. rewrite firstn_O, app_nil_r. reflexivity. }
      rewrite Hb, <- app_assoc in H. apply app_inv_head in H. destruct (IH _ _ H) as (f2 & f3 & part & -> & Hp & Hx).
      exists (f :: f2), f3, part. split; [reflexivity|]. split; [rewrite Hb at 1; rewrite Hp; cbn; rewrite app_assoc; reflexivity | exact Hx].
Qed.

Lemma boundary_split (fs : list bytes) (a r : bytes) : a ++ r = concat fs -> boundary fs (length a) -> exists f1 f2, fs = f1 ++ f2 /\ a = concat f1 /\ r = concat f2.
Proof.
  intros H (pre & post & -> & Hl). rewrite concat_app in H. exists pre, post. split; [reflexivity|].
  assert (Ha : a = concat pre).
  { rewrite <- (firstn_all a). rewrite Hl at 1. replace (firstn (length (concat pre)) a) with (firstn (length (concat pre)) (a ++ r)).
    - rewrite H, firstn_app, Nat.sub_diag, firstn_O, app_nil_r, firstn_all. reflexivity.
    - rewrite firstn_app. replace (length (concat pre) - length a)%nat with 0%nat by lia. rewrite firstn_O, app_nil_r. reflexivity. }
  split; [exact Ha|]. rewrite Ha in H. apply app_inv_head in H. exact H.
Qed.

(** If no write fails inside a frame, each connection carries whole frames, in order, apart from a
    last one in progress on the current connection. *)
Theorem C44_whole_frames : forall acts s, srun sender_init acts = Some s -> clean_failures acts -> forall c, (c < connects acts)%nat ->
  exists f1 f2 f3 part, sends acts = f1 ++ f2 ++ f3 /\ before c (s_log s) = concat f1 /\ on c (s_log s) = concat f2 ++ part /\
    (part = [] \/ (s_out s = Some c /\ exists (f : bytes) (rest : list bytes) (z : bytes), f3 = f :: rest /\ f = part ++ z /\ z <> [])).
Proof.
  intros acts s H Hcl c Hc. pose proof (srun_inv _ _ H) as I0. pose proof (lost_boundary _ _ H Hcl) as Hb. rewrite <- (v_next _ _ I0) in Hc.
  assert (Hw : exists tail, before c (s_log s) ++ on c (s_log s) ++ tail = concat (sends acts)).
  { exists (concat (map (fun c => on c (s_log s)) (seq (S c) (s_next s - S c))) ++ concat (s_queue s)).
    rewrite <- (v_bytes _ _ I0), (v_order _ _ I0). unfold before.
    rewrite (seq_split_at c (s_next s) Hc), map_app, concat_app. cbn [map concat].
    rewrite <- !app_assoc. reflexivity. }
  destruct Hw as (tail & Hw).
  assert (Hb0 : boundary (sends acts) (length (before c (s_log s)))).
  { destruct c as [|c]; [exists [], (sends acts); split; reflexivity|]. apply Hb; [lia|]. left. intro Hx. apply (v_cur _ _ I0) in Hx. lia. }
  destruct (boundary_split _ _ _ Hw Hb0) as (f1 & g & E1 & E2 & E3).
  destruct (out_dec (s_out s) (Some c)) as [Ho|Ho].
  - destruct (take_frames g _ _ E3) as (f2 & f3 & part & -> & E4 & E5). exists f1, f2, f3, part. rewrite E1. split; [reflexivity|]. split; [exact E2|]. split; [exact E4|].
    destruct E5 as [->|E5]; [left; reflexivity | right; split; assumption].
  - assert (Hb1 : boundary (sends acts) (length (before (S c) (s_log s)))) by (apply Hb; auto).
    rewrite before_S in Hb1. rewrite app_assoc in Hw. destruct (boundary_split _ _ _ Hw Hb1) as (g1 & g2 & E4 & E5 & E6).
    (* g1 extends f1 *)
    rewrite E2 in E5. 
    assert (Hg : exists f2 f3, g = f2 ++ f3 /\ on c (s_log s) = concat f2).
    { assert (Hbg : boundary g (length (on c (s_log s)))).
      { destruct (Nat.lt_ge_cases (length g1) (length f1)) as [Hlt|Hge].
        - (* then the bytes of c are empty *)
          assert (exists x, f1 = g1 ++ x) as (x & ->).
          { exists (skipn (length g1) f1). rewrite <- (firstn_skipn (length g1) f1) at 1. f_equal.
            replace (firstn (length g1) f1) with (firstn (length g1) (f1 ++ g)) by (rewrite firstn_app; replace (length g1 - length f1)%nat with 0%nat by lia; rewrite firstn_O, app_nil_r; reflexivity).
            rewrite <- E1, E4, firstn_app, Nat.sub_diag, firstn_O, app_nil_r, firstn_all. reflexivity. }
          rewrite concat_app, <- app_assoc in E5. apply (f_equal (@length N)) in E5. rewrite !app_length in E5. exists [], g. split; [reflexivity|]. cbn. lia.
        - assert (exists x, g1 = f1 ++ x) as (x & ->).
          { exists (skipn (length f1) g1). rewrite <- (firstn_skipn (length f1) g1) at 1. f_equal.
            replace (firstn (length f1) g1) with (firstn (length f1) (g1 ++ g2)) by (rewrite firstn_app; replace (length f1 - length g1)%nat with 0%nat by lia; rewrite firstn_O, app_nil_r; reflexivity).
            rewrite <- E4, E1, firstn_app, Nat.sub_diag, firstn_O, app_nil_r, firstn_all. reflexivity. }
          rewrite concat_app in E5. apply app_inv_head in E5. rewrite E1, <- app_assoc in E4. apply app_inv_head in E4. exists x, g2. split; [exact E4|]. rewrite E5. reflexivity. }
      destruct (boundary_split _ _ _ E3 Hbg) as (f2 & f3 & Ex & Ey & _). exists f2, f3. split; assumption. }
    destruct Hg as (f2 & f3 & -> & E7). exists f1, f2, f3, []. rewrite app_nil_r. auto.
Qed.
Print Assumptions C44_whole_frames.

(** In general a connection starts inside a frame exactly when the bytes accepted before it do not
    end on a frame, and its bytes are what follows. *)
Theorem C44_position : forall acts s, srun sender_init acts = Some s -> forall c, (c < connects acts)%nat ->
  exists tail, before c (s_log s) ++ on c (s_log s) ++ tail = concat (sends acts).
Proof.
  intros acts s H c Hc. pose proof (srun_inv _ _ H) as I0. rewrite <- (v_next _ _ I0) in Hc.
  exists (concat (map (fun c => on c (s_log s)) (seq (S c) (s_next s - S c))) ++ concat (s_queue s)).
  rewrite <- (v_bytes _ _ I0), (v_order _ _ I0). unfold before.
  rewrite (seq_split_at c (s_next s) Hc), map_app, concat_app. cbn [map concat].
  rewrite <- !app_assoc. reflexivity.
Qed.
Print Assumptions C44_position.

(** A write that fails inside a frame: the next connection starts with the rest of that frame. *)
Theorem C44_split_frame_refuted : exists s, srun sender_init busy = Some s /\ ~ clean_failures busy /\
  on 1 (s_log s) = bs "o" ++ [LF] ++ fr (bs "three") /\ sends busy = [fr (bs "one"); fr (bs "two"); fr (bs "three")].
Proof.
  eexists. split; [vm_compute; reflexivity|]. split; [|split; vm_compute; reflexivity].
  intro Hcl. specialize (Hcl [ASend (fr (bs "one")); ATick; AConnect (Some 7%nat); ASend (fr (bs "two")); APushErrConn; AUserErr; ATick; AConnect None; ALock] 6%nat 8%nat
    [APushErrWrite; ASend (fr (bs "three")); ATick; AConnect None; ALock; AWrite 3 WNoBufs; AEndCall; ASelectEnd; ADrain; ALock; AWrite 5 WOk; AWriteDone; ADrain; ACloseOut; ACloseDone; ACloseErr] eq_refl).
  destruct Hcl as (pre & post & E1 & E2). change (sends _) with [fr (bs "one"); fr (bs "two")] in E1.
  destruct pre as [|a [|b [|c pre]]]; cbn in E1; try (injection E1; intros; subst); vm_compute in E2; try discriminate.
Qed.
Print Assumptions C44_split_frame_refuted.

(** Non-vacuity: a failure between two frames *)
Example C44_nonvacuous : let acts := [ASend (fr (bs "one")); ASend (fr (bs "two")); ATick; AConnect None; ALock; AWrite 4 (WErr 8); APushErrWrite; ATick; AConnect None; ALock; AWrite 2 WNoBufs] in
  exists s, srun sender_init acts = Some s /\ clean_failures acts /\ on 0 (s_log s) = fr (bs "one") /\ on 1 (s_log s) = bs "tw".
Proof.
  eexists. split; [vm_compute; reflexivity|]. split; [|split; vm_compute; reflexivity].
  intros p k e q E.
  do 5 (destruct p as [|? p]; [discriminate|cbn in E; injection E as <- E]). destruct p as [|? p].
  - cbn in E. injection E as <- <- <-. exists [fr (bs "one")], [fr (bs "two")]. split; vm_compute; reflexivity.
  - exfalso. cbn in E. injection E as <- E. do 5 (destruct p as [|? p]; [discriminate|cbn in E; injection E as <- E]). destruct p; discriminate.
Qed.
