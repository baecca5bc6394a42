(** PropEndToEnd5.v -- C84 for messages with structured data, at every moment: before everything sent
    has been read (LF or NUL framing). *)
From Verif Require Import Base BaseFacts Spec MTime MTransport MSData MMessage MParse MTokenize MReceiver MSender
  LTime LTokenize LParse LRound LTransport PropMessage PropParse PropTransport LLines PropLines PropReceiver PropRelay PropMixed LReceiver PropRecvSys LSender PropSender PropSender2 PropSender3 PropEndToEnd PropEndToEnd2 PropEndToEnd4.

(** After each message with structured data of which the whole frame has been read, some read stopped
    where what had been read past it has a '\' before each ']' and does not end with ']'. *)
Definition clear_so_far (uni : N -> bool) (t : transport) (ms : list message) (reads : list (bytes * option read_err)) : Prop :=
  forall before m after rest, ms = before ++ m :: after -> m_sd m <> [] ->
    stream reads = concat (map (encode t) (encodings uni (before ++ [m]))) ++ rest ->
    exists n past, stream (firstn n reads) = concat (map (encode t) (encodings uni (before ++ [m]))) ++ past /\ text_safe past.

Definition clear_now (c : N) (fs : list mixed) (pend : bytes) (reads : list (bytes * option read_err)) : Prop :=
  forall before f after rest, fs = before ++ f :: after -> m_els f <> [] -> pend ++ stream reads = mlines c (before ++ [f]) ++ rest ->
    exists n past, pend ++ stream (firstn n reads) = mlines c (before ++ [f]) ++ past /\ text_safe past.

Lemma run_mixed_unread t c reads : forall st fs unread, delim t = Some c -> Forall (mixed_of c) fs -> t_pending st ++ stream reads ++ unread = mlines c fs ->
  stuck c fs (t_pending st) -> ~ bad c fs (t_pending st) -> clear_now c fs (t_pending st) reads -> ended reads = false ->
  ((exists n, bad c fs (t_pending st ++ stream (firstn n reads))) /\ o_next (tok_run t st reads) = TCrash) \/
  ((forall n, ~ bad c fs (t_pending st ++ stream (firstn n reads))) /\
   exists fs1 fs2 st', fs = fs1 ++ fs2 /\ o_sent (tok_run t st reads) = map mixed_pair fs1 /\ o_next (tok_run t st reads) = TCont st' /\
     t_pending st ++ stream reads = mlines c fs1 ++ t_pending st' /\
     (t_pending st' = [] \/ exists f fs', fs2 = f :: fs' /\ (length (t_pending st') < length (mixed_wire f ++ [c]))%nat)).
Proof.
  induction reads as [|[chunk err] more IH]; intros st fs unread Hc Hok Hs Hcut Hnb Hclr He; cbn [tok_run].
  - right. split; [intros n; rewrite firstn_nil; cbn; rewrite app_nil_r; exact Hnb|].
    exists [], fs, st. cbn [o_sent o_next map app]. unfold stream. cbn [map concat mlines]. rewrite app_nil_r. split; [reflexivity|]. split; [reflexivity|]. split; [reflexivity|]. split; [reflexivity|].
    destruct Hcut as [E|[H|(f & fs' & past & x & E & Hne & El & Hb & Ep)]]; [left; exact E|right; exact H|exfalso].
    destruct (Hclr [] f fs' past E Hne) as (n & past' & En & Hp).
    { unfold stream. cbn [map concat app]. rewrite app_nil_r, mlines_one. exact El. }
    rewrite firstn_nil in En. unfold stream in En. cbn [map concat] in En. rewrite app_nil_r in En.
    refine (stuck_not_clear t c fs (t_pending st) [] f fs' past' Hc _ E En Hp). right. right. exists f, fs', past, x. auto.
  - cbn [ended existsb snd] in He. fold (ended more) in He. apply orb_false_iff in He as [He1 He2]. unfold stream in Hs. cbn [map fst concat] in Hs. fold (stream more) in Hs.
    assert (Hst : forall n, stream (firstn (S n) ((chunk, err) :: more)) = chunk ++ stream (firstn n more)) by reflexivity.
    assert (Hss : stream ((chunk, err) :: more) = chunk ++ stream more) by reflexivity. rewrite Hss.
    assert (Hclr' : clear_now c fs (t_pending st ++ chunk) more).
    { intros before f after rest E Hne Er. destruct (Hclr before f after rest E Hne) as ([|n] & past & En & Hp); [rewrite Hss, app_assoc; exact Er| |].
      - exfalso. unfold stream in En. cbn in En. rewrite app_nil_r in En. exact (stuck_not_clear t c fs _ before f after past Hc Hcut E En Hp).
      - exists n, past. rewrite Hst, app_assoc in En. auto. }
    destruct (chunk) as [|x chunk'] eqn:Ech.
    + rewrite step_empty. cbn [o_next o_sent o_errs]. cbn [app] in Hs. rewrite He1. cbn [o_next o_sent o_errs app].
      rewrite app_nil_r in Hclr'.
      destruct (IH st fs unread Hc Hok Hs Hcut Hnb Hclr' He2) as [((n & Hb) & Hn)|(Hno & H)].
      * left. split; [|exact Hn]. exists (S n). rewrite Hst. exact Hb.
      * right. split; [intros [|n]; [exact (Hno 0%nat)|rewrite Hst; exact (Hno n)]|]. exact H.
    + rewrite <- Ech in *. assert (Hne : chunk <> []) by congruence. clear Ech x chunk'. rewrite <- app_assoc, app_assoc in Hs.
      destruct (inner_mixed t c (S (length (t_pending st ++ chunk))) fs (t_pending st ++ chunk) (stream more ++ unread) (is_eof err) Hc Hok Hs)
        as (fs1 & fs2 & left & r & Hi & -> & Hlu & Hd & Hcut' & Hr); [intros E; apply app_eq_nil in E as [_ E]; contradiction|apply Nat.lt_succ_diag_r| |].
      { intros before f after past E Hne' Ed. destruct (Hclr' before f after (past ++ stream more) E Hne') as (n & past' & En & Hp); [rewrite Ed, <- app_assoc; reflexivity|].
        rewrite Ed, <- app_assoc in En. apply app_inv_head in En. destruct Hp as [Hp _]. rewrite <- En in Hp. exact (bracket_safe_cut _ _ Hp). }
      destruct (step_nonempty t st chunk err _ _ Hne Hi) as [Hsent Hnext].
      rewrite Forall_app in Hok. destruct Hok as [Hok1 Hok2].
      assert (Hshift : forall n, bad c (fs1 ++ fs2) (t_pending st ++ stream (firstn (S n) ((chunk, err) :: more))) <->
                        bad c fs2 (left ++ stream (firstn n more))).
      { intros n. rewrite Hst, app_assoc, Hd, <- app_assoc. apply mbad_shift. }
      assert (Hclr2 : clear_now c fs2 left more).
      { intros before f after rest -> Hne' Er. destruct (Hclr' (fs1 ++ before) f after rest) as (n & past & En & Hp); [rewrite <- app_assoc; reflexivity|exact Hne'| |].
        - rewrite Hd, <- !app_assoc, (mlines_app c fs1), Er, <- app_assoc. reflexivity.
        - exists n, past. split; [|exact Hp]. rewrite Hd, <- !app_assoc, mlines_app, <- app_assoc in En. apply app_inv_head in En. exact En. }
      destruct Hr as [[Hb ->]|[Hnb' ->]]; rewrite Hnext.
      * left. split; [|exact Hnext]. exists 1%nat. apply (Hshift 0%nat). cbn. rewrite app_nil_r. exact Hb.
      * rewrite He1. cbn [o_sent o_next].
        match goal with |- context [tok_run t ?s more] => destruct (IH s fs2 unread Hc Hok2) as [((n & Hb) & Hn)|(Hno & l1 & l2 & st' & -> & H2 & H3 & H4 & H5)]; try assumption end.
        -- left. split; [|exact Hn]. exists (S n). apply Hshift. exact Hb.
        -- right. split; [intros [|n]; [unfold stream; cbn [firstn map concat]; rewrite (app_nil_r (t_pending st)); exact Hnb|rewrite Hshift; exact (Hno n)]|].
           exists (fs1 ++ l1), l2, st'. rewrite <- app_assoc. split; [reflexivity|]. rewrite Hsent, H2, map_app. split; [reflexivity|]. split; [exact H3|].
           split; [|exact H5]. rewrite app_assoc, Hd, <- app_assoc. cbn [t_pending] in H4. rewrite H4, mlines_app, <- app_assoc. reflexivity.
Qed.

(** what has been read: some whole frames, then a part of the next one *)
Definition part (c : N) (fs : list mixed) (rest : bytes) : Prop := rest = [] \/ exists f fs', fs = f :: fs' /\ (length rest < length (mixed_wire f ++ [c]))%nat.

Lemma split_frames c fs : forall data unread, data ++ unread = mlines c fs ->
  exists fs1 fs2 rest, fs = fs1 ++ fs2 /\ data = mlines c fs1 ++ rest /\ part c fs2 rest.
Proof.
  induction fs as [|f fs IH]; intros data unread E.
  - cbn in E. apply app_eq_nil in E as [-> _]. exists [], [], []. split; [reflexivity|]. split; [reflexivity|left; reflexivity].
  - rewrite mlines_cons in E. destruct (prefix_cases _ _ _ _ E) as [(z & -> & Hz)|(z & Hz & -> & Hzne)].
    + destruct (IH z unread (eq_sym Hz)) as (fs1 & fs2 & rest & -> & -> & Hp). exists (f :: fs1), fs2, rest. split; [reflexivity|]. split; [rewrite mlines_cons, <- !app_assoc; reflexivity|exact Hp].
    + exists [], (f :: fs), data. split; [reflexivity|]. split; [reflexivity|]. right. exists f, fs. split; [reflexivity|]. rewrite Hz, app_length. destruct z; [congruence|]. cbn [length]. lia.
Qed.

Lemma split_unique c a : forall a' b b' x x', a ++ b = a' ++ b' -> mlines c a ++ x = mlines c a' ++ x' -> part c b x -> part c b' x' -> a = a' /\ b = b' /\ x = x'.
Proof.
  assert (K : forall f (l : list mixed) b x x', x = (mlines c (f :: l)) ++ x' -> part c (f :: b) x -> False).
  { intros f l b x x' -> [E|(g & gs & E & H)].
    - rewrite mlines_cons in E. apply app_eq_nil in E as [E _]. apply app_eq_nil in E as [E _]. apply app_eq_nil in E as [_ E]. discriminate.
    - injection E as <- _. rewrite mlines_cons, !app_length in H. cbn [length] in H. lia. }
  induction a as [|f a IH]; intros [|f' a'] b b' x x' E Em H H'.
  - auto.
  - exfalso. cbn [app] in E. subst b. cbn [mlines map concat app] in Em. exact (K f' a' (a' ++ b') x x' Em H).
  - exfalso. cbn [app] in E. subst b'. cbn [mlines map concat app] in Em. symmetry in Em. exact (K f a (a ++ b) x' x Em H').
  - cbn [app] in E. injection E as <- E. rewrite !mlines_cons, <- !(app_assoc (mixed_wire f ++ [c])) in Em. apply app_inv_head in Em. destruct (IH a' b b' x x' E Em H H') as (-> & -> & ->). auto.
Qed.

Lemma clear_so_far_now uni order t c ms reads : delim t = Some c -> Forall (framable uni order c) ms -> (clear_so_far uni t ms reads <-> clear_now c (map (mixed_line uni) ms) [] reads).
Proof.
  intros Hd H. split.
  - intros Hc before f after rest E Hne Er. apply map_eq_app in E as (b1 & b2 & Ems & Eb & Ea). apply map_eq_cons in Ea as (m & a & -> & Em & Eaf). subst ms before f.
    assert (Hm : Forall (framable uni order c) (b1 ++ [m])) by (apply Forall_app in H as [Hb Hm]; apply Forall_app; split; [exact Hb|constructor; [exact (Forall_inv Hm)|constructor]]).
    assert (Ef : concat (map (encode t) (encodings uni (b1 ++ [m]))) = mlines c (map (mixed_line uni) b1 ++ [mixed_line uni m])).
    { rewrite (framable_encodings uni order c _ Hm), (mixed_frames t c _ Hd), map_app. reflexivity. }
    destruct (Hc b1 m a rest eq_refl) as (n & past & En & Hp).
    + intros E. apply Hne. apply Forall_app in Hm as [_ Hm]. apply Forall_inv in Hm. apply (els_none uni order m (proj1 Hm)). exact E.
    + rewrite Ef. exact Er.
    + exists n, past. rewrite Ef in En. auto.
  - intros Hc before m after rest -> Hne Er.
    assert (Hm : Forall (framable uni order c) (before ++ [m])) by (apply Forall_app in H as [Hb Hm]; apply Forall_app; split; [exact Hb|constructor; [exact (Forall_inv Hm)|constructor]]).
    assert (Ef : concat (map (encode t) (encodings uni (before ++ [m]))) = mlines c (map (mixed_line uni) before ++ [mixed_line uni m])).
    { rewrite (framable_encodings uni order c _ Hm), (mixed_frames t c _ Hd), map_app. reflexivity. }
    rewrite Ef in *. apply (Hc (map (mixed_line uni) before) (mixed_line uni m) (map (mixed_line uni) after) rest); [rewrite map_app; reflexivity| |exact Er].
    intros E. apply Hne. apply Forall_app in Hm as [_ Hm]. apply Forall_inv in Hm. apply (els_none uni order m (proj1 Hm)). exact E.
Qed.

(** At every moment: the reading goroutine has delivered exactly the messages of which the whole frame
    has been read, and does not crash, if and only if no read stopped just after the structured data
    of a message and some read stopped at a suitable place after each message with structured data
    read in full. *)
Theorem C84_data_at_every_moment : forall uni order t c ms sacts ss cap racts rs i unread,
  delimiter t = Some c -> Forall (framable uni order c) ms ->
  srun sender_init sacts = Some ss -> sends sacts = critical_sections uni t ms -> lost sacts = 0%nat ->
  rrun t cap receiver_init racts = Some rs -> stream (reads_of i racts) ++ unread = on 0 (s_log ss) -> ended (reads_of i racts) = false ->
  exists ms1 ms2 rest, ms = ms1 ++ ms2 /\
    stream (reads_of i racts) = concat (map (encode t) (encodings uni ms1)) ++ rest /\
    (rest = [] \/ exists m ms' enc, ms2 = m :: ms' /\ message_marshal uni m = Val (inr enc) /\ (length rest < length (encode t enc))%nat) /\
    (Forall2 (decoded uni) ms1 (delivered_on i rs) /\ ~ decoder_panics t i racts <->
     ~ cut_after_data uni t ms (reads_of i racts) /\ clear_so_far uni t ms (reads_of i racts)) /\
    (~ cut_after_data uni t ms (reads_of i racts) -> clear_so_far uni t ms (reads_of i racts) -> Forall2 (delivered_as uni order) ms1 (delivered_on i rs)).
Proof.
  intros uni order t c ms sacts ss cap racts rs i unread Hc Hms Hs Hm Hl Hr Hst He.
  pose proof Hc as Hd. rewrite delimiter_delim in Hd. pose proof (framable_mixed uni order c ms Hms) as Hok.
  pose proof (C49_stream _ _ _ _ _ Hs Hm) as E. rewrite (never_lost _ _ Hs Hl), <- Hst, <- app_assoc in E.
  rewrite (framable_encodings uni order c ms Hms), (mixed_frames t c _ Hd) in E.
  destruct (split_frames c _ _ _ E) as (fs1 & fs2 & rest & Ef & Ed & Hp).
  pose proof Ef as Ef0. apply map_eq_app in Ef as (ms1 & ms2 & -> & <- & <-). pose proof Hms as Hms0. apply Forall_app in Hms as [Hm1 Hm2].
  assert (Hdel : delivered_on i rs = o_sent (tok_run t tok_init (reads_of i racts))) by (unfold delivered_on; exact (C40_in_order _ _ _ _ Hr i)).
  assert (Hiff : Forall2 (decoded uni) ms1 (delivered_on i rs) /\ ~ decoder_panics t i racts <->
     ~ cut_after_data uni t (ms1 ++ ms2) (reads_of i racts) /\ clear_so_far uni t (ms1 ++ ms2) (reads_of i racts)).
  { rewrite Hdel, (cut_stops_data uni order t c _ _ Hms0), (mixed_stops t c _ _ Hd), (clear_so_far_now uni order t c _ _ Hd Hms0), (decoded_given uni order c _ _ Hm1). unfold decoder_panics.
    assert (Hrun : clear_now c (map (mixed_line uni) (ms1 ++ ms2)) [] (reads_of i racts) -> _) by
      exact (fun K => run_mixed_unread t c (reads_of i racts) tok_init _ _ Hd Hok E (or_introl eq_refl) (mixed_start t c _ Hd Hok) K He).
    split.
    - intros [H2 Hnp].
      assert (Hsent : o_sent (tok_run t tok_init (reads_of i racts)) = map mixed_pair (map (mixed_line uni) ms1)).
      { pose proof (framable_mixed uni order c ms1 Hm1) as Ho. clear -H2 Ho. revert H2. generalize (o_sent (tok_run t tok_init (reads_of i racts))). induction Ho as [|f fs Hf Hok IH]; intros sent H2; inversion H2; subst; [reflexivity|].
        cbn [map]. f_equal; [eapply given_pair; eassumption|auto]. }
      assert (Hclr : clear_now c (map (mixed_line uni) (ms1 ++ ms2)) [] (reads_of i racts)).
      { intros before f after rest' Eb Hne Er. cbn [app] in Er.
        assert (Hin : exists v, map (mixed_line uni) ms1 = before ++ f :: v).
        { rewrite Ef0 in Eb. destruct (app_split_list _ _ _ _ _ Eb) as [(u & ->)|(v & Ev)]; [exfalso|exists v; exact Ev].
          rewrite <- app_assoc in Eb. apply app_inv_head in Eb. rewrite Ed, <- app_assoc, mlines_app, <- app_assoc in Er. apply app_inv_head in Er.
          destruct (split_frames c u (mlines c u) []) as (u1 & u2 & r0 & _ & _ & _); [apply app_nil_r|].
          destruct Hp as [Hp|(g & gs & Eg & Hlt)].
          - rewrite Er, mlines_app, mlines_one in Hp. apply (f_equal (@length N)) in Hp. rewrite !app_length in Hp. cbn [length] in Hp. lia.
          - rewrite Er in Hlt. rewrite Eg in Eb. destruct u as [|u0 u]; cbn [app] in Eb; injection Eb as -> _; cbn [app] in Hlt;
              [rewrite mlines_one in Hlt|rewrite mlines_cons in Hlt]; rewrite !app_length in Hlt; cbn [length] in Hlt; lia. }
        destruct Hin as [v Ev]. rewrite Ev, map_app in Hsent. cbn [map] in Hsent.
        destruct (run_trace t c (reads_of i racts) tok_init _ _ _ Hd Hsent) as (n & d & rest0 & eof & En & Hpp). cbn [fst snd mixed_pair] in Hpp.
        rewrite Eb in Hok. apply Forall_app in Hok as [_ Hok]. inversion Hok as [|? ? Hf _]; subst.
        destruct (mixed_delivered_safe t c f d rest0 eof Hd Hf Hne Hpp) as [-> Hsafe]. exists n, rest0. split; [|exact Hsafe].
        rewrite mlines_app, mlines_one, <- !app_assoc. cbn [t_pending tok_init app] in *. rewrite En. unfold consumed, mlines. rewrite map_map. reflexivity. }
      split; [|exact Hclr]. destruct (Hrun Hclr) as [(_ & H)|(H & _)]; [contradiction|]. intros [n Hn]. exact (H n Hn).
    - intros [Hno Hclr]. destruct (Hrun Hclr) as [(H & _)|(_ & g1 & g2 & st & Eg & Hsent & Hn & Hpend & Hpart)]; [contradiction|].
      split; [|rewrite Hn; discriminate]. cbn [t_pending tok_init app] in Hpend.
      destruct (split_unique c (map (mixed_line uni) ms1) g1 (map (mixed_line uni) ms2) g2 rest (t_pending st)) as (<- & _ & _); [rewrite <- Ef0; exact Eg|rewrite <- Ed; exact Hpend|exact Hp|exact Hpart|].
      rewrite Hsent. pose proof (framable_mixed uni order c ms1 Hm1) as Ho. clear -Ho. induction Ho as [|f fs Hf Hok IH]; [constructor|]. cbn [map]. constructor; [exact (mixed_decodes c f Hf)|exact IH]. }
  exists ms1, ms2, rest. split; [reflexivity|]. split; [rewrite (framable_encodings uni order c _ Hm1), (mixed_frames t c _ Hd); exact Ed|].
  split; [|split; [exact Hiff|]].
  - destruct Hp as [->|(f & fs' & E2 & Hlt)]; [left; reflexivity|right]. apply map_eq_cons in E2 as (m & ms' & -> & <- & <-). apply Forall_inv in Hm2.
    exists m, ms', (mixed_wire (mixed_line uni m)). split; [reflexivity|]. split; [exact (framable_marshal uni order c m Hm2)|].
    destruct t; try discriminate; injection Hd as <-; exact Hlt.
  - intros H1 H2. apply (decoded_delivered uni order c); [exact Hm1|]. exact (proj1 (proj2 Hiff (conj H1 H2))).
Qed.
Print Assumptions C84_data_at_every_moment.

(** Non-vacuity: the same messages and the beginning of the same receiver as in C84_data_nonvacuous; it
    has read the first message and nine bytes of the second: one message has been received. *)
Definition data_receiver_begin : list raction := firstn 8 data_receiver.

Example C84_data_moment_nonvacuous : exists ss rs unread,
  Forall (framable uni0 (fun _ => []) 10%N) dmsgs /\ srun sender_init data_sender = Some ss /\ rrun TLFEnded 1 receiver_init data_receiver_begin = Some rs /\
  stream (reads_of 0 data_receiver_begin) ++ unread = on 0 (s_log ss) /\ unread <> [] /\ ended (reads_of 0 data_receiver_begin) = false /\
  ~ cut_after_data uni0 TLFEnded dmsgs (reads_of 0 data_receiver_begin) /\ clear_so_far uni0 TLFEnded dmsgs (reads_of 0 data_receiver_begin) /\ length (delivered_on 0 rs) = 1%nat.
Proof.
  destruct C84_data_nonvacuous as (ss & rs0 & Hf & _ & Hs & Hsd & Hl & _ & _ & _ & Hst & _ & Hnc & _).
  destruct (rrun TLFEnded 1 receiver_init data_receiver_begin) as [rs|] eqn:Er; [|vm_compute in Er; discriminate].
  exists ss, rs, (skipn 9 (lframe lmsg2) ++ lframe msg2). split; [exact Hf|]. split; [exact Hs|]. split; [reflexivity|].
  split; [rewrite <- Hst; vm_compute; reflexivity|]. split; [vm_compute; discriminate|]. split; [reflexivity|]. split; [|split].
  - intros (n & before & m & after & k & enc & E1 & E2 & E3 & E4). apply Hnc. exists (Nat.min n 2), before, m, after, k, enc. split; [exact E1|]. split; [exact E2|]. split; [exact E3|].
    rewrite <- E4. f_equal. replace (reads_of 0 data_receiver_begin) with (firstn 2 (reads_of 0 data_receiver)) by reflexivity. rewrite firstn_firstn. reflexivity.
  - intros before m after rest E Hne Er'. unfold dmsgs in E. destruct before as [|b0 [|b1 [|b2 before]]].
    + injection E as <- <-. exists 2%nat, (firstn 9 (lframe lmsg2)). split; [vm_compute; reflexivity|]. split; [apply bracket_safe_none; vm_compute; intros H; repeat (destruct H as [H|H]; [discriminate|]); exact H|].
      intros [x Ex]. apply (f_equal (fun l => last l 0%N)) in Ex. rewrite last_last in Ex. vm_compute in Ex. discriminate.
    + injection E as <- <- <-. exfalso. apply Hne. reflexivity.
    + injection E as <- <- <- <-. exfalso. apply (f_equal (@length N)) in Er'. rewrite app_length in Er'.
      assert (K : (length (stream (reads_of 0 data_receiver_begin)) < length (concat (map (encode TLFEnded) (encodings uni0 ([msg2; lmsg2] ++ [msg2])))))%nat) by (vm_compute; lia). lia.
    + exfalso. apply (f_equal (@length _)) in E. cbn in E. rewrite app_length in E. cbn in E. lia.
  - vm_compute in Er. injection Er as <-. vm_compute. reflexivity.
Qed.
