(** PropReceiver.v -- properties C30..C32 of one connection of a receiver using RFC 5425 frames
    (listener.go).  [tok_run t tok_init reads] is what the connection's goroutine does when the
    successive reads of the connection return [reads] (bytes and error). *)
From Verif Require Import Base BaseFacts Spec MPriority MHelpers MText MTime MSData MMessage MTransport MParse MTokenize.
From Verif Require Import LPriority LText LAtoi LTime LSData LParse LTransport LRound LResult PropParse PropTransport LTokenize.
From Coq Require Import ZifyBool ZifyNat ZifyN.

Lemma forall2_nil {A B} (R : A -> B -> Prop) l : Forall2 R [] l -> l = [].
Proof. intros H. inversion H. reflexivity. Qed.

Definition last_frame_20 (ds : list bytes) : Prop := ds = [] \/ (20 <= length (encode TRFC5425 (last ds [])))%nat.

Lemma cut_nothing ds : last_frame_20 ds -> cut ds (frames ds) -> ds = [].
Proof.
  intros [->|H20] Hc; [reflexivity|]. destruct ds as [|d ds]; [reflexivity|]. exfalso.
  destruct (exists_last (l := d :: ds)) as (l & x & E); [discriminate|].
  rewrite E, last_last in H20. rewrite E, frames_app in Hc.
  assert (Hfx : frames [x] = encode TRFC5425 x) by (unfold frames; cbn [map concat]; apply app_nil_r).
  rewrite Hfx in Hc. destruct Hc as [Hc|(d' & ds' & Ed & Hc)].
  - rewrite app_length in Hc. lia.
  - rewrite <- E in Ed. injection Ed as <- <-.
    assert (Hl : frames l ++ encode TRFC5425 x = encode TRFC5425 d ++ frames ds).
    { rewrite <- Hfx, <- frames_app, <- E. reflexivity. }
    rewrite Hl, app_length in Hc. lia.
Qed.

Lemma last_frame_app a b : last_frame_20 (a ++ b) -> last_frame_20 b.
Proof.
  intros [H|H].
  - apply app_eq_nil in H as [_ ->]. left; reflexivity.
  - destruct b as [|x b]; [left; reflexivity|]. right.
    destruct (exists_last (l := x :: b)) as (l & y & E); [discriminate|]. rewrite E in *. rewrite app_assoc, last_last in H. rewrite last_last. exact H.
Qed.

(** ** C30 *)
(** At every moment: the pairs sent are what the first payloads decode to, in order, and what is
    kept is the beginning of what follows, without a complete frame (unless it is below 20 bytes) *)
Theorem C30_at_every_moment : forall ds reads unread, Forall fits ds -> stream reads ++ unread = concat (map (encode TRFC5425) ds) ->
  ended reads = false ->
  exists ds1 ds2 st, ds = ds1 ++ ds2 /\
    Forall2 (fun d p => parse d None true = Val (fst p, None, snd p)) ds1 (o_sent (tok_run TRFC5425 tok_init reads)) /\
    o_errs (tok_run TRFC5425 tok_init reads) = read_errors reads /\
    o_next (tok_run TRFC5425 tok_init reads) = TCont st /\
    t_pending st ++ unread = concat (map (encode TRFC5425) ds2) /\
    ((length (t_pending st) < 20)%nat \/ exists d ds', ds2 = d :: ds' /\ (length (t_pending st) < length (encode TRFC5425 d))%nat).
Proof.
  intros ds reads unread Hf Hs He.
  assert (Hl : eof_last reads).
  { clear -He. induction reads as [|[c e] more IH]; cbn in *; [exact I|]. apply orb_false_iff in He as [H1 H2]. split; [congruence|auto]. }
  destruct (run_frames reads tok_init ds unread Hf Hs) as (ds1 & ds2 & left & Hd & Hlu & Hc & Hdec & Hx & Hn); [constructor 1; cbn; lia|exact Hl|congruence|].
  rewrite He in Hn. destruct Hn as [b Hn]. exists ds1, ds2, {| t_pending := left; t_buflen := b |}. auto 10.
Qed.
Print Assumptions C30_at_every_moment.

(** Once the whole stream is read, whatever the cuts: one pair per payload, in order *)
Theorem C30_reassembly : forall ds reads, Forall fits ds ->
  (ds = [] \/ (20 <= length (encode TRFC5425 (last ds [])))%nat) ->
  stream reads = concat (map (encode TRFC5425) ds) -> eof_last reads ->
  Forall2 (fun d p => parse d None true = Val (fst p, None, snd p)) ds (o_sent (tok_run TRFC5425 tok_init reads)) /\
  o_errs (tok_run TRFC5425 tok_init reads) = read_errors reads /\
  if ended reads then o_next (tok_run TRFC5425 tok_init reads) = TReturn []
  else exists st, o_next (tok_run TRFC5425 tok_init reads) = TCont st /\ t_pending st = [].
Proof.
  intros ds reads Hf H20 Hs He.
  destruct (run_frames reads tok_init ds [] Hf) as (ds1 & ds2 & left & -> & Hlu & Hc & Hdec & Hx & Hn);
    [cbn [t_pending tok_init app]; rewrite app_nil_r; exact Hs|constructor 1; cbn; lia|exact He|reflexivity|].
  rewrite app_nil_r in Hlu. subst left. apply last_frame_app in H20. apply (cut_nothing ds2 H20) in Hc. subst ds2. rewrite app_nil_r.
  split; [exact Hdec|]. split; [exact Hx|]. destruct (ended reads); [exact Hn|]. destruct Hn as [b Hn]. eexists. split; [exact Hn|reflexivity].
Qed.
Print Assumptions C30_reassembly.

(** Without the bound on the last frame the claim is false: a last frame below 20 bytes is lost *)
Theorem C30_short_last_frame_refuted : let d := bs "<1>1 - h a p m -" in
  (exists m, parse d None true = Val (m, None, None)) /\ length (encode TRFC5425 d) = 19%nat /\
  o_sent (tok_run TRFC5425 tok_init [(encode TRFC5425 d, None); ([], Some REOF)]) = [] /\
  o_next (tok_run TRFC5425 tok_init [(encode TRFC5425 d, None); ([], Some REOF)]) = TReturn (encode TRFC5425 d).
Proof. cbv zeta. split; [eexists; vm_compute; reflexivity|]. repeat split; vm_compute; reflexivity. Qed.
Print Assumptions C30_short_last_frame_refuted.

Definition ex_payloads : list bytes := [bs "<1>1 - h a p m - hello"; bs "<2>1 - h a p m [x@1 k=""v""] te]xt"; bs "<3>1 - h a p m -"; bs "<4>1 - h a p m - bye"].
Definition ex_reads : list (bytes * option read_err) :=
  [(bs "2", None); (bs "2 <1>1 - h a p m - hel", Some (ROther 7)); ([], None); (bs "lo32 <2>1 - h a p m [x@1 k=""v""] te]xt16 <3>1 - h a p m -20", None);
   (bs " <4>1 - h a p m - bye", Some REOF)].

Example C30_nonvacuous : Forall fits ex_payloads /\ last_frame_20 ex_payloads /\ stream ex_reads = concat (map (encode TRFC5425) ex_payloads) /\
  eof_last ex_reads /\ reads_ok TRFC5425 tok_init ex_reads /\ length (o_sent (tok_run TRFC5425 tok_init ex_reads)) = 4%nat.
Proof.
  split; [repeat (constructor; [apply small_fits; vm_compute; lia|]); constructor|]. split; [right; vm_compute; lia|].
  split; [vm_compute; reflexivity|]. split; [repeat split; intros; discriminate|].
  split; [|vm_compute; reflexivity].
  repeat (split; [vm_compute; discriminate|]; match goal with |- context [o_next ?x] => let v := eval vm_compute in (o_next x) in replace (o_next x) with v by (vm_compute; reflexivity) end; cbn iota).
  reflexivity.
Qed.

(** ** C31 *)
Lemma step_buflen t st chunk err st' : (500 <= t_buflen st)%Z -> o_next (tok_step t st chunk err) = TCont st' -> (500 <= t_buflen st')%Z.
Proof.
  intros Hb H. destruct chunk as [|c chunk].
  - rewrite step_empty in H. cbn in H. destruct (is_eof err); [discriminate|]. injection H as <-. exact Hb.
  - destruct (tok_inner (S (length (t_pending st ++ c :: chunk))) t (is_eof err) (t_pending st ++ c :: chunk)) as [sent r] eqn:Ei.
    destruct (step_nonempty t st (c :: chunk) err sent r ltac:(discriminate) Ei) as [_ H2]. rewrite H2 in H.
    destruct r; try discriminate. destruct (is_eof err); [discriminate|]. injection H as <-. cbn [t_buflen]. cbv zeta.
    match goal with |- context [if ?b then _ else _] => destruct b eqn:E end; unfold read_buffer; lia.
Qed.

Lemma run_buflen t reads : forall st st', (500 <= t_buflen st)%Z -> o_next (tok_run t st reads) = TCont st' -> (500 <= t_buflen st')%Z.
Proof.
  induction reads as [|[chunk err] more IH]; intros st st' Hb H; cbn [tok_run] in H.
  - cbn in H. injection H as <-. exact Hb.
  - destruct (o_next (tok_step t st chunk err)) as [s1| |] eqn:En; [|rewrite En in H; discriminate..].
    cbn [o_next] in H. apply (IH s1); [|exact H]. exact (step_buflen _ _ _ _ _ Hb En).
Qed.

(** Frames of at most 500 bytes: until the whole stream is read, each read is given room for at
    least one byte, whatever was returned by the reads before *)
Theorem C31_progress : forall ds reads unread, Forall (fun d => (length (encode TRFC5425 d) <= 500)%nat) ds ->
  stream reads ++ unread = concat (map (encode TRFC5425) ds) -> ended reads = false -> unread <> [] ->
  exists st, o_next (tok_run TRFC5425 tok_init reads) = TCont st /\ (0 < tok_room st)%Z.
Proof.
  intros ds reads unread H500 Hs He Hu.
  assert (Hf : Forall fits ds) by (apply (Forall_impl fits) with (2 := H500); unfold fits; intros; lia).
  destruct (C30_at_every_moment ds reads unread Hf Hs He) as (ds1 & ds2 & st & -> & _ & _ & Hn & Hp & Hc). exists st. split; [exact Hn|].
  assert (Hb : (500 <= t_buflen st)%Z) by (refine (run_buflen _ reads tok_init _ _ Hn); cbn; unfold read_buffer; lia).
  unfold tok_room. destruct Hc as [Hc|(d & ds' & -> & Hc)]; [lia|].
  rewrite Forall_app in H500. destruct H500 as [_ H500]. inversion H500; subst. lia.
Qed.
Print Assumptions C31_progress.

Lemma window_kept more : forall st d ds' unread, fits d -> Forall fits ds' -> cut (d :: ds') (t_pending st) ->
  t_pending st ++ stream more ++ unread = frames (d :: ds') -> reads_ok TRFC5425 st more -> eof_last more -> (ended more = true -> unread = []) ->
  (500 <= t_buflen st < Z.of_nat (length (encode TRFC5425 d)))%Z -> o_sent (tok_run TRFC5425 st more) = [].
Proof.
  induction more as [|[chunk err] more IH]; intros st d ds' unread Hd Hds Hc Hs Hok Hl He Hw; [reflexivity|].
  cbn [tok_run]. cbn [reads_ok] in Hok. destruct Hok as [Hroom Hok]. cbn [eof_last] in Hl. destruct Hl as [Hl1 Hl2].
  unfold stream in Hs. cbn [map fst concat] in Hs. rewrite <- app_assoc in Hs. fold (stream more) in Hs.
  destruct (step_frames st chunk err (d :: ds') (stream more ++ unread)) as (ds1 & ds2 & left & E & Hdat & Hlu & Hcut & Hdec & Hn); auto.
  { intros Ee. rewrite (Hl1 Ee). cbn. apply He. cbn. rewrite Ee. reflexivity. }
  unfold tok_room in Hroom.
  assert (Hlen : (length (t_pending st ++ chunk) < length (encode TRFC5425 d))%nat) by (rewrite app_length; lia).
  assert (ds1 = []).
  { destruct ds1 as [|x ds1]; [reflexivity|]. injection E as <- _. rewrite Hdat in Hlen. unfold frames in Hlen. cbn [map concat] in Hlen.
    rewrite !app_length in Hlen. lia. }
  subst ds1. cbn [app] in E. subst ds2. assert (Hsent : [] = o_sent (tok_step TRFC5425 st chunk err)) by (inversion Hdec; reflexivity). cbn [frames map concat app] in Hdat. rewrite Hn in *.
  destruct (is_eof err) eqn:Ee; [symmetry; exact Hsent|]. cbn [o_sent]. rewrite <- Hsent. cbn [app].
  apply (IH _ d ds' unread); auto.
  - intros Ex. apply He. cbn. rewrite Ee. exact Ex.
  - cbn [t_buflen frames map concat length]. destruct (length chunk =? 0)%nat; [exact Hw|].
    replace (t_buflen st - Z.of_nat 0)%Z with (t_buflen st) by lia. destruct (Z.ltb_spec (t_buflen st) 500); lia.
Qed.

(** Exactly which frames get through: [st] being where the goroutine is with the beginning of the
    frame of [d] kept, something more is ever delivered if and only if the frame fits in the
    buffer's current length *)
Theorem C31_frame_received_iff : forall d ds' st, fits d -> Forall fits ds' -> (20 <= length (encode TRFC5425 d))%nat ->
  (500 <= t_buflen st)%Z -> (length (t_pending st) < length (encode TRFC5425 d))%nat ->
  (exists z, encode TRFC5425 d = t_pending st ++ z) ->
  ((exists more unread, reads_ok TRFC5425 st more /\ eof_last more /\ (ended more = true -> unread = []) /\
      t_pending st ++ stream more ++ unread = concat (map (encode TRFC5425) (d :: ds')) /\
      o_sent (tok_run TRFC5425 st more) <> [])
   <-> (Z.of_nat (length (encode TRFC5425 d)) <= t_buflen st)%Z).
Proof.
  intros d ds' st Hd Hds H20 Hb Hp [z Hz]. split.
  - intros (more & unread & Hok & Hl & He & Hs & Hne). destruct (Z_le_gt_dec (Z.of_nat (length (encode TRFC5425 d))) (t_buflen st)) as [H|H]; [exact H|].
    exfalso. apply Hne. apply (window_kept more st d ds' unread); auto; [|lia]. right. exists d, ds'. auto.
  - intros Hle. exists [(z, None)], (frames ds').
    assert (Hc : cut (d :: ds') (t_pending st)) by (right; exists d, ds'; auto).
    assert (Hs : t_pending st ++ z ++ frames ds' = frames (d :: ds')).
    { unfold frames. cbn [map concat]. rewrite Hz, <- app_assoc. reflexivity. }
    split; [|split; [|split; [|split]]].
    + cbn [reads_ok]. split; [unfold tok_room; rewrite Hz, app_length in Hle; lia|].
      destruct (step_frames st z None (d :: ds') (frames ds')) as (ds1 & ds2 & left & _ & _ & _ & _ & _ & ->);
        [constructor; assumption|exact Hs|exact Hc|discriminate|exact I].
    + split; [discriminate|exact I].
    + discriminate.
    + unfold stream. cbn [map fst concat]. rewrite app_nil_r. exact Hs.
    + destruct (step_frames st z None (d :: ds') (frames ds')) as (ds1 & ds2 & left & E & Hdat & Hlu & Hcut & Hdec & Hn); auto; [discriminate|].
      cbn [tok_run]. rewrite Hn. cbn [is_eof o_sent]. rewrite app_nil_r. destruct ds1 as [|x ds1]; [|inversion Hdec; discriminate].
      exfalso. cbn [app frames map concat] in E, Hdat. subst ds2. rewrite <- Hz in Hdat. subst left. destruct Hcut as [Hc'|(d' & ds'' & E & Hc')]; [lia|].
      injection E as <- <-. lia.
Qed.
Print Assumptions C31_frame_received_iff.

(** 500 is the exact bound: for every frame that is longer there are messages (in frames below 500
    bytes) after which it is never received: every later read is given an empty slice *)
Definition filler (n : nat) : bytes := bs "<1>1 - h a p m - " ++ repeat 120%N n.
Definition fillers : list bytes := repeat (filler 304) 200 ++ [filler 16].

Lemma fillers_length : Z.of_nat (length (concat (map (encode TRFC5425) fillers))) = 65036%Z.
Proof.
  unfold fillers. rewrite map_app, concat_app, app_length. cbn [map concat]. rewrite app_nil_r.
  replace (length (encode TRFC5425 (filler 16))) with 36%nat by (vm_compute; reflexivity).
  assert (H : forall n, length (concat (map (encode TRFC5425) (repeat (filler 304) n))) = (n * 325)%nat).
  { induction n as [|n IH]; [reflexivity|]. cbn [repeat map concat]. rewrite app_length, IH.
    replace (length (encode TRFC5425 (filler 304))) with 325%nat by (vm_compute; reflexivity). lia. }
  rewrite H. lia.
Qed.

Theorem C31_bound_exact : forall d, fits d -> (500 < length (encode TRFC5425 d))%nat ->
  let reads := [(concat (map (encode TRFC5425) fillers), None); (firstn 500 (encode TRFC5425 d), None)] in
  reads_ok TRFC5425 tok_init reads /\
  exists st, o_next (tok_run TRFC5425 tok_init reads) = TCont st /\ tok_room st = 0%Z /\
    Forall2 (fun d p => parse d None true = Val (fst p, None, snd p)) fillers (o_sent (tok_run TRFC5425 tok_init reads)) /\
    forall more, reads_ok TRFC5425 st more ->
      o_sent (tok_run TRFC5425 st more) = [] /\ (ended more = false -> o_next (tok_run TRFC5425 st more) = TCont st).
Proof.
  intros d Hd Hlong reads. subst reads. set (fl := concat (map (encode TRFC5425) fillers)).
  assert (Hff : Forall fits fillers).
  { unfold fillers. apply Forall_app. split; [|repeat constructor; apply small_fits; vm_compute; lia].
    apply Forall_forall. intros x Hx. apply repeat_spec in Hx as ->. apply small_fits. vm_compute. lia. }
  assert (Hlf : last_frame_20 fillers) by (right; unfold fillers; rewrite last_last; vm_compute; lia).
  assert (Hne : fl <> []).
  { intros E. pose proof fillers_length as H. fold fl in H. rewrite E in H. cbn in H. lia. }
  set (st2 := {| t_pending := firstn 500 (encode TRFC5425 d); t_buflen := 500 |}).
  (* first read *)
  assert (H1 : Forall2 decodes fillers (o_sent (tok_step TRFC5425 tok_init fl None)) /\
               o_next (tok_step TRFC5425 tok_init fl None) = TCont {| t_pending := []; t_buflen := 500 |}).
  { destruct (step_frames tok_init fl None fillers []) as (ds1 & ds2 & left & E & Hdat & Hlu & Hcut & Hdec & Hn);
      [exact Hff|rewrite app_nil_r; reflexivity|constructor 1; cbn; lia|discriminate|].
    rewrite app_nil_r in Hlu. subst left. rewrite E in Hlf. apply last_frame_app in Hlf. apply (cut_nothing _ Hlf) in Hcut. subst ds2.
    rewrite app_nil_r in E. subst ds1. split; [exact Hdec|]. rewrite Hn. cbn [is_eof frames map concat]. cbv zeta.
    pose proof fillers_length as HL. fold (frames fillers) in HL. rewrite HL. cbn [t_buflen tok_init]. unfold read_buffer.
    destruct (Nat.eqb_spec (length fl) 0) as [E0|_]; [apply length_zero_iff_nil in E0; contradiction|reflexivity]. }
  destruct H1 as [Hd1 Hn1].
  set (st1 := {| t_pending := []; t_buflen := 500 |}) in *.
  assert (Hl5 : length (firstn 500 (encode TRFC5425 d)) = 500%nat) by (rewrite firstn_length; lia).
  assert (H2 : o_sent (tok_step TRFC5425 st1 (firstn 500 (encode TRFC5425 d)) None) = [] /\
               o_next (tok_step TRFC5425 st1 (firstn 500 (encode TRFC5425 d)) None) = TCont st2).
  { destruct (step_frames st1 (firstn 500 (encode TRFC5425 d)) None [d] (skipn 500 (encode TRFC5425 d)))
      as (ds1 & ds2 & left & E & Hdat & Hlu & Hcut & Hdec & Hn);
      [repeat constructor; exact Hd|cbn [t_pending st1 app]; rewrite firstn_skipn; unfold frames; cbn; rewrite app_nil_r; reflexivity|constructor 1; cbn; lia|discriminate|].
    assert (ds1 = []).
    { destruct ds1 as [|x ds1]; [reflexivity|]. injection E as <- _. exfalso. cbn [t_pending st1 app] in Hdat.
      assert (Hx : length (firstn 500 (encode TRFC5425 d)) = length (frames (d :: ds1) ++ left)) by (rewrite Hdat; reflexivity).
      unfold frames in Hx. cbn [map concat] in Hx. rewrite !app_length in Hx. lia. }
    subst ds1. cbn [frames map concat app t_pending st1] in Hdat. apply forall2_nil in Hdec. split; [exact Hdec|]. rewrite Hn. cbn [is_eof]. cbv zeta.
    rewrite Hl5. change (500 =? 0)%nat with false. cbv iota. unfold st2. rewrite Hdat. reflexivity. }
  destruct H2 as [Hd2 Hn2].
  split.
  - cbn [reads_ok]. assert (R0 : tok_room tok_init = 65536%Z) by reflexivity. assert (R1 : tok_room st1 = 500%Z) by reflexivity.
    pose proof fillers_length as HL. fold fl in HL.
    split; [rewrite R0, HL; lia|]. rewrite Hn1. split; [rewrite Hl5, R1; lia|]. rewrite Hn2. exact I.
  - exists st2. assert (Hroom : tok_room st2 = 0%Z) by (unfold tok_room, st2; cbn [t_pending t_buflen]; rewrite Hl5; lia).
    cbn [tok_run]. rewrite Hn1. cbn [o_next o_sent]. rewrite Hn2. cbn [o_next o_sent]. rewrite Hd2, !app_nil_r.
    split; [reflexivity|]. split; [exact Hroom|]. split; [exact Hd1|].
    clear -Hroom. induction more as [|[c e] more IH]; intros Hok; [split; reflexivity|].
    cbn [reads_ok] in Hok. destruct Hok as [Hc Hok]. rewrite Hroom in Hc. destruct c as [|x c]; [|cbn in Hc; lia].
    cbn [tok_run]. rewrite step_empty in *. cbn [o_next o_sent] in *. cbn [ended existsb snd]. destruct (is_eof e) eqn:Ee.
    + split; [reflexivity|cbn [orb]; discriminate].
    + cbn [o_sent o_next orb app]. apply (IH Hok).
Qed.
Print Assumptions C31_bound_exact.

Example C31_nonvacuous : fits (filler 500) /\ (500 < length (encode TRFC5425 (filler 500)))%nat /\
  (exists m, parse (filler 500) None true = Val (m, None, None)) /\
  Forall (fun d => (length (encode TRFC5425 d) <= 500)%nat) ex_payloads.
Proof.
  split; [apply small_fits; vm_compute; lia|]. split; [vm_compute; lia|]. split; [eexists; vm_compute; reflexivity|].
  repeat (constructor; [vm_compute; lia|]). constructor.
Qed.

(** ** C32 *)
Theorem C32_malformed_isolated : forall before bad after reads e, Forall fits (before ++ bad :: after) ->
  parse bad None true = Val (zero_immutable, None, Some e) ->
  (20 <= length (encode TRFC5425 (last (bad :: after) [])))%nat ->
  stream reads = concat (map (encode TRFC5425) (before ++ bad :: after)) -> eof_last reads ->
  exists s1 s2, o_sent (tok_run TRFC5425 tok_init reads) = s1 ++ (zero_immutable, Some e) :: s2 /\
    Forall2 (fun d p => parse d None true = Val (fst p, None, snd p)) before s1 /\
    Forall2 (fun d p => parse d None true = Val (fst p, None, snd p)) after s2 /\
    o_next (tok_run TRFC5425 tok_init reads) <> TCrash.
Proof.
  intros before bad after reads e Hf Hbad H20 Hs He.
  destruct (C30_reassembly (before ++ bad :: after) reads Hf) as (Hd & _ & Hn); [|exact Hs|exact He|].
  { right. destruct (exists_last (l := bad :: after)) as (l & y & E); [discriminate|]. rewrite E in *. rewrite app_assoc, last_last in *. exact H20. }
  apply Forall2_app_inv_l in Hd as (s1 & s2 & H1 & H2 & ->). inversion H2 as [|? [m e'] ? s2' Hb H2']; subst.
  cbn [fst snd] in Hb. rewrite Hbad in Hb. injection Hb as <- <-. exists s1, s2'. split; [reflexivity|]. split; [exact H1|]. split; [exact H2'|].
  destruct (ended reads); [rewrite Hn; discriminate|]. destruct Hn as (st & Hn & _). rewrite Hn. discriminate.
Qed.
Print Assumptions C32_malformed_isolated.

Example C32_nonvacuous : exists e, parse (bs "not a message") None true = Val (zero_immutable, None, Some e) /\
  o_sent (tok_run TRFC5425 tok_init [(bs "22 <1>1 - h a p m - hello13 not a mes", None); (bs "sage20 <4>1 - h a p m - bye", None)]) <> [] /\
  stream [(bs "22 <1>1 - h a p m - hello13 not a mes", None); (bs "sage20 <4>1 - h a p m - bye", None)] =
    concat (map (encode TRFC5425) [bs "<1>1 - h a p m - hello"; bs "not a message"; bs "<4>1 - h a p m - bye"]).
Proof. eexists. split; [vm_compute; reflexivity|]. split; [vm_compute; discriminate|vm_compute; reflexivity]. Qed.
