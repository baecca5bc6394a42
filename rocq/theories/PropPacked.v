(** PropPacked.v -- a Receiver reading datagrams of any size (C38, C85), and the end of the goroutine
    of a connection in a Receiver (C37). *)
From Verif Require Import Base BaseFacts Spec MTime MTransport MSData MMessage MParse MTokenize MReceiver MSender MDatagram
  LTime LTokenize LParse LRound LTransport PropMessage PropParse PropTransport LLines PropLines PropReceiver PropDatagram LReceiver PropRecvSys LSender PropSender PropSender2 PropSender3
  PropEndToEnd PropEndToEnd2 PropEndToEnd3.

(** ** C37 in a Receiver *)
Lemma cont_no_eof t reads : forall st st', o_next (tok_run t st reads) = TCont st' -> forall chunk, ~ In (chunk, Some REOF) reads.
Proof.
  induction reads as [|[c e] more IH]; intros st st' H chunk; [intros []|]. cbn [tok_run] in H.
  destruct (step_spec t st c e) as (pieces & left & _ & _ & Hs). cbv zeta in Hs. destruct (o_next (tok_step t st c e)) as [st1|l|] eqn:En; [|rewrite En in H; discriminate..].
  cbn [o_next] in H. destruct Hs as [Hs _]. intros [E|E]; [injection E as _ ->; discriminate|exact (IH _ _ H chunk E)].
Qed.

Lemma return_eof t reads : forall st l, o_next (tok_run t st reads) = TReturn l -> exists chunk, In (chunk, Some REOF) reads.
Proof.
  induction reads as [|[c e] more IH]; intros st l H; [discriminate|]. cbn [tok_run] in H.
  destruct (step_spec t st c e) as (pieces & left & _ & _ & Hs). cbv zeta in Hs. destruct (o_next (tok_step t st c e)) as [st1|l'|] eqn:En.
  - cbn [o_next] in H. destruct (IH _ _ H) as [chunk Hi]. exists chunk. right. exact Hi.
  - destruct Hs as [Hs _]. exists c. left. destruct e as [[|e]|]; try discriminate. reflexivity.
  - rewrite En in H. discriminate.
Qed.

(** Once a Read of a connection has reported EOF, that connection is never read again: *)
Theorem C37_never_read_again : forall t cap acts s more s' i chunk,
  rrun t cap receiver_init acts = Some s -> In (chunk, Some REOF) (reads_of i acts) -> rrun t cap s more = Some s' -> reads_of i more = [].
Proof.
  intros t cap acts s more. revert acts s. induction more as [|a more IH]; intros acts s s' i chunk H Hi Hm; [reflexivity|]. cbn [rrun] in Hm.
  destruct (rstep t cap s a) as [s1|] eqn:Es; [|discriminate]. assert (H1 : rrun t cap receiver_init (acts ++ [a]) = Some s1) by (rewrite rrun_app, H; cbn [rrun]; rewrite Es; reflexivity).
  assert (Ha : reads_of i [a] = []).
  { destruct a; try reflexivity. unfold reads_of. cbn [flat_map]. destruct (Nat.eqb_spec i0 i) as [->|]; [|reflexivity]. exfalso.
    unfold rstep in Es. destruct (r_crashed s); [discriminate|]. pose proof (inv_conn _ _ _ _ (run_inv _ _ _ _ H) i) as Ic.
    destruct (nth_error (r_conns s) i) as [[|st| |]|]; try discriminate. destruct Ic as [Ic _]. exact (cont_no_eof _ _ _ _ Ic _ Hi). }
  change (a :: more) with ([a] ++ more). rewrite reads_of_app, Ha. cbn [app]. eapply IH; [exact H1| |exact Hm]. rewrite reads_of_app. apply in_or_app. left. exact Hi.
Qed.
Print Assumptions C37_never_read_again.

(** a goroutine that has ended had reported EOF (no other end without a crash of the process); *)
Theorem C37_ended_by_eof : forall t cap acts s i, rrun t cap receiver_init acts = Some s -> nth_error (r_conns s) i = Some KDone ->
  exists chunk, In (chunk, Some REOF) (reads_of i acts).
Proof.
  intros t cap acts s i H Hk. pose proof (inv_conn _ _ _ _ (run_inv _ _ _ _ H) i) as Ic. rewrite Hk in Ic. destruct Ic as ([l Hn] & _). exact (return_eof _ _ _ _ Hn).
Qed.
Print Assumptions C37_ended_by_eof.

(** and a goroutine that has sent everything it had read either ends at its next step, after EOF, or
    is then reading: a Read of as many bytes as there is room for may return. *)
Theorem C37_next_turn : forall t cap acts s i errs pairs next, rrun t cap receiver_init acts = Some s -> r_crashed s = false -> ~ decoder_panics t i acts ->
  nth_error (r_conns s) i = Some (KEmit errs pairs next) -> unsent_pairs i s = [] -> unsent_errors i s = [] ->
  exists s', rstep t cap s (KNextTurn i) = Some s' /\
    ((exists chunk, In (chunk, Some REOF) (reads_of i acts)) -> nth_error (r_conns s') i = Some KDone) /\
    ((forall chunk, ~ In (chunk, Some REOF) (reads_of i acts)) -> exists st, nth_error (r_conns s') i = Some (KRead st) /\ o_next (tok_run t tok_init (reads_of i acts)) = TCont st).
Proof.
  intros t cap acts s i errs pairs next H Hc Hd Hk Hp He. unfold unsent_pairs, unsent_errors in *. rewrite Hk in Hp, He. subst pairs errs.
  pose proof (inv_conn _ _ _ _ (run_inv _ _ _ _ H) i) as Ic. rewrite Hk in Ic. destruct Ic as (Hn & _). unfold decoder_panics in Hd. rewrite Hn in Hd.
  unfold rstep. rewrite Hc, Hk. destruct next as [st|l|]; [| |congruence]; eexists; (split; [reflexivity|]); (split; [intros [chunk Hi]|intros Hno]).
  - exfalso. exact (cont_no_eof _ _ _ _ Hn _ Hi).
  - exists st. split; [cbn [with_conn r_conns]; eapply nth_set_same; exact Hk|exact Hn].
  - cbn [with_conn r_conns]. eapply nth_set_same. exact Hk.
  - exfalso. destruct (return_eof _ _ _ _ Hn) as [chunk Hi]. exact (Hno _ Hi).
Qed.
Print Assumptions C37_next_turn.

(** ** C38: what the goroutine of a connection gets from the datagram adapter *)
Theorem C38_receiver_stream : forall t n st buff queue,
  exists rest left, stream (gram_reads t n st buff queue) ++ rest = buff ++ payload queue /\ flat_map (fun r => match snd r with Some e => [e] | None => [] end) (gram_reads t n st buff queue) ++ left = failures queue.
Proof.
  intros t n. induction n as [|n IH]; intros st buff queue; [exists (buff ++ payload queue), (failures queue); split; reflexivity|]. cbn [gram_reads].
  destruct (fake_read buff queue (Z.to_nat (tok_room st))) as [[[[[d s] err] b] q]|] eqn:E; [|exists (buff ++ payload queue), (failures queue); split; reflexivity].
  destruct (fake_read_step _ _ _ _ _ _ _ _ E) as (H1 & H2 & _). unfold stream. cbn [map concat fst snd flat_map].
  assert (K : exists rest left, stream (match o_next (tok_step t st d err) with TCont st' => gram_reads t n st' b q | _ => [] end) ++ rest = b ++ payload q /\
     flat_map (fun r => match snd r with Some e => [e] | None => [] end) (match o_next (tok_step t st d err) with TCont st' => gram_reads t n st' b q | _ => [] end) ++ left = failures q).
  { destruct (o_next (tok_step t st d err)) as [st'| |]; [apply IH|exists (b ++ payload q), (failures q); split; reflexivity..]. }
  destruct K as (rest & left & K1 & K2). exists rest, left. rewrite <- !app_assoc. fold (stream (match o_next (tok_step t st d err) with TCont st' => gram_reads t n st' b q | _ => [] end)).
  rewrite K1, K2. split; assumption.
Qed.
Print Assumptions C38_receiver_stream.

Lemma plain_tail r q : plain_errors (r :: q) -> plain_errors q.
Proof. intros H. inversion H; assumption. Qed.

Lemma plain_not_ended t n : forall st buff queue, plain_errors queue -> ended (gram_reads t n st buff queue) = false.
Proof.
  induction n as [|n IH]; intros st buff queue Hp; [reflexivity|]. cbn [gram_reads]. destruct (fake_read buff queue (Z.to_nat (tok_room st))) as [[[[[d s] err] b] q]|] eqn:E; [|reflexivity].
  destruct (fake_read_step _ _ _ _ _ _ _ _ E) as (_ & _ & _ & _ & _ & _ & Hq1 & Hq2).
  assert (Hpq : plain_errors q /\ is_eof err = false).
  { destruct buff as [|x buff].
    - destruct (Hq2 eq_refl) as [r ->]. split; [exact (plain_tail _ _ Hp)|]. unfold fake_read in E. inversion Hp as [|? ? Hr _]; subst. destruct r as [dg|cnt e].
      + destruct (Z.to_nat (tok_room st) <=? length dg)%nat; injection E; intros; subst err; reflexivity.
      + injection E as <- <- <- <-. destruct cnt; [|contradiction]. destruct e; [contradiction|reflexivity].
    - rewrite <- (Hq1 ltac:(discriminate)). split; [exact Hp|]. unfold fake_read in E. destruct (Z.to_nat (tok_room st) <=? length (x :: buff))%nat; injection E; intros; subst err; reflexivity. }
  destruct Hpq as [Hpq He]. unfold ended. cbn [existsb snd]. rewrite He. cbn [orb]. destruct (o_next (tok_step t st d err)); [exact (IH _ _ _ Hpq)|reflexivity..].
Qed.

(** ** C85: RFC 5425 frames in datagrams of any size *)
(** The frames may be cut into datagrams, or packed several in one, in any way; at every moment what was
    delivered is what the first payloads decode to, in order. *)
Theorem C85_any_packing : forall ds queue n cap racts rs i, Forall fits ds -> payload queue = concat (map (encode TRFC5425) ds) -> plain_errors queue ->
  rrun TRFC5425 cap receiver_init racts = Some rs -> reads_of i racts = gram_reads TRFC5425 n tok_init [] queue ->
  exists ds1 ds2, ds = ds1 ++ ds2 /\ Forall2 (fun d p => parse d None true = Val (fst p, None, snd p)) ds1 (delivered_on i rs) /\ ~ decoder_panics TRFC5425 i racts.
Proof.
  intros ds queue n cap racts rs i Hf Hq Hp Hr Hreads. destruct (C38_receiver_stream TRFC5425 n tok_init [] queue) as (rest & left & Hs & _). cbn [app] in Hs. rewrite Hq in Hs.
  destruct (C30_at_every_moment ds _ rest Hf Hs (plain_not_ended _ _ _ _ _ Hp)) as (ds1 & ds2 & st & E1 & E2 & _ & E3 & _).
  exists ds1, ds2. split; [exact E1|]. unfold delivered_on, decoder_panics. rewrite (C40_in_order _ _ _ _ Hr i), Hreads. split; [exact E2|]. rewrite E3. discriminate.
Qed.
Print Assumptions C85_any_packing.

Definition to_read (buff : bytes) (queue : list dgram_res) : nat := length (buff ++ payload queue) + length queue.

Lemma fake_read_less buff queue n d s err b q : (0 < n)%nat -> fake_read buff queue n = Some (d, s, err, b, q) -> (to_read b q < to_read buff queue)%nat.
Proof.
  intros Hn H. destruct (fake_read_step _ _ _ _ _ _ _ _ H) as (H1 & _ & _ & _ & _ & Hb & Hq1 & Hq2). apply (f_equal (@length N)) in H1. rewrite (app_length d) in H1.
  unfold to_read in *. destruct buff as [|x buff]; [destruct (Hq2 eq_refl) as [r ->]; cbn [length]; set (k := length (b ++ payload q)) in *; set (k' := length ([] ++ payload (r :: q))) in *; lia|].
  assert (Hd : (0 < length d)%nat); [|rewrite <- (Hq1 ltac:(discriminate)) in *; lia]. destruct Hb as [->|[Hb _]]; [|lia].
  rewrite <- (Hq1 ltac:(discriminate)), (app_length (x :: buff)) in H1. cbn [app length] in H1. lia.
Qed.

Lemma all_read ds n : forall prev st buff queue, Forall (fun d => (length (encode TRFC5425 d) <= 500)%nat) ds -> plain_errors queue ->
  o_next (tok_run TRFC5425 tok_init prev) = TCont st -> ended prev = false -> stream prev ++ buff ++ payload queue = concat (map (encode TRFC5425) ds) ->
  (to_read buff queue <= n)%nat -> stream (gram_reads TRFC5425 n st buff queue) = buff ++ payload queue.
Proof.
  induction n as [|n IH]; intros prev st buff queue H500 Hp Hn He Hs Hle.
  - unfold to_read in Hle. assert (E : buff ++ payload queue = []) by (destruct (buff ++ payload queue); [reflexivity|cbn in Hle; lia]). rewrite E. reflexivity.
  - destruct (list_eq_dec N.eq_dec (buff ++ payload queue) []) as [E|Hne].
    { destruct (C38_receiver_stream TRFC5425 (S n) st buff queue) as (rest & left & Hst & _). rewrite E in *. apply app_eq_nil in Hst as [Hst _]. exact Hst. }
    destruct (C31_progress ds prev _ H500 Hs He Hne) as (st' & Hn' & Hroom). rewrite Hn in Hn'. injection Hn' as <-.
    cbn [gram_reads]. destruct (fake_read buff queue (Z.to_nat (tok_room st))) as [[[[[d s] err] b] q]|] eqn:E.
    2:{ apply (proj1 (C38_progress buff queue (Z.to_nat (tok_room st)))) in E as [-> ->]. exfalso. apply Hne. reflexivity. }
    assert (Hroom' : (0 < Z.to_nat (tok_room st))%nat) by lia. pose proof (fake_read_less _ _ _ _ _ _ _ _ Hroom' E) as Hless. destruct (fake_read_step _ _ _ _ _ _ _ _ E) as (H1 & _).
    pose proof (plain_not_ended TRFC5425 1 st buff queue Hp) as Hend. cbn [gram_reads] in Hend. rewrite E in Hend. unfold ended in Hend. cbn [existsb snd] in Hend. apply orb_false_iff in Hend as [Hend _].
    assert (Hs' : stream (prev ++ [(d, err)]) ++ b ++ payload q = concat (map (encode TRFC5425) ds)).
    { unfold stream in *. rewrite map_app, concat_app. cbn [map fst concat]. rewrite app_nil_r, <- app_assoc, H1. exact Hs. }
    assert (He' : ended (prev ++ [(d, err)]) = false) by (unfold ended in *; rewrite existsb_app, He; cbn [existsb snd]; rewrite Hend; reflexivity).
    assert (Hf : Forall fits ds) by (apply (Forall_impl fits) with (2 := H500); unfold fits; intros; lia).
    destruct (C30_at_every_moment ds _ _ Hf Hs' He') as (_ & _ & st' & _ & _ & _ & Hn' & _).
    pose proof Hn' as Hstep. rewrite tok_run_snoc, Hn in Hstep. cbn [o_next] in Hstep. rewrite Hstep. unfold stream. cbn [map fst concat]. fold (stream (gram_reads TRFC5425 n st' b q)).
    rewrite (IH (prev ++ [(d, err)]) st' b q H500); try assumption; [|lia].
    destruct (fake_read_step _ _ _ _ _ _ _ _ E) as (_ & _ & _ & _ & _ & _ & Hq1 & Hq2). destruct buff as [|x buff]; [destruct (Hq2 eq_refl) as [r ->]; exact (plain_tail _ _ Hp)|].
    rewrite <- (Hq1 ltac:(discriminate)). exact Hp.
Qed.

(** With frames of at most 500 bytes the goroutine is never stuck: after enough reads (at most one per
    byte and one per datagram or error) everything is delivered. *)
Theorem C85_packed_delivery : forall ds queue n cap racts rs i, Forall (fun d => (20 <= length (encode TRFC5425 d) <= 500)%nat) ds ->
  payload queue = concat (map (encode TRFC5425) ds) -> plain_errors queue -> (length (payload queue) + length queue <= n)%nat ->
  rrun TRFC5425 cap receiver_init racts = Some rs -> reads_of i racts = gram_reads TRFC5425 n tok_init [] queue ->
  Forall2 (fun d p => parse d None true = Val (fst p, None, snd p)) ds (delivered_on i rs).
Proof.
  intros ds queue n cap racts rs i H500 Hq Hp Hle Hr Hreads.
  assert (H5 : Forall (fun d => (length (encode TRFC5425 d) <= 500)%nat) ds) by (eapply Forall_impl; [|exact H500]; cbn; intros; lia).
  pose proof (all_read ds n [] tok_init [] queue H5 Hp eq_refl eq_refl Hq ltac:(unfold to_read; cbn [app]; exact Hle)) as Hst. cbn [app] in Hst. rewrite Hq in Hst.
  assert (Hf : Forall fits ds) by (apply (Forall_impl fits) with (2 := H5); unfold fits; intros; lia).
  destruct (C30_at_every_moment ds _ [] Hf ltac:(rewrite app_nil_r; exact Hst) (plain_not_ended _ _ _ _ _ Hp)) as (ds1 & ds2 & st & -> & E2 & _ & E3 & E4 & E5).
  rewrite app_nil_r in E4.
  assert (ds2 = []) as ->.
  { apply Forall_app in H500 as [_ H2]. destruct ds2 as [|d ds2]; [reflexivity|]. exfalso. inversion H2 as [|? ? Hd _]; subst. rewrite E4 in E5. cbn [map concat] in E5. rewrite app_length in E5.
    destruct E5 as [E5|(d' & ds' & E & E5)]; [lia|]. injection E as <- <-. lia. }
  rewrite app_nil_r in *. unfold delivered_on. rewrite (C40_in_order _ _ _ _ Hr i), Hreads. exact E2.
Qed.
Print Assumptions C85_packed_delivery.

(** Non-vacuity: two frames in one datagram, the second cut in two. *)
Definition pk1 := bs "<34>1 - h a p m - one".
Definition pk2 := bs "<34>1 - h b p m - two".
Definition pk_queue : list dgram_res := [Datagram (encode TRFC5425 pk1 ++ firstn 9 (encode TRFC5425 pk2)); DgramErr 0 (ROther 8); Datagram []; Datagram (skipn 9 (encode TRFC5425 pk2))].
Definition pk_run : list raction :=
  [RStepSelect; RAccepted true None; KReadReturns 0 (encode TRFC5425 pk1 ++ firstn 9 (encode TRFC5425 pk2)) None; KPush 0; KNextTurn 0; KReadReturns 0 [] (Some (ROther 8)); KPushErr 0; KNextTurn 0;
   KReadReturns 0 [] None; KNextTurn 0; RReceive; KReadReturns 0 (skipn 9 (encode TRFC5425 pk2)) None; KPush 0; RReceive].
Example C85_packed_nonvacuous : exists rs, Forall (fun d => (20 <= length (encode TRFC5425 d) <= 500)%nat) [pk1; pk2] /\ payload pk_queue = concat (map (encode TRFC5425) [pk1; pk2]) /\ plain_errors pk_queue /\
  rrun TRFC5425 1 receiver_init pk_run = Some rs /\ reads_of 0 pk_run = gram_reads TRFC5425 (length (payload pk_queue) + length pk_queue) tok_init [] pk_queue /\ map (fun p => imm_text (fst p)) (delivered_on 0 rs) = [Val (bs "one"); Val (bs "two")].
Proof.
  eexists. split; [repeat constructor; vm_compute; lia|]. split; [vm_compute; reflexivity|]. split; [repeat constructor|]. split; [vm_compute; reflexivity|]. split; vm_compute; reflexivity.
Qed.

(** ... and a connection whose second read reports EOF *)
Definition eof_run : list raction := [RStepSelect; RAccepted true None; KReadReturns 0 (pk1 ++ [LF]) None; KPush 0; KNextTurn 0; KReadReturns 0 [] (Some REOF)].
Example C37_receiver_nonvacuous : exists s s', rrun TLFEnded 1 receiver_init eof_run = Some s /\ r_crashed s = false /\ In ([], Some REOF) (reads_of 0 eof_run) /\ ~ decoder_panics TLFEnded 0 eof_run /\
  (exists errs pairs next, nth_error (r_conns s) 0 = Some (KEmit errs pairs next)) /\ unsent_pairs 0 s = [] /\ unsent_errors 0 s = [] /\ rrun TLFEnded 1 s [KNextTurn 0; RReceive] = Some s' /\ nth_error (r_conns s') 0 = Some KDone.
Proof.
  eexists. eexists. split; [vm_compute; reflexivity|]. split; [reflexivity|]. split; [right; left; reflexivity|]. split; [vm_compute; discriminate|].
  split; [do 3 eexists; vm_compute; reflexivity|]. split; [reflexivity|]. split; [reflexivity|]. split; vm_compute; reflexivity.
Qed.
