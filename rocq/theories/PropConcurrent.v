(** PropConcurrent.v -- C97: from any number of goroutines calling Send on one Sender, at the granularity
    of memory accesses (MSenderFine.v), to the program that receives: what arrives is an interleaving of
    the messages of the goroutines. *)
From Verif Require Import Base BaseFacts Spec MTime MTransport MSData MMessage MParse MTokenize MReceiver MSender MSenderFine
  LTime LTokenize LParse LRound LTransport PropMessage PropParse PropTransport LLines PropLines PropReceiver PropMixed LReceiver PropRecvSys LSender PropSender PropSender2 PropSender3 PropEndToEnd PropEndToEnd2 PropEndToEnd3 PropEndToEnd4 PropRecvLive PropFine.

(** ** specification *)
(** successful Connects so far; bytes accepted by connections so far *)
Definition connections (acts : list faction) : nat := length (filter (fun a => match a with FConnected None => true | _ => false end) acts).
Definition net_bytes (acts : list faction) : nat := list_sum (map (fun a => match a with FNet k _ => k | _ => 0%nat end) acts).
(** every write that fails stops between two frames *)
Definition clean_net (acts : list faction) : Prop :=
  forall p k e q, acts = p ++ FNet k (WErr e) :: q -> boundary (map snd (stored (fun _ => []) p)) (net_bytes p + k).
(** every call of Send has stored its frame *)
Definition all_sent (s : fstate) : Prop := forall i, in_send (f_users s i) = [].

(** ** the atomic execution behind an execution *)
Fixpoint coarse (s : fstate) (acts : list faction) : list saction :=
  match acts with
  | [] => []
  | a :: more => step_of s a ++ match fstep s a with Some s' => coarse s' more | None => [] end
  end.

Lemma coarse_run acts : forall cur s s', finv cur s -> frun s acts = Some s' ->
  srun (abs s) (coarse s acts) = Some (abs s') /\ sends (coarse s acts) = map snd (stored cur acts) /\
  connects (coarse s acts) = connections acts /\ accepted_bytes (coarse s acts) = net_bytes acts.
Proof.
  induction acts as [|a acts IH]; intros cur s s' I H; [injection H as <-; repeat split; reflexivity|]. cbn [frun] in H. cbn [coarse].
  destruct (fstep s a) as [s1|] eqn:Es; [|discriminate]. destruct (sim_step cur s a s1 I Es) as (R1 & S1).
  destruct (IH _ _ _ (step_finv _ _ _ _ I Es) H) as (R2 & S2 & C2 & B2). rewrite srun_app, R1. split; [exact R2|]. split; [|split].
  - unfold sends in *. rewrite flat_map_app, S1, S2. destruct a; reflexivity.
  - unfold connects in *. rewrite filter_app, app_length, C2. unfold connections.
    destruct a; cbn [step_of filter length]; try reflexivity; [destruct (f_users s i); reflexivity|destruct err; reflexivity|destruct (f_queue s); reflexivity].
  - unfold accepted_bytes, net_bytes in *. rewrite map_app, list_sum_app, B2.
    destruct a; cbn [step_of map list_sum fold_right]; try reflexivity; [destruct (f_users s i); reflexivity|destruct (f_queue s); reflexivity|unfold list_sum; cbn [fold_right]; lia].
Qed.

Lemma coarse_split acts : forall s p k r q, coarse s acts = p ++ AWrite k r :: q -> exists fp fq, acts = fp ++ FNet k r :: fq /\ p = coarse s fp.
Proof.
  induction acts as [|a acts IH]; intros s p k r q H; [destruct p; discriminate|]. cbn [coarse] in H.
  assert (Hrest : forall p', match fstep s a with Some s' => coarse s' acts | None => [] end = p' ++ AWrite k r :: q ->
     exists fp fq, a :: acts = fp ++ FNet k r :: fq /\ step_of s a ++ p' = coarse s fp).
  { intros p' H'. destruct (fstep s a) as [s1|] eqn:Es; [|destruct p'; discriminate]. destruct (IH _ _ _ _ _ H') as (fp & fq & -> & ->).
    exists (a :: fp), fq. split; [reflexivity|]. cbn [coarse]. rewrite Es. reflexivity. }
  assert (Hl : step_of s a = [] \/ exists x, step_of s a = [x] /\ (x = AWrite k r -> a = FNet k r)).
  { destruct a; cbn [step_of]; try (left; reflexivity); try (right; eexists; split; [reflexivity|intros E; congruence]).
    - destruct (f_users s i); try (left; reflexivity). right; eexists; split; [reflexivity|intros E; congruence].
    - destruct (f_queue s); [right; eexists; split; [reflexivity|intros E; congruence]|left; reflexivity]. }
  destruct Hl as [Hl|(x & Hl & Hx)].
  - rewrite Hl in H. destruct (Hrest p H) as (fp & fq & E1 & E2). rewrite Hl in E2. eauto.
  - rewrite Hl in H. destruct p as [|y p]; cbn [app] in H.
    + assert (Ex : x = AWrite k r) by congruence. exists [], acts. rewrite (Hx Ex). split; reflexivity.
    + assert (Ex : x = y) by congruence. assert (H' : match fstep s a with Some s' => coarse s' acts | None => [] end = p ++ AWrite k r :: q) by congruence.
      destruct (Hrest p H') as (fp & fq & E1 & E2). exists fp, fq. split; [exact E1|]. rewrite <- E2, Hl, Ex. reflexivity.
Qed.

Lemma frun_prefix a b s s' : frun s (a ++ b) = Some s' -> exists s1, frun s a = Some s1.
Proof. rewrite frun_app. destruct (frun s a); [eauto|discriminate]. Qed.

Lemma clean_coarse acts s : frun fine_init acts = Some s -> clean_net acts -> clean_failures (coarse fine_init acts).
Proof.
  intros H Hc p k e q E. destruct (coarse_split _ _ _ _ _ _ E) as (fp & fq & -> & ->). destruct (frun_prefix _ _ _ _ H) as (s1 & H1).
  destruct (coarse_run fp _ _ _ init_finv H1) as (_ & -> & _ & ->). exact (Hc _ _ _ _ eq_refl).
Qed.

(** ** interleavings *)
Lemma stored_by_from i l : stored_by i l = from Nat.eq_dec i l.
Proof. unfold stored_by, from. f_equal. apply filter_ext. intros x. destruct (Nat.eq_dec (fst x) i) as [->|n]; [apply Nat.eqb_refl|apply Nat.eqb_neq; exact n]. Qed.

Lemma tag_messages (P : message -> Prop) uni t (l : list (nat * bytes)) : (forall m, P m -> exists enc, message_marshal uni m = Val (inr enc)) ->
  forall ms : nat -> list message, (forall j, Forall P (ms j)) -> (forall j, from Nat.eq_dec j l = map (encode t) (encodings uni (ms j))) ->
  exists tagged : list (nat * message), (forall j, from Nat.eq_dec j tagged = ms j) /\ map snd l = map (encode t) (encodings uni (map snd tagged)) /\ Forall P (map snd tagged).
Proof.
  intros HP. induction l as [|[j b] l IH]; intros ms Hms Ha.
  - exists []. split; [|split; [reflexivity|constructor]]. intros j. specialize (Ha j). specialize (Hms j). cbn in Ha. destruct (ms j) as [|m r]; [reflexivity|].
    apply Forall_inv in Hms. destruct (HP m Hms) as (enc & Em). unfold encodings in Ha. cbn [flat_map] in Ha. rewrite Em in Ha. discriminate.
  - pose proof (Ha j) as Hj. change ((j, b) :: l) with ([(j, b)] ++ l) in Hj. rewrite from_app, from_one_same in Hj. cbn [app] in Hj.
    destruct (ms j) as [|m r] eqn:Ej; [discriminate|]. pose proof (Hms j) as Hmj. rewrite Ej in Hmj. inversion Hmj as [|? ? Hm Hl]; subst.
    destruct (HP m Hm) as (enc & Em). unfold encodings in Hj. cbn [flat_map] in Hj. rewrite Em in Hj. cbn [app map] in Hj. injection Hj as -> Hj.
    destruct (IH (fun k => if Nat.eq_dec k j then r else ms k)) as (tagged & T1 & T2 & T3).
    + intros k. destruct (Nat.eq_dec k j); [exact Hl|apply Hms].
    + intros k. destruct (Nat.eq_dec k j) as [->|n]; [exact Hj|]. rewrite <- (Ha k). change ((j, encode t enc) :: l) with ([(j, encode t enc)] ++ l).
      rewrite from_app, from_one_other by congruence. reflexivity.
    + exists ((j, m) :: tagged). split; [|split].
      * intros k. change ((j, m) :: tagged) with ([(j, m)] ++ tagged). rewrite from_app. specialize (T1 k). destruct (Nat.eq_dec k j) as [->|n].
        -- rewrite from_one_same, T1, Ej. reflexivity.
        -- rewrite from_one_other by congruence. exact T1.
      * cbn [map snd]. rewrite T2. unfold encodings. cbn [flat_map]. rewrite Em. reflexivity.
      * cbn [map snd]. constructor; assumption.
Qed.

(** An execution in which every Send has stored its frame and the queue is empty is one of the atomic Sender with an
    interleaving of the messages. *)
Lemma interleaved (P : message -> Prop) uni t ms facts fs : (forall m, P m -> exists enc, message_marshal uni m = Val (inr enc)) ->
  frun fine_init facts = Some fs -> (forall i, calls i facts = critical_sections uni t (ms i)) -> all_sent fs -> f_queue fs = [] -> clean_net facts -> (forall i, Forall P (ms i)) ->
  exists tagged sacts, (forall i, from Nat.eq_dec i tagged = ms i) /\ Forall P (map snd tagged) /\
    srun sender_init sacts = Some (abs fs) /\ sends sacts = critical_sections uni t (map snd tagged) /\ clean_failures sacts /\ connects sacts = connections facts /\ s_queue (abs fs) = [].
Proof.
  intros HP H Hc Ha Hq Hcl Hms. destruct (tag_messages P uni t (stored (fun _ => []) facts) HP ms Hms) as (tagged & T1 & T2 & T3).
  { intros i. rewrite <- stored_by_from. pose proof (C95_each_send_once _ _ i H) as E. rewrite (Ha i), app_nil_r in E. rewrite <- E, Hc. apply sections_encodings. }
  destruct (coarse_run facts _ _ _ init_finv H) as (R & S & C & _). rewrite abs_init in R.
  exists tagged, (coarse fine_init facts). split; [exact T1|]. split; [exact T3|]. split; [exact R|]. split; [rewrite S, T2; symmetry; apply sections_encodings|].
  split; [exact (clean_coarse _ _ H Hcl)|]. split; [exact C|].
  destruct (reach_finv _ _ H) as (cur & [_ _ _ Ip _]). unfold abs, abs_queue. cbn [s_queue]. destruct (f_pc fs); try exact Hq. rewrite Ip, Hq. destruct k; reflexivity.
Qed.

(** ** C97 *)
(** RFC 5425 framing: the messages received, connection after connection, are an interleaving of the
    messages of the goroutines: each once, whole, in the order of its goroutine, nothing else. *)
Theorem C97_delivery : forall uni order (ms : nat -> list message) facts fs cap racts rs rc,
  frun fine_init facts = Some fs -> (forall i, calls i facts = critical_sections uni TRFC5425 (ms i)) -> all_sent fs -> f_queue fs = [] -> clean_net facts ->
  rrun TRFC5425 cap receiver_init racts = Some rs ->
  (forall c, (c < connections facts)%nat -> stream (reads_of (rc c) racts) = on c (f_log fs) /\ eof_last (reads_of (rc c) racts)) ->
  (forall i, Forall fits (encodings uni (ms i)) /\ Forall (deliverable uni order) (ms i)) ->
  exists tagged : list (nat * message), (forall i, from Nat.eq_dec i tagged = ms i) /\
    Forall2 (delivered_as uni order) (map snd tagged) (concat (map (fun c => delivered_on (rc c) rs) (seq 0 (connections facts)))).
Proof.
  intros uni order ms facts fs cap racts rs rc H Hc Ha Hq Hcl Hr Hrc Hms.
  destruct (interleaved (fun m => deliverable uni order m /\ Forall fits (encodings uni [m])) uni TRFC5425 ms facts fs) as (tagged & sacts & T1 & T3 & R & S & C & N & Q); try assumption.
  { intros m [Hm _]. exact (deliverable_marshal uni order m Hm). }
  { intros i. destruct (Hms i) as [Hf Hd]. clear -Hf Hd. induction Hd as [|m l Hm Hd IH]; [constructor|].
    assert (E : encodings uni (m :: l) = encodings uni [m] ++ encodings uni l) by (rewrite <- encodings_app; reflexivity). rewrite E in Hf. apply Forall_app in Hf as [H1 H2]. constructor; auto. }
  exists tagged. split; [exact T1|]. rewrite <- N. apply (C76_reconnections uni order (map snd tagged) sacts (abs fs) cap racts rs rc); try assumption.
  - rewrite N. exact Hrc.
  - clear -T3. induction T3 as [|m l [_ Hm] _ IH]; [constructor|]. assert (E : encodings uni (m :: l) = encodings uni [m] ++ encodings uni l) by (rewrite <- encodings_app; reflexivity).
    rewrite E. apply Forall_app. auto.
  - eapply Forall_impl; [|exact T3]. intros m [Hm _]. exact Hm.
Qed.
Print Assumptions C97_delivery.

(** LF and NUL framing: an interleaving, cut into one group per connection, each received whole unless a read
    stops just after the '-' of one of its frames. *)
Theorem C97_lines : forall uni order t c (ms : nat -> list message) facts fs cap racts rs rc, delimiter t = Some c ->
  frun fine_init facts = Some fs -> (forall i, calls i facts = critical_sections uni t (ms i)) -> all_sent fs -> f_queue fs = [] -> clean_net facts ->
  rrun t cap receiver_init racts = Some rs ->
  (forall k, (k < connections facts)%nat -> stream (reads_of (rc k) racts) = on k (f_log fs) /\ eof_last (reads_of (rc k) racts)) ->
  (forall i, Forall (plain c) (ms i)) ->
  exists (tagged : list (nat * message)) mss, (forall i, from Nat.eq_dec i tagged = ms i) /\ map snd tagged = concat mss /\
    Forall2 (fun k g => on k (f_log fs) = concat (map (encode t) (encodings uni g)) /\
      (decoder_panics t (rc k) racts <-> cut_at_dash uni t g (reads_of (rc k) racts)) /\
      (~ cut_at_dash uni t g (reads_of (rc k) racts) -> Forall2 (delivered_as uni order) g (delivered_on (rc k) rs))) (seq 0 (connections facts)) mss.
Proof.
  intros uni order t c ms facts fs cap racts rs rc Ht H Hc Ha Hq Hcl Hr Hrc Hms.
  destruct (interleaved (plain c) uni t ms facts fs) as (tagged & sacts & T1 & T3 & R & S & C & N & Q); try assumption.
  { intros m Hm. eexists. exact (plain_marshal uni c m Hm). }
  destruct (C84_groups uni order t c (map snd tagged) sacts (abs fs) cap racts rs rc Ht T3 R S C Q Hr) as (mss & E & F); [rewrite N; exact Hrc|].
  exists tagged, mss. split; [exact T1|]. split; [exact E|]. rewrite N in F. exact F.
Qed.
Print Assumptions C97_lines.

(** ** after End *)
Lemma consume_nonempty q : forall n, Forall (fun f : bytes => f <> []) q -> Forall (fun f => f <> []) (consume n q).
Proof.
  induction q as [|b q IH]; intros n H; [destruct n; constructor|]. inversion H; subst. cbn [consume].
  destruct (n <? length b)%nat eqn:E; [|apply IH; assumption]. apply Nat.ltb_lt in E. constructor; [|assumption].
  intros K. apply (f_equal (@length N)) in K. rewrite skipn_length in K. cbn [length] in K. lia.
Qed.

Lemma queue_nonempty acts s : srun sender_init acts = Some s -> Forall (fun f => f <> []) (sends acts) -> Forall (fun f => f <> []) (s_queue s).
Proof.
  revert s. induction acts as [|a acts IH] using rev_ind; intros s H Hs; [injection H as <-; constructor|].
  rewrite srun_app in H. destruct (srun sender_init acts) as [s1|] eqn:E1; [|discriminate]. cbn [srun] in H. destruct (sstep s1 a) as [s2|] eqn:E2; [|discriminate]. injection H as <-.
  unfold sends in Hs. rewrite flat_map_app in Hs. apply Forall_app in Hs as [Hs1 Hs2]. specialize (IH _ eq_refl Hs1). unfold sstep in E2. destruct (s_crashed s1); [discriminate|].
  assert (Hm : forall pc, s_queue (set_pc s1 pc) = s_queue s1) by reflexivity.
  destruct a; repeat match type of E2 with
    | (match ?x with _ => _ end) = Some _ => destruct x eqn:?; try discriminate
    | (if ?x then _ else _) = Some _ => destruct x eqn:?; try discriminate
    end; try (injection E2 as <-; cbn [s_queue set_pc scrash]; try exact IH; fail).
  all: try (cbv zeta in E2; repeat match type of E2 with (if ?x then _ else _) = Some _ => destruct x eqn:?; try discriminate end; injection E2 as <-; cbn [s_queue scrash]).
  all: try exact IH.
  all: try (match goal with |- context [if ?x then _ else _] => destruct x end; exact IH).
  1: apply Forall_app; split; [exact IH|exact Hs2].
  1: match goal with |- Forall _ (if ?k <? length ?l then _ else consume _ ?l0)%nat => apply (consume_nonempty (l :: l0) k) end; exact IH.
  all: rewrite ?Hm; try exact IH; match goal with H : s_queue _ = _ |- _ => rewrite H; exact IH end.
Qed.

Lemma coarse_app a : forall s s' b, frun s a = Some s' -> coarse s (a ++ b) = coarse s a ++ coarse s' b.
Proof.
  induction a as [|x a IH]; intros s s' b H; [injection H as <-; reflexivity|]. cbn [frun] in H. cbn [app coarse].
  destruct (fstep s x) as [s1|] eqn:E; [|discriminate]. rewrite (IH _ _ b H), app_assoc. reflexivity.
Qed.
Lemma coarse_no_end a : forall s, ~ In FEndCall a -> ~ In AEndCall (coarse s a).
Proof.
  induction a as [|x a IH]; intros s H; [intros []|]. cbn [coarse]. intros K. apply in_app_or in K as [K|K].
  - destruct x; cbn [step_of] in K; try contradiction; try (destruct K as [K|K]; [discriminate|contradiction]).
    + destruct (f_users s i); try contradiction; destruct K as [K|K]; [discriminate|contradiction].
    + apply H. left. reflexivity.
    + destruct (f_queue s); try contradiction; destruct K as [K|K]; [discriminate|contradiction].
  - destruct (fstep s x); [|destruct K]. revert K. apply IH. intros Hi. apply H. right. exact Hi.
Qed.
Lemma stored_none l : forall cur, (forall i, ~ In (FPut i) l) -> stored cur l = [].
Proof.
  induction l as [|a l IH]; intros cur H; [reflexivity|]. assert (Hl : forall i, ~ In (FPut i) l) by (intros i K; apply (H i); right; exact K).
  destruct a; cbn [stored]; try (apply IH; exact Hl). exfalso. apply (H i). left. reflexivity.
Qed.
Lemma stored_app l : forall cur l', exists cur', stored cur (l ++ l') = stored cur l ++ stored cur' l'.
Proof.
  induction l as [|a l IH]; intros cur l'; [exists cur; reflexivity|].
  destruct a; cbn [app stored]; try apply IH. destruct (IH cur l') as (cur' & ->). exists cur'. reflexivity.
Qed.

(** When End has returned and all Sends had stored their frames before it was called, the queue is empty. *)
Lemma end_empties facts fs a b : frun fine_init facts = Some fs -> f_completed fs = true -> facts = a ++ FEndCall :: b -> ~ In FEndCall a -> (forall i, ~ In (FPut i) b) ->
  Forall (fun x => snd x <> []) (stored (fun _ => []) facts) -> f_queue fs = [].
Proof.
  intros H Hc E Ha Hb Hn. destruct (coarse_run facts _ _ _ init_finv H) as (R & S & _). rewrite abs_init in R.
  assert (Hne : Forall (fun f => f <> []) (sends (coarse fine_init facts))) by (rewrite S; apply Forall_map; exact Hn).
  assert (Hq : s_queue (abs fs) = []).
  { pose proof (queue_nonempty _ _ R Hne) as Hqn. pose proof (v_bytes _ _ (srun_inv _ _ R)) as Hv.
    rewrite E, frun_app in H. destruct (frun fine_init a) as [s1|] eqn:E1; [|discriminate].
    destruct (C42_flushed _ _ R Hc) as [_ Hf].
    assert (Ec : coarse fine_init facts = coarse fine_init a ++ AEndCall :: match fstep s1 FEndCall with Some s' => coarse s' b | None => [] end)
      by (rewrite E, (coarse_app a _ _ _ E1); reflexivity).
    destruct (Hf _ _ Ec (coarse_no_end a _ Ha)) as (rest & Hw).
    assert (Es : sends (coarse fine_init facts) = sends (coarse fine_init a)).
    { rewrite S, E. destruct (coarse_run a _ _ _ init_finv E1) as (_ & -> & _). destruct (stored_app a (fun _ => []) (FEndCall :: b)) as (cur' & ->).
      rewrite (stored_none (FEndCall :: b)), app_nil_r; [reflexivity|]. intros i [K|K]; [discriminate|exact (Hb i K)]. }
    rewrite Es, Hw, <- app_assoc in Hv. rewrite <- (app_nil_r (concat (sends (coarse fine_init a)))) in Hv at 2. apply app_inv_head in Hv. apply app_eq_nil in Hv as [_ Hv].
    destruct (s_queue (abs fs)) as [|x q]; [reflexivity|]. apply Forall_inv in Hqn. cbn [concat] in Hv. apply app_eq_nil in Hv as [Hv _]. congruence. }
  assert (Hd : after_drain (s_pc (abs fs)) = true) by (destruct (v_completed _ _ (srun_inv _ _ R)) as [K _]; specialize (K Hc); destruct K as [K|K]; rewrite K; reflexivity).
  unfold abs, abs_queue in Hq. cbn [s_queue] in Hq. unfold abs in Hd. cbn [s_pc] in Hd. destruct (f_pc fs); try exact Hq; cbn [abs_pc] in Hd.
  destruct r; [discriminate|destruct d; discriminate|discriminate].
Qed.

Lemma rest_delivered t cap racts rs i : rrun t cap receiver_init racts = Some rs -> r_crashed rs = false -> at_rest t cap rs -> delivered_on i rs = pairs_of i (received rs).
Proof.
  intros H Hc Hr. destruct (C94_at_rest _ _ _ _ H Hc Hr) as [[Hd _] _]. rewrite (Hd i). exact (C40_in_order _ _ _ _ H i).
Qed.

Lemma stored_nonempty uni t ms facts fs : frun fine_init facts = Some fs -> (forall i, calls i facts = critical_sections uni t (ms i)) -> Forall (fun x => snd x <> []) (stored (fun _ => []) facts).
Proof.
  intros H Hc. apply Forall_forall. intros [i f] Hin. cbn [snd]. pose proof (C95_each_send_once _ _ i H) as E. pose proof (sections_nonempty uni t (ms i)) as Hs.
  rewrite <- Hc, E in Hs. apply Forall_app in Hs as [Hs _]. rewrite Forall_forall in Hs. apply Hs. unfold stored_by. apply in_map_iff. exists (i, f). split; [reflexivity|].
  apply filter_In. split; [exact Hin|]. apply Nat.eqb_refl.
Qed.

(** From the first Send to the last Receive: goroutines call Send, each its own messages; after the last Send
    has stored its frame End is called and returns; a Receiver reads the connections to their ends, and its
    user takes what it gives, until nothing is left to do.  Then the user has got an interleaving
    of the messages of the goroutines. *)
Theorem C97_log_then_end : forall uni order (ms : nat -> list message) before after fs cap racts rs rc, let facts := before ++ FEndCall :: after in
  frun fine_init facts = Some fs -> (forall i, calls i facts = critical_sections uni TRFC5425 (ms i)) ->
  ~ In FEndCall before -> (forall i, ~ In (FPut i) after) -> all_sent fs -> f_completed fs = true -> clean_net facts ->
  rrun TRFC5425 cap receiver_init racts = Some rs -> r_crashed rs = false -> at_rest TRFC5425 cap rs ->
  (forall c, (c < connections facts)%nat -> stream (reads_of (rc c) racts) = on c (f_log fs) /\ eof_last (reads_of (rc c) racts)) ->
  (forall i, Forall fits (encodings uni (ms i)) /\ Forall (deliverable uni order) (ms i)) ->
  exists tagged : list (nat * message), (forall i, from Nat.eq_dec i tagged = ms i) /\
    Forall2 (delivered_as uni order) (map snd tagged) (concat (map (fun c => pairs_of (rc c) (received rs)) (seq 0 (connections facts)))).
Proof.
  intros uni order ms before after fs cap racts rs rc facts H Hc Hb Hp Ha Hend Hcl Hr Hcr Hrest Hrc Hms.
  assert (Hq : f_queue fs = []) by exact (end_empties facts fs before after H Hend eq_refl Hb Hp (stored_nonempty uni TRFC5425 ms facts fs H Hc)).
  destruct (C97_delivery uni order ms facts fs cap racts rs rc H Hc Ha Hq Hcl Hr Hrc Hms) as (tagged & T1 & T2). exists tagged. split; [exact T1|].
  replace (map (fun c => pairs_of (rc c) (received rs)) (seq 0 (connections facts))) with (map (fun c => delivered_on (rc c) rs) (seq 0 (connections facts))); [exact T2|].
  apply map_ext. intros c. exact (rest_delivered _ _ _ _ _ Hr Hcr Hrest).
Qed.
Print Assumptions C97_log_then_end.

(** Non-vacuity: goroutines 1 and 2 are in Send at the same time; the connection is lost after the first frame. *)
Definition two_loggers : list faction :=
  [FCall 1 (frame_of msg1); FCall 2 (frame_of msg2); FAcquire 2; FTick; FRead 2; FTestOut; FPut 2; FConnected None; FRelease 2; FAcquire 1; FRead 1; FPut 1; FRelease 1;
   FTake; FTestLen; FNet (length (frame_of msg2)) (WErr 9); FConsume; FPushErrWrite; FDrop; FGive].
Definition then_end : list faction :=
  [FSelectEnd; FTestDrain; FTestOut; FConnected None; FTake; FTestLen; FNet (length (frame_of msg1)) WOk; FConsume; FTestLen; FRealloc; FGive; FTestDrain; FCloseOut; FCompleted; FCloseErrs].
Definition two_readers : list raction :=
  [RStepSelect; RAccepted true None; RStepSelect; RAccepted true None; RStepSelect; KReadReturns 1 (firstn 7 (frame_of msg1)) None; KNextTurn 1;
   KReadReturns 0 (firstn 30 (frame_of msg2)) None; KNextTurn 0; KReadReturns 1 (skipn 7 (frame_of msg1)) None; KReadReturns 0 (skipn 30 (frame_of msg2)) (Some REOF);
   KPush 1; KNextTurn 1; KPush 0; KNextTurn 0; KReadReturns 1 [] (Some REOF); KNextTurn 1; RReceive; RReceive].
Definition two_lists (i : nat) : list message := match i with 1%nat => [msg1] | 2%nat => [msg2] | _ => [] end.
Fixpoint clean_net_from (acc rest : list faction) : Prop :=
  match rest with
  | [] => True
  | a :: more => match a with FNet k (WErr _) => boundary (map snd (stored (fun _ => []) acc)) (net_bytes acc + k) | _ => True end /\ clean_net_from (acc ++ [a]) more
  end.
Lemma clean_net_from_ok rest : forall acc, clean_net_from acc rest -> acc = [] -> clean_net rest.
Proof.
  assert (K : forall acc, clean_net_from acc rest -> forall p k e q, rest = p ++ FNet k (WErr e) :: q -> boundary (map snd (stored (fun _ => []) (acc ++ p))) (net_bytes (acc ++ p) + k)).
  { induction rest as [|a rest IH]; intros acc H p k e q E; [destruct p; discriminate|]. destruct H as [H1 H2]. destruct p as [|b p]; cbn [app] in E.
    - injection E as -> _. rewrite app_nil_r. exact H1.
    - injection E as <- E. specialize (IH _ H2 p k e q E). rewrite <- app_assoc in IH. exact IH. }
  intros acc H -> p k e q E. exact (K [] H p k e q E).
Qed.
Example C97_nonvacuous : exists fs rs, let facts := two_loggers ++ FEndCall :: then_end in
  frun fine_init facts = Some fs /\ (forall i, calls i facts = critical_sections uni0 TRFC5425 (two_lists i)) /\ ~ In FEndCall two_loggers /\ (forall i, ~ In (FPut i) then_end) /\
  all_sent fs /\ f_completed fs = true /\ clean_net facts /\ connections facts = 2%nat /\
  rrun TRFC5425 3 receiver_init two_readers = Some rs /\ r_crashed rs = false /\ at_rest TRFC5425 3 rs /\
  (forall c, (c < 2)%nat -> stream (reads_of c two_readers) = on c (f_log fs) /\ eof_last (reads_of c two_readers)) /\
  (forall i, Forall fits (encodings uni0 (two_lists i)) /\ Forall (deliverable uni0 (fun _ => [])) (two_lists i)) /\ length (received rs) = 2%nat.
Proof.
  assert (Hf : exists fs, frun fine_init (two_loggers ++ FEndCall :: then_end) = Some fs /\ all_sent fs /\ f_completed fs = true /\ on 0 (f_log fs) = frame_of msg2 /\ on 1 (f_log fs) = frame_of msg1).
  { eexists. split; [vm_compute; reflexivity|]. split; [intros [|[|[|i]]]; reflexivity|]. split; [reflexivity|]. split; vm_compute; reflexivity. }
  assert (Hg : exists rs, rrun TRFC5425 3 receiver_init two_readers = Some rs /\ r_crashed rs = false /\ at_rest TRFC5425 3 rs /\ length (received rs) = 2%nat).
  { eexists. split; [vm_compute; reflexivity|]. split; [reflexivity|]. split; [|reflexivity]. intros a s' Ho Hs. exfalso. destruct a; try discriminate; destruct i as [|[|[|i]]]; discriminate. }
  destruct Hf as (fs & F1 & F2 & F3 & F4 & F5). destruct Hg as (rs & G1 & G2 & G3 & G4). exists fs, rs. cbv zeta.
  split; [exact F1|]. split; [intros [|[|[|i]]]; vm_compute; reflexivity|].
  split; [intros K; repeat (destruct K as [K|K]; [discriminate|]); exact K|]. split; [intros i K; repeat (destruct K as [K|K]; [discriminate|]); exact K|].
  split; [exact F2|]. split; [exact F3|]. split.
  { apply (clean_net_from_ok _ []); [|reflexivity]. unfold two_loggers, then_end. cbn [app clean_net_from]. repeat (split; [exact I|]). split; [|repeat (split; [exact I|]); exact I].
    exists [frame_of msg2], [frame_of msg1]. split; vm_compute; reflexivity. }
  split; [reflexivity|]. split; [exact G1|]. split; [exact G2|]. split; [exact G3|]. split.
  { intros [|[|c]] Hc; [rewrite F4|rewrite F5|lia]; (split; [vm_compute; reflexivity|vm_compute; repeat split; intros; discriminate]). }
  split; [|exact G4]. pose proof e2e_deliverable as Hd. pose proof e2e_fits as Hfit.
  assert (E : encodings uni0 [msg1; msg2] = encodings uni0 [msg1] ++ encodings uni0 [msg2]) by (rewrite <- encodings_app; reflexivity). rewrite E in Hfit. apply Forall_app in Hfit as [Hf1 Hf2].
  intros [|[|[|i]]]; cbn [two_lists]; [split; constructor| | |split; constructor].
  - split; [exact Hf1|]. constructor; [exact (Forall_inv Hd)|constructor].
  - split; [exact Hf2|]. exact (Forall_inv_tail Hd).
Qed.
Print Assumptions C97_nonvacuous.
