(** PropMany2.v -- C115 for messages with structured data on LF or NUL framed connections. *)
From Coq Require Import Permutation.
From Verif Require Import Base BaseFacts Spec MTime MTransport MSData MMessage MParse MTokenize MReceiver MSender
  LTime LTokenize LParse LRound LTransport PropMessage PropParse PropTransport LLines PropLines PropReceiver PropRelay PropMixed LReceiver PropRecvSys PropRecvLive LSender PropSender PropSender2 PropSender3 PropEndToEnd PropEndToEnd2 PropEndToEnd4 PropEndToEnd5 PropMany.

Lemma data_gives uni order t c g reads : delimiter t = Some c -> Forall (framable uni order c) g ->
  ~ cut_after_data uni t g reads -> clear_so_far uni t g reads ->
  carried reads (concat (map (encode t) (encodings uni g))) -> gives uni order t g reads.
Proof.
  intros Hc Hg Hn Hclr (unread & Hs & Hor). pose proof Hc as Hd. rewrite delimiter_delim in Hd. pose proof (framable_mixed uni order c g Hg) as Hok.
  assert (Hl : eof_last reads) by (destruct Hor as [Hor|[_ Hor]]; [apply open_eof_last; exact Hor|exact Hor]).
  destruct (list_eq_dec N.eq_dec (stream reads) (concat (map (encode t) (encodings uni g)))) as [Heq|Hne].
  - pose proof Heq as Heq'. rewrite (framable_encodings uni order c g Hg) in Heq'.
    assert (Hpast : clear_past uni t g reads).
    { intros before m after E Hsd. apply (Hclr before m after (concat (map (encode t) (encodings uni after))) E Hsd). rewrite Heq, E.
      change (m :: after) with ([m] ++ after). rewrite app_assoc, encodings_app, map_app, concat_app. reflexivity. }
    pose proof Hn as Hn'. rewrite (cut_stops_data uni order t c g _ Hg) in Hn'. pose proof Hpast as Hp'. rewrite (clear_past_after uni order t c g _ Hg) in Hp'.
    split; [intros Hx; exact (Hn' (proj1 (C34_mixed_crash t c _ _ Hc Hok Heq' Hl Hp') Hx))|].
    exists g, []. rewrite app_nil_r. split; [reflexivity|]. split; [|auto]. apply (decoded_delivered uni order c); [exact Hg|].
    apply (decoded_given uni order c _ _ Hg), (C34_mixed_iff t c _ _ Hc Hok Heq' Hl). auto.
  - destruct Hor as [He|[-> _]]; [|rewrite app_nil_r in Hs; contradiction].
    rewrite (framable_encodings uni order c g Hg), (mixed_frames t c _ Hd) in Hs. rewrite (cut_stops_data uni order t c _ _ Hg), (mixed_stops t c _ _ Hd) in Hn.
    destruct (run_mixed_unread t c reads tok_init _ unread Hd Hok Hs (or_introl eq_refl) (mixed_start t c _ Hd Hok)
      (proj1 (clear_so_far_now uni order t c _ _ Hd Hg) Hclr) He) as [(Hb & _)|(_ & fs1 & fs2 & st & E1 & E2 & E3 & _)]; [contradiction|].
    split; [rewrite E3; discriminate|]. apply map_eq_app in E1 as (g1 & g2 & -> & <- & <-). apply Forall_app in Hg as [Hg1 Hg2].
    exists g1, g2. split; [reflexivity|]. split; [|intros; contradiction]. apply (decoded_delivered uni order c); [exact Hg1|]. apply (decoded_given uni order c _ _ Hg1).
    rewrite E2. pose proof (framable_mixed uni order c g1 Hg1) as Ho. clear -Ho. induction Ho as [|f fs Hf Hok IH]; [constructor|]. cbn [map]. constructor; [exact (mixed_decodes c f Hf)|exact IH].
Qed.

(** No read stops just after the structured data of a message, and some read stops at a suitable place after each message with
    structured data read in full (C84), on each connection read. *)
Definition suitable_reads (uni : N -> bool) (t : transport) (n : nat) (ms : nat -> list message) (wire : nat -> nat -> bytes) (peer : nat -> nat * nat) (racts : list raction) : Prop :=
  forall i g, reads_of i racts <> [] -> (fst (peer i) < n)%nat -> part_on uni t (ms (fst (peer i))) (wire (fst (peer i)) (snd (peer i))) g ->
    ~ cut_after_data uni t g (reads_of i racts) /\ clear_so_far uni t g (reads_of i racts).

Lemma data_all_give uni order t c n ms width wire peer racts group : delimiter t = Some c ->
  (forall j, (j < n)%nat -> Forall (framable uni order c) (ms j)) -> suitable_reads uni t n ms wire peer racts ->
  (forall j, (j < n)%nat -> grouped uni t (ms j) (width j) (wire j) (group j)) -> network n width wire peer racts ->
  forall i, reads_of i racts <> [] -> gives uni order t (group (fst (peer i)) (snd (peer i))) (reads_of i racts).
Proof.
  intros Hc H Hcut Hgr [Hn _] i Hi. destruct (Hn i Hi) as (N1 & N2 & N3). destruct (Hgr _ N1) as [Em Eo]. rewrite (Eo _ N2) in N3.
  specialize (H _ N1). destruct (group_part (group (fst (peer i))) _ _ N2) as (a & b & E). rewrite E in Em.
  assert (Hp : part_on uni t (ms (fst (peer i))) (wire (fst (peer i)) (snd (peer i))) (group (fst (peer i)) (snd (peer i)))) by (split; [exists a, b; exact Em|exact (Eo _ N2)]).
  destruct (Hcut i _ Hi N1 Hp) as [Hc1 Hc2]. rewrite Em in H.
  apply Forall_app in H as [_ H]. apply Forall_app in H as [H _]. apply (data_gives uni order t c); assumption.
Qed.

Lemma framable_marshals uni order c ms : Forall (framable uni order c) ms -> Forall (fun m => exists enc, message_marshal uni m = Val (inr enc)) ms.
Proof. intros H. eapply Forall_impl; [|exact H]. intros m Hm. eexists. exact (framable_marshal uni order c m Hm). Qed.

(** LF or NUL framing, messages with or without structured data, at every moment. *)
Theorem C115_data_at_every_moment : forall uni order t c n ms sacts ss peer cap racts rs, delimiter t = Some c ->
  (forall j, (j < n)%nat -> served uni t (ms j) (sacts j) (ss j)) -> (forall j, (j < n)%nat -> Forall (framable uni order c) (ms j)) ->
  rrun t cap receiver_init racts = Some rs -> network n (fun j => connects (sacts j)) (fun j k => on k (s_log (ss j))) peer racts ->
  suitable_reads uni t n ms (fun j k => on k (s_log (ss j))) peer racts ->
  (forall i, ~ decoder_panics t i racts) /\
  exists (tagged : list ((nat * nat) * message)) (group : nat -> nat -> list message),
    Forall2 (came_from uni order n (fun j => connects (sacts j)) peer) tagged (received rs) /\
    forall j, (j < n)%nat -> ms j = concat (map (group j) (seq 0 (connects (sacts j)))) /\
      forall k, (k < connects (sacts j))%nat ->
        on k (s_log (ss j)) = concat (map (encode t) (encodings uni (group j k))) /\
        exists later, group j k = from tag_dec (j, k) tagged ++ later.
Proof.
  intros uni order t c n ms sacts ss peer cap racts rs Hc Hs H Hr Hnet Hcut.
  destruct (all_grouped uni t n ms sacts ss Hs) as (group & Hgr).
  { intros j Hj. exact (framable_marshals uni order c _ (H j Hj)). }
  destruct (collected uni order t n _ _ peer cap racts rs (fun jk => group (fst jk) (snd jk)) Hr Hnet) as (Hd & tagged & T1 & T2 & _).
  { exact (data_all_give uni order t c n ms _ _ peer racts group Hc H Hcut Hgr Hnet). }
  split; [exact Hd|]. exists tagged, group. split; [exact T1|]. intros j Hj. destruct (Hgr j Hj) as [Em Eo]. split; [exact Em|]. intros k Hk. split; [exact (Eo k Hk)|]. exact (T2 (j, k)).
Qed.
Print Assumptions C115_data_at_every_moment.

(** and once every byte is read, each message is received once (with C115_exactly_once). *)
Theorem C115_data_delivery : forall uni order t c n ms sacts ss peer cap racts rs, delimiter t = Some c ->
  (forall j, (j < n)%nat -> served uni t (ms j) (sacts j) (ss j)) -> (forall j, (j < n)%nat -> Forall (framable uni order c) (ms j)) ->
  rrun t cap receiver_init racts = Some rs -> network n (fun j => connects (sacts j)) (fun j k => on k (s_log (ss j))) peer racts -> ~ In REndCall racts -> ~ In false (accepts racts) ->
  suitable_reads uni t n ms (fun j k => on k (s_log (ss j))) peer racts ->
  all_read n (fun j => connects (sacts j)) (fun j k => on k (s_log (ss j))) peer racts ->
  exists bound, forall more rs', rrun t cap rs more = Some rs' -> (forall a, In a more -> outside a = false) ->
    (length more <= bound)%nat /\ r_crashed rs' = false /\
    (at_rest t cap rs' -> exists tagged, Forall2 (came_from uni order n (fun j => connects (sacts j)) peer) tagged (received rs') /\
       forall j, (j < n)%nat -> ms j = concat (map (fun k => from tag_dec (j, k) tagged) (seq 0 (connects (sacts j))))).
Proof.
  intros uni order t c n ms sacts ss peer cap racts rs Hc Hs H Hr Hnet He Hf Hcut Har.
  assert (Hm : forall j, (j < n)%nat -> Forall (fun m => exists enc, message_marshal uni m = Val (inr enc)) (ms j)) by (intros j Hj; exact (framable_marshals uni order c _ (H j Hj))).
  destruct (all_grouped uni t n ms sacts ss Hs Hm) as (group & Hgr).
  exact (arrived uni order t n ms _ _ peer cap racts rs group Hgr Hm Hr Hnet He Hf (data_all_give uni order t c n ms _ _ peer racts group Hc H Hcut Hgr Hnet) Har).
Qed.
Print Assumptions C115_data_delivery.

(** Non-vacuity: two senders of the three messages of C84_data_nonvacuous, whose connections are read at the same time. *)
Definition two_ms (j : nat) : list message := dmsgs.
Definition two_sacts (j : nat) : list saction := data_sender.
Definition two_ss (j : nat) : sstate := match srun sender_init data_sender with Some s => s | None => sender_init end.
Definition two_peer (i : nat) : nat * nat := match i with 0%nat => (1, 0) | 1%nat => (0, 0) | _ => (5, 5) end%nat.
Definition two_reads : list raction :=
  [RStepSelect; RAccepted true None; RStepSelect; RAccepted true None;
   KReadReturns 1 (firstn 30 (lframe msg2)) None; KReadReturns 0 (firstn 30 (lframe msg2)) None; KNextTurn 0; KNextTurn 1;
   KReadReturns 0 (skipn 30 (lframe msg2) ++ firstn 9 (lframe lmsg2)) (Some (ROther 4)); KReadReturns 1 (skipn 30 (lframe msg2) ++ firstn 9 (lframe lmsg2)) (Some (ROther 4));
   KPushErr 0; KPushErr 1; KPush 1; KPush 0; KNextTurn 0; KNextTurn 1; RReceive; RReceive;
   KReadReturns 1 (skipn 9 (lframe lmsg2) ++ lframe msg2) None; KReadReturns 0 (skipn 9 (lframe lmsg2) ++ lframe msg2) None;
   KPush 0; KPush 0; KNextTurn 0; RReceive; KPush 1; RReceive; KReadReturns 0 [] (Some REOF); KPush 1; KNextTurn 1; KReadReturns 1 [] (Some REOF)].

Lemma whole_part uni t ms g : Forall (fun m => exists enc, message_marshal uni m = Val (inr enc)) ms -> part_on uni t ms (concat (map (encode t) (encodings uni ms))) g -> g = ms.
Proof.
  intros He ((a & b & E) & Ew). assert (Hl : length (concat (map (encode t) (encodings uni a))) = 0%nat /\ length (concat (map (encode t) (encodings uni b))) = 0%nat).
  { rewrite E in Ew. rewrite !encodings_app, !map_app, !concat_app in Ew. apply (f_equal (@length N)) in Ew. rewrite !app_length in Ew. lia. }
  destruct Hl as [La Lb]. apply length_zero_iff_nil in La, Lb. rewrite E in He. apply Forall_app in He as [Ha He]. apply Forall_app in He as [_ Hb].
  apply (no_encoding_no_message uni t _ Ha) in La. apply (no_encoding_no_message uni t _ Hb) in Lb. subst a b. rewrite app_nil_r in E. symmetry. exact E.
Qed.

Lemma two_runs : exists rs, rrun TLFEnded 3 receiver_init two_reads = Some rs /\ length (received rs) = 4%nat.
Proof. eexists. split; [vm_compute; reflexivity|vm_compute; reflexivity]. Qed.

Example C115_data_nonvacuous : exists rs,
  (forall j, (j < 2)%nat -> served uni0 TLFEnded (two_ms j) (two_sacts j) (two_ss j)) /\ (forall j, (j < 2)%nat -> Forall (framable uni0 (fun _ => []) 10%N) (two_ms j)) /\
  rrun TLFEnded 3 receiver_init two_reads = Some rs /\ network 2 (fun j => connects (two_sacts j)) (fun j k => on k (s_log (two_ss j))) two_peer two_reads /\
  ~ In REndCall two_reads /\ ~ In false (accepts two_reads) /\
  suitable_reads uni0 TLFEnded 2 two_ms (fun j k => on k (s_log (two_ss j))) two_peer two_reads /\
  all_read 2 (fun j => connects (two_sacts j)) (fun j k => on k (s_log (two_ss j))) two_peer two_reads /\ length (received rs) = 4%nat.
Proof.
  destruct C84_data_nonvacuous as (ss & rs0 & Hf & _ & Hs & Hsd & _ & Hq & Hcl & _ & Hst & He & Hc1 & Hc2 & _).
  assert (Ess : forall j, two_ss j = ss) by (intros j; unfold two_ss; rewrite Hs; reflexivity).
  assert (Er : forall i, (i < 2)%nat -> reads_of i two_reads = reads_of 0 data_receiver) by (intros i Hi; destruct i as [|[|i]]; [reflexivity|reflexivity|lia]).
  assert (Hno : forall i, reads_of i two_reads <> [] -> (i < 2)%nat) by (intros i Hi; destruct i as [|[|i]]; [lia|lia|exfalso; apply Hi; reflexivity]).
  assert (Ew : on 0 (s_log ss) = concat (map (encode TLFEnded) (encodings uni0 dmsgs))) by (rewrite <- Hst; vm_compute; reflexivity).
  destruct two_runs as (rs & Err & Hlen).
  exists rs. split; [intros j _; rewrite Ess; split; [exact Hs|]; split; [exact Hsd|]; split; [exact Hcl|exact Hq]|]. split; [intros j _; exact Hf|]. split; [exact Err|].
  split; [|split; [|split; [|split; [|split]]]].
  - split.
    + intros i Hi. specialize (Hno i Hi). rewrite (Er i Hno), Ess. destruct i as [|[|i]]; [| |lia]; (split; [vm_compute; lia|]; split; [vm_compute; lia|]; exists []; rewrite app_nil_r; split; [exact Hst|right; split; [reflexivity|exact He]]).
    + intros i i' Hi Hi' E. specialize (Hno i Hi) as K. specialize (Hno i' Hi') as K'. destruct i as [|[|i]]; [| |lia]; (destruct i' as [|[|i']]; [| |lia]); first [reflexivity|discriminate].
  - intros K. repeat (destruct K as [K|K]; [discriminate|]). exact K.
  - vm_compute. intros K. repeat (destruct K as [K|K]; [discriminate|]). exact K.
  - intros i g Hi _ Hp. specialize (Hno i Hi). rewrite (Er i Hno). rewrite Ess in Hp.
    replace (snd (two_peer i)) with 0%nat in Hp by (destruct i as [|[|i]]; [reflexivity|reflexivity|lia]). rewrite Ew in Hp.
    apply whole_part in Hp; [|exact (framable_marshals uni0 _ 10%N _ Hf)]. rewrite Hp. split; [exact Hc1|]. intros before m after rest E Hne _. exact (Hc2 before m after E Hne).
  - intros j k Hj Hk. rewrite Ess. assert (k = 0%nat) as -> by (vm_compute in Hk; lia).
    destruct j as [|[|j]]; [exists 1%nat|exists 0%nat|lia]; (split; [reflexivity|rewrite Er by lia; exact Hst]).
  - exact Hlen.
Qed.

(** What was received from each connection is the first of its messages: as a whole, a part of the messages sent. *)
Theorem C115_no_duplicate : forall uni order n ms width peer (got : list (nat * pair_t)) tagged (group : nat -> nat -> list message),
  Forall2 (came_from uni order n width peer) tagged got ->
  (forall j, (j < n)%nat -> ms j = concat (map (group j) (seq 0 (width j))) /\ forall k, (k < width j)%nat -> exists later, group j k = from tag_dec (j, k) tagged ++ later) ->
  exists rest, Permutation (concat (map ms (seq 0 n))) (map snd tagged ++ rest).
Proof.
  intros uni order n ms width peer got tagged group H2 Hms.
  assert (Hin : forall x, In x tagged -> In (fst x) (all_tags n width)).
  { clear Hms. induction H2 as [|x r tg l (_ & Hj & Hk & _) F IH]; [intros x []|]. intros y [<-|Hy]; [|exact (IH y Hy)]. destruct x as [[j k] m]. cbn [fst snd] in *. apply in_all_tags. auto. }
  assert (E : map ms (seq 0 n) = map (fun j => concat (map (group j) (seq 0 (width j)))) (seq 0 n)).
  { apply map_ext_in. intros j Hj. apply in_seq in Hj. apply Hms. lia. }
  assert (E2 : concat (map ms (seq 0 n)) = concat (map (fun jk => group (fst jk) (snd jk)) (all_tags n width))).
  { rewrite E. unfold all_tags. clear. induction (seq 0 n) as [|j js IH]; [reflexivity|]. cbn [map concat]. rewrite map_app, concat_app, map_map, IH. reflexivity. }
  rewrite E2. assert (Hl : forall jk, In jk (all_tags n width) -> exists later, group (fst jk) (snd jk) = from tag_dec jk tagged ++ later).
  { intros [j k] Hi. apply in_all_tags in Hi as [Hj Hk]. apply Hms; assumption. }
  pose proof (by_tags tagged _ (nodup_all_tags width n) Hin) as P. clear E E2 Hin Hms H2.
  assert (Q : forall tags, (forall jk, In jk tags -> exists later, group (fst jk) (snd jk) = from tag_dec jk tagged ++ later) ->
    exists rest, Permutation (concat (map (fun jk => group (fst jk) (snd jk)) tags)) (concat (map (fun jk => from tag_dec jk tagged) tags) ++ rest)).
  { clear. induction tags as [|jk tags IH]; intros Hl; [exists []; constructor|]. destruct IH as [rest R]; [intros; apply Hl; right; assumption|].
    destruct (Hl jk (or_introl eq_refl)) as [later El]. exists (later ++ rest). cbn [map concat]. rewrite El, <- !app_assoc. apply Permutation_app_head.
    eapply Permutation_trans; [apply Permutation_app_head; exact R|]. rewrite !app_assoc. apply Permutation_app_tail, Permutation_app_comm. }
  destruct (Q _ Hl) as [rest Q']. exists rest. eapply Permutation_trans; [exact Q'|]. apply Permutation_app_tail, Permutation_sym, P.
Qed.
Print Assumptions C115_no_duplicate.
