(** PropForgery.v -- property C103: which payloads make a stream of frames ambiguous, and what a text can
    forge (transport.go:106-169, message.go:132-199). *)
From Verif Require Import Base BaseFacts Spec MPriority MHelpers MText MTime MSData MMessage MTransport MParse MTokenize.
From Verif Require Import LPriority LText LParse LTransport LRound LResult LTokenize PropPriority PropMessage PropParse PropTransport PropLines LTime PropAnyPriority.
From Coq Require Import ZifyBool ZifyNat ZifyN.

(** The payloads of a stream can be found by some reader, whatever it is, when no other payloads give
    the same stream *)
Definition determined (t : transport) (ds : list bytes) : Prop :=
  forall ds', concat (map (encode t) ds') = concat (map (encode t) ds) -> ds' = ds.

Lemma encode_delim t c d : delimiter t = Some c -> encode t d = d ++ [c].
Proof. destruct t; intros H; try discriminate; injection H as <-; reflexivity. Qed.

(** how many delimiters *)
Definition ndelim (c : N) (s : bytes) : nat := count_occ N.eq_dec s c.
Lemma ndelim_app c a b : ndelim c (a ++ b) = (ndelim c a + ndelim c b)%nat.
Proof. apply count_occ_app. Qed.
Lemma ndelim_stream t c ds : delimiter t = Some c ->
  ndelim c (concat (map (encode t) ds)) = (length ds + list_sum (map (ndelim c) ds))%nat.
Proof.
  intros Hc. induction ds as [|d ds IH]; [reflexivity|]. cbn [map concat length list_sum fold_right].
  rewrite ndelim_app, IH, (encode_delim t c d Hc), ndelim_app. unfold ndelim at 2. cbn [count_occ].
  destruct (N.eq_dec c c); [|congruence]. unfold list_sum. cbn [fold_right]. lia.
Qed.
Lemma ndelim_0 c s : ndelim c s = 0%nat <-> ~ In c s.
Proof. symmetry. apply count_occ_not_In. Qed.
Lemma sum_0 {A} (f : A -> nat) l : list_sum (map f l) = 0%nat <-> Forall (fun x => f x = 0%nat) l.
Proof.
  induction l as [|x l IH]; [split; constructor|]. change (list_sum (map f (x :: l))) with (f x + list_sum (map f l))%nat. split.
  - intros H. constructor; [lia|apply IH; lia].
  - intros H. inv H. apply IH in H3. lia.
Qed.

(** ** C103 *)
(** With LF or NUL framing, any number of payloads gives the same stream as one well chosen payload: no
    reader can tell them apart *)
Theorem C103_one_for_many : forall t c ds, delimiter t = Some c -> ds <> [] ->
  exists d, concat (map (encode t) ds) = encode t d /\ (forall x, In x ds -> exists a b, d = a ++ x ++ b).
Proof.
  intros t c ds Hc. induction ds as [|d ds IH]; intros H; [contradiction|]. destruct ds as [|d' ds'].
  - exists d. cbn [map concat]. rewrite app_nil_r. split; [reflexivity|]. intros x [-> |[]]. exists [], []. rewrite app_nil_r. reflexivity.
  - destruct IH as (r & E & Hr); [discriminate|]. exists (d ++ c :: r). remember (d' :: ds') as l eqn:El. cbn [map concat]. rewrite E.
    rewrite !(encode_delim t c _ Hc). split; [rewrite <- !app_assoc; reflexivity|].
    intros x [-> |Hx]; [exists [], (c :: r); reflexivity|]. destruct (Hr x Hx) as (a & b & ->). exists (d ++ c :: a), b.
    rewrite <- !app_assoc. reflexivity.
Qed.
Print Assumptions C103_one_for_many.

(** so a stream tells its payloads exactly when there is at most one, without the delimiter *)
Theorem C103_determined_iff : forall t c ds, delimiter t = Some c ->
  (determined t ds <-> (length ds <= 1)%nat /\ Forall (fun d => ~ In c d) ds).
Proof.
  intros t c ds Hc. split.
  - intros Hd. destruct ds as [|d [|d' ds]].
    + split; [cbn; lia|constructor].
    + split; [cbn; lia|]. constructor; [|constructor]. intros Hin. apply in_split in Hin as (a & b & ->).
      assert (E : [a; b] = [a ++ c :: b]); [|discriminate]. apply Hd. cbn [map concat]. rewrite !(encode_delim t c _ Hc).
      rewrite <- !app_assoc. reflexivity.
    + exfalso. assert (E : (d ++ c :: d') :: ds = d :: d' :: ds).
      { apply Hd. cbn [map concat]. rewrite !(encode_delim t c _ Hc). rewrite <- !app_assoc. reflexivity. }
      apply (f_equal (@length bytes)) in E. cbn [length] in E. lia.
  - intros [Hl Hf] ds' E. pose proof (ndelim_stream t c ds' Hc) as N. rewrite E, (ndelim_stream t c ds Hc) in N.
    assert (Z0 : list_sum (map (ndelim c) ds) = 0%nat).
    { apply sum_0. apply Forall_forall. intros x Hx. apply ndelim_0. exact (proj1 (Forall_forall _ _) Hf x Hx). }
    rewrite Z0 in N. destruct ds as [|d [|? ?]]; [| |cbn in Hl; lia]; (destruct ds' as [|d' [|? ?]]; cbn [length] in N; try lia).
    + reflexivity.
    + cbn [map concat] in E. rewrite (encode_delim t c _ Hc) in E. destruct d; discriminate.
    + cbn [map concat] in E. rewrite !(encode_delim t c _ Hc), !app_nil_r in E. apply app_inj_tail in E as [-> _]. reflexivity.
Qed.
Print Assumptions C103_determined_iff.

(** With RFC 5425 framing every stream tells its payloads, whatever they contain *)
Theorem C103_rfc5425_determined : forall ds, determined TRFC5425 ds.
Proof. intros ds ds' E. apply (C27_streams_injective TRFC5425); [intros c Hc; discriminate|exact E]. Qed.
Print Assumptions C103_rfc5425_determined.

(** white space at the end of a suffix that follows a byte below 128 *)
Lemma ws_chars w c : In w white_space_chars -> (c < 128)%N -> In c w -> w = [c].
Proof.
  intros H Hc Hin. cbn [In white_space_chars] in H.
  repeat (destruct H as [<-|H]; [cbn [In] in Hin; repeat (destruct Hin as [<-|Hin]; [try reflexivity; exfalso; lia|]); destruct Hin|]). destruct H.
Qed.
Lemma ends_ws_suffix a c e : (c < 128)%N -> e <> [] -> ~ ends_with_ws e -> ~ ends_with_ws (a ++ c :: e).
Proof.
  intros Hc Hne He (w & Hw & p & Hp). pose proof (f_equal (@length N) Hp) as L. rewrite !app_length in L. cbn [length] in L.
  destruct (Nat.le_gt_cases (length w) (length e)) as [Hl|Hl].
  - apply He. exists w. split; [exact Hw|]. exists (skipn (S (length a)) p).
    apply (f_equal (skipn (S (length a)))) in Hp.
    replace (a ++ c :: e) with ((a ++ [c]) ++ e) in Hp by (rewrite <- app_assoc; reflexivity).
    rewrite (skipn_app _ (a ++ [c]) e), (skipn_app _ p w) in Hp. rewrite (skipn_all2 (a ++ [c])) in Hp by (rewrite app_length; cbn [length]; lia).
    replace (S (length a) - length (a ++ [c]))%nat with 0%nat in Hp by (rewrite app_length; cbn [length]; lia).
    replace (S (length a) - length p)%nat with 0%nat in Hp by lia. exact Hp.
  - assert (Hin : In c w).
    { assert (Hq : exists q, w = q ++ c :: e).
      { exists (skipn (length p) a). apply (f_equal (skipn (length p))) in Hp. rewrite !skipn_app, skipn_all, Nat.sub_diag in Hp. cbn [app skipn] in Hp.
        replace (length p - length a)%nat with 0%nat in Hp by lia. symmetry. exact Hp. }
      destruct Hq as [q ->]. apply in_elt. }
    rewrite (ws_chars w c Hw Hc Hin) in Hl. cbn [length] in Hl. destruct e; [contradiction|cbn in Hl; lia].
Qed.

(** The encoding of a message without structured data, its text being trimmed, ends with no white space *)
Lemma encoding_end uni m e : message_marshal uni m = Val (inr e) -> m_sd m = [] -> ~ ends_with_ws (m_text m) -> ~ ends_with_ws e.
Proof.
  intros He Hsd Ht. unfold message_marshal in He. rewrite Hsd in He.
  change (list_marshal uni []) with (emit [DASH]) in He. unfold emit in He. cbv iota beta in He.
  destruct (m_text m) as [|x tx]; apply inr_inj in He; subst e.
  - rewrite !app_assoc. rewrite <- app_assoc. cbn [app]. apply ends_ws_suffix; [reflexivity|discriminate|].
    intros H. apply decode_last_bwd in H. vm_compute in H. discriminate.
  - rewrite !app_assoc. rewrite <- (app_assoc _ [SP] (x :: tx)). cbn [app]. apply ends_ws_suffix; [reflexivity|discriminate|exact Ht].
Qed.

Lemma marshal_first uni m e : message_marshal uni m = Val (inr e) -> e <> [].
Proof.
  unfold message_marshal. destruct (list_marshal uni (m_sd m)) as [[|sd]| |]; try discriminate.
  destruct (m_text m); unfold emit; intros H; injection H as <-; destruct (priority_marshal (m_prio m)); discriminate.
Qed.

(** the encodings of a message with its text changed have a common beginning *)
Lemma marshal_texts uni m text e1 : text <> [] -> ~ ends_with_ws text -> message_marshal uni (msg_set_text m text) = Val (inr e1) ->
  exists pre, e1 = pre ++ text /\
    forall text', text' <> [] -> ~ ends_with_ws text' -> message_marshal uni (msg_set_text m text') = Val (inr (pre ++ text')).
Proof.
  intros Hne Ht H1. unfold msg_set_text, message_marshal in *. cbn [m_prio m_time m_host m_app m_procid m_msgid m_sd m_text] in *.
  rewrite (trim_right_id text Ht) in H1. destruct (list_marshal uni (m_sd m)) as [[|sd]| |]; try discriminate.
  exists (priority_marshal (m_prio m) ++ [SP] ++ time_format (m_time m) ++ [SP] ++ m_host m ++ [SP] ++ m_app m ++ [SP] ++ m_procid m ++ [SP]
          ++ m_msgid m ++ [SP] ++ sd ++ [SP]). split.
  - destruct text as [|x text]; [contradiction|]. unfold emit in H1. apply inr_inj in H1. rewrite <- H1, <- !app_assoc. reflexivity.
  - intros text' Hne' Ht'. rewrite (trim_right_id text' Ht'). destruct text' as [|x text']; [contradiction|]. unfold emit. rewrite <- !app_assoc. reflexivity.
Qed.

(** What one call can forge: for every message m, text and message f (any priority, time, host..., chosen
    by whoever chooses the text), logging m with the text, the delimiter and the encoding of f puts on the
    wire exactly the two frames of m with the text, and of f *)
Theorem C103_forgery : forall t c uni m f text e, delimiter t = Some c ->
  message_marshal uni f = Val (inr e) -> ~ ends_with_ws e -> text <> [] -> ~ ends_with_ws text ->
  (forall e1, message_marshal uni (msg_set_text m text) = Val (inr e1) ->
     exists e2, message_marshal uni (msg_set_text m (text ++ [c] ++ e)) = Val (inr e2) /\
       encode t e2 = encode t e1 ++ encode t e).
Proof.
  intros t c uni m f text e Hc Hf He Hne Ht e1 H1. pose proof (marshal_first _ _ _ Hf) as Hne'.
  assert (Hc' : (c < 128)%N) by (destruct t; try discriminate; injection Hc as <-; lia).
  destruct (marshal_texts uni m text e1 Hne Ht H1) as (pre & -> & Hp). exists (pre ++ text ++ [c] ++ e). split.
  - apply Hp; [destruct text; discriminate|]. apply (ends_ws_suffix text c e); assumption.
  - rewrite !(encode_delim t c _ Hc), <- !app_assoc. reflexivity.
Qed.
Print Assumptions C103_forgery.

Lemma forall2_two {A B} (R : A -> B -> Prop) a b x y : Forall2 R [a; b] [x; y] -> R a x /\ R b y.
Proof. intros H. inv H. inv H5. split; assumption. Qed.

(** and the Receiver delivers both, when it reads the frame in pieces that do not stop just after a '-'
    that stands for structured data: one call, two messages received *)
Theorem C103_forged_delivery : forall t c uni m f text e enc reads, delimiter t = Some c ->
  Forall (fun m => header_ok m /\ (0 <= m_prio m <= 299)%Z /\ time_valid (m_time m) /\ m_sd m = []) [m; f] ->
  text <> [] -> ~ ends_with_ws text -> ~ In c text ->
  m_text f <> [] -> ~ ends_with_ws (m_text f) -> ~ In c (m_text f) ->
  message_marshal uni f = Val (inr e) -> message_marshal uni (msg_set_text m (text ++ [c] ++ e)) = Val (inr enc) ->
  stream reads = encode t enc -> eof_last reads ->
  (forall n, stream (firstn n reads) <> join (words_of m) ++ bs "-") ->
  (forall n e1, message_marshal uni (msg_set_text m text) = Val (inr e1) ->
     stream (firstn n reads) <> encode t e1 ++ join (words_of f) ++ bs "-") ->
  exists p q, o_sent (tok_run t tok_init reads) = [(p, None); (q, None)] /\
    PropParse.reads p (msg_set_text m text) /\ PropParse.reads q f.
Proof.
  intros t c uni m f text e enc reads Hc Hok Hne Ht Hct Hfne Hft Hfc Hf Hm Hs Heof Hd1 Hd2. inv Hok. inv H2. clear H4.
  destruct H1 as (A1 & A2 & A3 & A4). destruct H3 as (B1 & B2 & B3 & B4).
  assert (H1 : exists e1, message_marshal uni (msg_set_text m text) = Val (inr e1)).
  { unfold message_marshal. cbn [m_sd msg_set_text]. rewrite A4. change (list_marshal uni []) with (emit [DASH]). unfold emit.
    destruct (m_text (msg_set_text m text)); eexists; reflexivity. }
  destruct H1 as [e1 H1].
  destruct (C103_forgery t c uni m f text e Hc Hf (encoding_end _ _ _ Hf B4 Hft) Hne Ht e1 H1) as (e2 & E2 & E).
  rewrite Hm in E2. injection E2 as <-. rewrite E in Hs.
  destruct (C34_messages t c uni [msg_set_text m text; f] [e1; e] reads Hc) as (D & _ & _).
  - constructor; [|constructor; [|constructor]].
    + split; [exact A1|]. split; [exact A2|]. split; [exact A3|]. split; [exact A4|]. cbn [m_text msg_set_text]. rewrite (trim_right_id _ Ht). split; assumption.
    + repeat (split; [assumption|]). assumption.
  - constructor; [exact H1|]. constructor; [exact Hf|constructor].
  - rewrite Hs. cbn [map concat]. rewrite app_nil_r. reflexivity.
  - exact Heof.
  - intros n before m' after Em. destruct before as [|b [|b' before]]; cbn [app] in Em.
    + injection Em as <- _. cbn [length firstn map concat app]. exact (Hd1 n).
    + injection Em as <- <- _. cbn [length firstn map concat app]. rewrite app_nil_r. exact (Hd2 n e1 H1).
    + injection Em as _ _ Em. destruct before; discriminate.
  - destruct (o_sent (tok_run t tok_init reads)) as [|[p ep] [|[q eq] [|z l]]];
      
      try (exfalso; clear - D; repeat match goal with H : Forall2 _ (_ :: _) _ |- _ => inv H | H : Forall2 _ [] _ |- _ => inv H end; fail).
    apply forall2_two in D as [[Dp Rp] [Dq Rq]]. cbn [fst snd] in *. subst ep eq.
    exists p, q. split; [reflexivity|]. split; assumption.
Qed.
Print Assumptions C103_forged_delivery.

(** Where the delimiter can come from: the text, or what the structured data put in their encodings; a
    header made by the public setters never has it *)
Lemma marshal_all_spec uni l ts : marshal_all uni l = Val (inr ts) -> Forall2 (fun s e => sd_marshal uni s = Val (inr e)) l ts.
Proof.
  revert ts. induction l as [|s l IH]; intros ts H; cbn [marshal_all] in H.
  - injection H as <-. constructor.
  - destruct (sd_marshal uni s) as [[|t]| |] eqn:E; try discriminate. destruct (marshal_all uni l) as [[|ts']| |]; try discriminate.
    injection H as <-. constructor; [exact E|]. apply IH. reflexivity.
Qed.

Theorem C103_where : forall t c uni m e, delimiter t = Some c -> header_ok m -> message_marshal uni m = Val (inr e) ->
  (In c e <-> In c (m_text m) \/ exists s es, In s (m_sd m) /\ sd_marshal uni s = Val (inr es) /\ In c es).
Proof.
  intros t c uni m e Hc (A & B & C & D) He.
  assert (Hsmall : (c < 32)%N) by (destruct t; try discriminate; injection Hc as <-; lia).
  assert (Hw : forall n w, header_word n w -> ~ In c w).
  { intros n w (_ & _ & H3) Hin. specialize (H3 c Hin). unfold printusascii in H3. lia. }
  assert (Hsd : exists sd, list_marshal uni (m_sd m) = Val (inr sd) /\
      (In c sd <-> exists s es, In s (m_sd m) /\ sd_marshal uni s = Val (inr es) /\ In c es)).
  { unfold message_marshal in He. destruct (list_marshal uni (m_sd m)) as [[|sd]| |] eqn:El; try discriminate. exists sd. split; [reflexivity|].
    unfold list_marshal in El. destruct (m_sd m) as [|s0 l0].
    - apply inr_inj in El. subst sd. split; [intros [E|[]]; lia|intros (s & es & [] & _)].
    - remember (s0 :: l0) as l. destruct (marshal_all uni l) as [[|ts]| |] eqn:Em; try discriminate. apply inr_inj in El. subst sd.
      apply marshal_all_spec in Em. split.
      + intros Hin. apply in_concat in Hin as (es & Hes & Hin). clear Heql He. induction Em as [|s e0 l ts Hs Em IH]; [destruct Hes|].
        destruct Hes as [<- |Hes]; [exists s, e0; split; [left; reflexivity|split; assumption]|].
        destruct (IH Hes) as (s' & es' & H1 & H2). exists s', es'. split; [right; exact H1|exact H2].
      + intros (s & es & Hs & Hse & Hin). apply in_concat. exists es. split; [|exact Hin]. clear Heql He.
        induction Em as [|s1 e1 l ts Hs1 Em IH]; [destruct Hs|]. destruct Hs as [-> |Hs]; [left; congruence|right; exact (IH Hs)]. }
  destruct Hsd as (sd & Es & Hsd). unfold message_marshal in He. rewrite Es in He. rewrite <- Hsd.
  pose proof (Hw _ _ A). pose proof (Hw _ _ B). pose proof (Hw _ _ C). pose proof (Hw _ _ D).
  assert (Hp : ~ In c (priority_marshal (m_prio m))) by (intros Hin; apply marshal_bytes in Hin; lia).
  assert (Ht : ~ In c (time_format (m_time m))) by (intros Hin; apply time_format_bytes in Hin; unfold ts_byte in Hin; lia).
  assert (Hs : ~ In c [SP]) by (intros [E|[]]; lia).
  destruct (m_text m) as [|x tx]; apply inr_inj in He; subst e; rewrite !in_app_iff; cbn [In] in *; tauto.
Qed.
Print Assumptions C103_where.

(** an audit trail with LF framing: one Warning call with a chosen text, a forged kern.emerg from another host *)
Definition trail : message := create_whole_message 28 {| t_sec := 1061727255; t_nsec := 0; t_off := 0 |} (bs "web") (bs "login") (bs "7") (bs "-") (bs "x").
Definition fake : message := create_whole_message 0 {| t_sec := 0; t_nsec := 0; t_off := 0 |} (bs "db") (bs "kernel") (bs "0") (bs "-") (bs "panic").
Definition fake_text : bytes := bs "bad user bob" ++ [10%N] ++ bs "<0>1 1970-01-01T00:00:00Z db kernel 0 - - panic".

Example C103_nonvacuous :
  message_marshal (fun _ => false) fake = Val (inr (bs "<0>1 1970-01-01T00:00:00Z db kernel 0 - - panic")) /\
  (exists enc p q, message_marshal (fun _ => false) (msg_set_text trail fake_text) = Val (inr enc) /\
     o_sent (tok_run TLFEnded tok_init [(encode TLFEnded enc, None)]) = [(p, None); (q, None)] /\
     imm_text p = Val (bs "bad user bob") /\ imm_priority q = Val 0%Z /\ imm_hostname q = Val (bs "db") /\ imm_text q = Val (bs "panic")) /\
  (exists enc p, message_marshal (fun _ => false) (msg_set_text trail fake_text) = Val (inr enc) /\
     o_sent (tok_run TRFC5425 tok_init [(encode TRFC5425 enc, None)]) = [(p, None)] /\ imm_text p = Val fake_text) /\
  concat (map (encode TLFEnded) [bs "a"; bs "b"]) = encode TLFEnded (bs "a" ++ [10%N] ++ bs "b") /\
  determined TLFEnded [bs "a"] /\ ~ determined TLFEnded [bs "a"; bs "b"].
Proof.
  split; [vm_compute; reflexivity|]. split.
  { do 3 eexists. split; [vm_compute; reflexivity|]. split; [vm_compute; reflexivity|]. repeat (split; [vm_compute; reflexivity|]). vm_compute; reflexivity. }
  split. { do 2 eexists. split; [vm_compute; reflexivity|]. split; [vm_compute; reflexivity|]. vm_compute; reflexivity. }
  split; [reflexivity|]. split.
  - apply (C103_determined_iff TLFEnded 10%N _ eq_refl). split; [cbn; lia|]. constructor; [|constructor]. intros [H|[]]. discriminate.
  - intros H. apply (C103_determined_iff TLFEnded 10%N _ eq_refl) in H as [H _]. cbn in H. lia.
Qed.
