(** PropLines.v -- properties C33, C34, C36, C37 of one connection of a receiver (listener.go
    tokenize).  [tok_run t tok_init reads] is what the connection's goroutine does when the
    successive reads of the connection return [reads] (bytes and error). *)
From Verif Require Import Base BaseFacts Spec MPriority MHelpers MText MTime MSData MMessage MTransport MParse MTokenize.
From Verif Require Import LPriority LText LAtoi LTime LSData LParse LTransport LRound LResult PropMessage PropParse PropTransport LTokenize LLines LBlocked.
From Coq Require Import ZifyBool ZifyNat ZifyN.

Lemma delimiter_delim t : delimiter t = delim t.
Proof. destruct t; reflexivity. Qed.

(** ** C34 *)
(** [ls]: messages without structured data and with text, each given by its six header words and
    its text; [wire_of] is the message on the wire. *)
Definition wire_of (l : list bytes * bytes) : bytes := join (fst l) ++ bs "- " ++ snd l.
Definition message_of (c : N) (l : list bytes * bytes) : Prop := length (fst l) = 6%nat /\ Forall word (fst l) /\ ~ In c (snd l).

(** some read stops just after the '-' that stands for the structured data of some message *)
Definition stops_at_dash (t : transport) (ls : list (list bytes * bytes)) (reads : list (bytes * option read_err)) : Prop :=
  exists n before ws text after, ls = before ++ (ws, text) :: after /\
    stream (firstn n reads) = concat (map (encode t) (map wire_of before)) ++ join ws ++ bs "-".

Lemma wire_lines t c ls : delim t = Some c -> concat (map (encode t) (map wire_of ls)) = lines c ls.
Proof.
  intros Hc. unfold lines. rewrite map_map. f_equal. apply map_ext. intros l. unfold wire_of, line.
  destruct t; try discriminate; injection Hc as <-; reflexivity.
Qed.

Lemma stops_bad t c ls reads : delim t = Some c -> (stops_at_dash t ls reads <-> exists n, bad_boundary c ls (stream (firstn n reads))).
Proof.
  intros Hc. unfold stops_at_dash, bad_boundary. split.
  - intros (n & before & ws & text & after & E & H). rewrite (wire_lines t c before Hc) in H. exists n, before, ws, text, after. auto.
  - intros (n & before & ws & text & after & E & H). exists n, before, ws, text, after. rewrite (wire_lines t c before Hc). auto.
Qed.

Lemma lines_run t c ls reads : delim t = Some c -> Forall (message_of c) ls ->
  stream reads = concat (map (encode t) (map wire_of ls)) -> eof_last reads ->
  (stops_at_dash t ls reads /\ o_next (tok_run t tok_init reads) = TCrash) \/
  (~ stops_at_dash t ls reads /\ o_sent (tok_run t tok_init reads) = map line_pair ls /\ o_errs (tok_run t tok_init reads) = read_errors reads /\
   if ended reads then o_next (tok_run t tok_init reads) = TReturn []
   else exists st', o_next (tok_run t tok_init reads) = TCont st' /\ t_pending st' = []).
Proof.
  intros Hc Hok Hs Hl. rewrite (wire_lines t c ls Hc) in Hs. rewrite (stops_bad t c ls reads Hc).
  destruct (run_lines t c reads tok_init ls Hc Hok Hs) as [H|H]; [left; reflexivity| |exact Hl|left; exact H|].
  - intros (before & ws & text & after & _ & E). cbn in E. symmetry in E. apply app_eq_nil in E as [_ E]. apply app_eq_nil in E as [_ E]. discriminate.
  - right. destruct H as [H1 H2]. split; [intros [n Hn]; exact (H1 n Hn)|exact H2].
Qed.

(** Every message is delivered, in order and without error, whatever the boundaries of the reads,
    except when a read stops just after a '-': then the process crashes. *)
Theorem C34_every_segmentation : forall t c ls reads, delimiter t = Some c -> Forall (message_of c) ls ->
  stream reads = concat (map (encode t) (map wire_of ls)) -> eof_last reads -> ~ stops_at_dash t ls reads ->
  Forall2 (fun l p => parse (wire_of l) None true = Val (fst p, None, None) /\ snd p = None /\ imm_string (fst p) = wire_of l /\ imm_text (fst p) = Val (snd l))
    ls (o_sent (tok_run t tok_init reads)) /\
  o_errs (tok_run t tok_init reads) = read_errors reads /\
  if ended reads then o_next (tok_run t tok_init reads) = TReturn []
  else exists st, o_next (tok_run t tok_init reads) = TCont st /\ t_pending st = [].
Proof.
  intros t c ls reads Hc Hok Hs Hl Hn. rewrite delimiter_delim in Hc.
  destruct (lines_run t c ls reads Hc Hok Hs Hl) as [[H _]|(_ & Hsent & H)]; [contradiction|]. split; [|exact H]. rewrite Hsent.
  clear -Hok. induction Hok as [|l ls H Hok IH]; [constructor|]. cbn [map]. constructor; [|exact IH]. cbn [fst snd line_pair].
  split; [exact (line_decodes c l H)|]. split; [reflexivity|]. split; [reflexivity|].
  unfold line_msg, line. rewrite app_assoc.
  replace (Z.of_nat (length (join (fst l))) + 2)%Z with (Z.of_nat (length (join (fst l) ++ bs "- "))) by (rewrite app_length; cbn [length bs]; lia).
  rewrite text_at. destruct (length (join (fst l) ++ bs "- ") =? 0)%nat eqn:E0; [|reflexivity].
  rewrite app_length in E0. cbn [length bs] in E0. lia.
Qed.
Print Assumptions C34_every_segmentation.

Theorem C34_crash_iff : forall t c ls reads, delimiter t = Some c -> Forall (message_of c) ls ->
  stream reads = concat (map (encode t) (map wire_of ls)) -> eof_last reads ->
  (o_next (tok_run t tok_init reads) = TCrash <-> stops_at_dash t ls reads).
Proof.
  intros t c ls reads Hc Hok Hs Hl. rewrite delimiter_delim in Hc.
  destruct (lines_run t c ls reads Hc Hok Hs Hl) as [[H H']|(H & _ & _ & H')]; split; auto; [|contradiction].
  intros E. rewrite E in H'. destruct (ended reads); [discriminate|]. destruct H' as (st & H' & _). discriminate.
Qed.
Print Assumptions C34_crash_iff.

(** The same for messages built with the package: valid header fields, no structured data, some
    text without the delimiter *)
Theorem C34_messages : forall t c uni ms encs reads, delimiter t = Some c ->
  Forall (fun m => header_ok m /\ (0 <= m_prio m <= 299)%Z /\ time_valid (m_time m) /\ m_sd m = [] /\ m_text m <> [] /\ ~ In c (m_text m)) ms ->
  Forall2 (fun m e => message_marshal uni m = Val (inr e)) ms encs ->
  stream reads = concat (map (encode t) encs) -> eof_last reads ->
  (forall n before m after, ms = before ++ m :: after ->
     stream (firstn n reads) <> concat (map (encode t) (firstn (length before) encs)) ++ join (words_of m) ++ bs "-") ->
  Forall2 (fun m p => snd p = None /\ PropParse.reads (fst p) m) ms (o_sent (tok_run t tok_init reads)) /\
  map (fun p => imm_string (fst p)) (o_sent (tok_run t tok_init reads)) = encs /\
  o_errs (tok_run t tok_init reads) = read_errors reads.
Proof.
  intros t c uni ms encs reads Hc Hms Hencs Hs Hl Hn. pose proof Hc as Hd. rewrite delimiter_delim in Hd.
  set (ls := map (fun m => (words_of m, m_text m)) ms).
  assert (He : encs = map wire_of ls).
  { subst ls. clear -Hms Hencs. induction Hencs as [|m e ms encs Hm Hencs IH]; [reflexivity|]. inversion Hms as [|? ? (Hh & Hp & Ht & Hsd & Htx & _) Hms']; subst.
    cbn [map]. f_equal; [|apply IH; exact Hms'].
    destruct (C11_wire_format uni m [] Hp) as [Hw _]; [rewrite Hsd; constructor|]. rewrite Hm in Hw. apply inr_inj in Hw. rewrite Hw, wire_join.
    unfold wire_of. cbn [fst snd]. destruct (m_text m) as [|x r] eqn:E; [congruence|]. reflexivity. }
  assert (Hok : Forall (message_of c) ls).
  { subst ls. apply Forall_map. apply (Forall_impl _ (P := fun m => header_ok m /\ (0 <= m_prio m <= 299)%Z /\ time_valid (m_time m) /\ m_sd m = [] /\ m_text m <> [] /\ ~ In c (m_text m))); [|exact Hms].
    intros m (Hh & Hp & Ht & Hsd & Htx & Hnc). split; [reflexivity|]. split; [exact (words_of_word m (header_ok_words m Hh))|exact Hnc]. }
  assert (Hno : ~ stops_at_dash t ls reads).
  { intros (n & before & ws & text & after & E & H). subst ls. apply map_eq_app in E as (b1 & b2 & Ems & Eb & Ea).
    apply map_eq_cons in Ea as (m & a & -> & Em & Eaf). injection Em as <- <-.
    apply (Hn n b1 m a Ems). rewrite H, He, Ems, map_app. rewrite map_app, firstn_app. rewrite !map_length, Nat.sub_diag. cbn [firstn]. rewrite app_nil_r.
    rewrite firstn_all2 by (rewrite !map_length; lia). rewrite <- Eb. reflexivity. }
  rewrite He in Hs. destruct (C34_every_segmentation t c ls reads Hc Hok Hs Hl Hno) as (H2 & Her & _).
  split; [|split; [|exact Her]].
  - subst ls.
    clear -H2 Hms Hencs.
    revert encs Hencs H2. generalize (o_sent (tok_run t tok_init reads)).
    induction ms as [|m ms IH]; intros sent encs Hencs H2; [inversion H2; subst; constructor|].
    inversion Hms as [|? ? (Hh & Hp & Ht & Hsd & Htx & _) Hms']; subst. inversion Hencs as [|? e ? encs' Hm Hencs']; subst.
    inversion H2 as [|? p ? sent' (Hpar & Hsn & Hstr & _) H2']; subst. constructor; [|exact (IH Hms' sent' encs' Hencs' H2')].
    split; [exact Hsn|]. destruct (C13_parse_recovers_fields uni m e true Hh Hp Ht Hsd Hm) as (q & Hq & _ & Hr & _).
    assert (Ee : e = wire_of (words_of m, m_text m)).
    { destruct (C11_wire_format uni m [] Hp) as [Hw _]; [rewrite Hsd; constructor|]. rewrite Hm in Hw. apply inr_inj in Hw. rewrite Hw, wire_join.
      unfold wire_of. cbn [fst snd]. destruct (m_text m) as [|x r] eqn:E; [congruence|]. reflexivity. }
    rewrite Ee in Hq. rewrite Hpar in Hq. injection Hq as ->. exact Hr.
  - rewrite He. clear -H2. induction H2 as [|l p ls sent (_ & _ & H & _) H2 IH]; [reflexivity|]. cbn [map]. rewrite H, IH. reflexivity.
Qed.
Print Assumptions C34_messages.

(** *** structured data *)
(** A message with structured data elements and text is delivered when a read ends with it and
    starts where it starts *)
Definition sd_wire (l : list bytes * list bytes * bytes) : bytes := let '(ws, els, text) := l in join ws ++ concat els ++ SP :: text.
Definition sd_message_of (c : N) (l : list bytes * list bytes * bytes) : Prop :=
  let '(ws, els, text) := l in length ws = 6%nat /\ Forall word ws /\ els <> [] /\ Forall sd_element els /\
    text <> [] /\ text_safe text /\ ~ In c text.

Lemma concat_el_late els x : els <> [] -> Forall sd_element els -> late_space (concat els ++ x).
Proof.
  intros Hne Hf. destruct els as [|e els]; [congruence|]. destruct (Forall_inv Hf) as (name & ps & E & Hn & Hsn & Hps & _).
  destruct ps as [|[k v] ps]; [congruence|]. clear Hf Hne.
  exists (bs "[" ++ name), (k ++ bs "=""" ++ v ++ bs """" ++ concat (map (fun p => param_text (1%nat, fst p, snd p)) ps) ++ bs "]" ++ concat els ++ x).
  split; [|split].
  - rewrite E. set (f := fun p : bytes * bytes => param_text (1%nat, fst p, snd p)). cbn [concat map]. unfold f at 1. cbn [fst snd param_text repeat].
    rewrite <- !app_assoc. cbn [app]. rewrite <- ?app_assoc. reflexivity.
  - intros H. apply in_app_or in H as [[H|[]]|H]; [discriminate|]. specialize (Hsn _ H). unfold sd_name_byte in Hsn. lia.
  - rewrite app_length. destruct name; [congruence|]. cbn. lia.
Qed.

Lemma delim_char t c : delim t = Some c -> c <> RBR /\ c <> SP.
Proof. destruct t; try discriminate; intros H; injection H as <-; split; discriminate. Qed.

Lemma not_end_rbr a c : c <> RBR -> ~ exists x, a ++ [c] = x ++ [RBR].
Proof. intros Hc [x E]. apply app_inj_tail in E as [_ E]. congruence. Qed.

Lemma sd_frame_parse t c ws els text eof : delim t = Some c -> sd_message_of c (ws, els, text) ->
  exists p, parse (sd_wire (ws, els, text) ++ [c]) (Some t) eof = Val (p, Some [], None) /\
    parse (sd_wire (ws, els, text)) None true = Val (p, None, None) /\ imm_string p = sd_wire (ws, els, text) /\ imm_text p = Val text.
Proof.
  intros Hc (Hl & Hw & Hne & Hf & Htx & Hts & Hn). destruct (delim_char t c Hc) as [Hcr Hcs].
  unfold sd_wire. rewrite <- !app_assoc. cbn [app].
  set (data := join ws ++ concat els ++ SP :: text ++ [c]).
  set (m := mk data (ends 0 ws ++ el_ends (length (join ws)) els) (Z.of_nat (length (join ws) + length (concat els)) + 1)).
  assert (Hacc : accepted data m).
  { exists ws, (concat els ++ SP :: text ++ [c]). split; [exact Hl|]. split; [exact Hw|]. split; [reflexivity|]. split; [reflexivity|].
    right. right. exists els, (SP :: text ++ [c]). split; [eapply Forall_impl; [|exact Hf]; exact element_scan|]. split; [reflexivity|].
    split; [apply concat_el_late; assumption|]. split; [reflexivity|]. right. split; [discriminate|]. split; [|reflexivity]. split.
    - change (SP :: text ++ [c]) with ([SP] ++ text ++ [c]). apply bracket_safe_app; [apply bracket_safe_none; intros [H|[]]; discriminate|].
      apply bracket_safe_app; [apply Hts|]. apply bracket_safe_none. intros [H|[]]; congruence.
    - rewrite app_comm_cons. apply not_end_rbr, Hcr. }
  destruct (safe_text ws els text true Hl Hw Hne Hf Htx Hts) as [Hp Ht]. cbv zeta in Hp, Ht.
  eexists. split; [|split; [exact Hp|split; [reflexivity|exact Ht]]].
  rewrite (parse_accepted t c data eof m Hc Hacc).
  destruct (parse_return_cases m t c eof data Hc eq_refl) as (pre & tl & Hd & Hpl & Hx).
  { subst m data. cbn [i_text mk]. rewrite !app_length. cbn [length]. rewrite !app_length. lia. }
  assert (E : pre = (join ws ++ concat els) ++ [SP] /\ tl = text ++ [c]).
  { symmetry in Hd. subst data. replace (join ws ++ concat els ++ SP :: text ++ [c]) with (((join ws ++ concat els) ++ [SP]) ++ text ++ [c]) in Hd by (rewrite <- !app_assoc; reflexivity).
    apply app_inj_len in Hd; [exact Hd|]. subst m. cbn [i_text mk] in Hpl. rewrite !app_length. cbn [length]. lia. }
  destruct E as [-> ->]. destruct Hx as [(E & _)|[(a & b & E & Ha & ->)|(_ & Hno & _)]].
  - apply app_eq_nil in E as [_ E]. discriminate.
  - change [c] with (c :: []) in E. apply split_unique in E as [<- <-]; [|assumption..]. subst m. cbn [i_index i_text mk].
    unfold mk. rewrite <- !app_assoc. cbn [app]. do 4 f_equal. rewrite app_length. reflexivity.
  - exfalso. apply Hno, in_or_app. right; left; reflexivity.
Qed.

Theorem C34_one_frame_per_read : forall t c ls, delimiter t = Some c -> Forall (sd_message_of c) ls ->
  let reads := map (fun l => (encode t (sd_wire l), None)) ls in
  Forall2 (fun l p => parse (sd_wire l) None true = Val (fst p, None, None) /\ snd p = None /\ imm_string (fst p) = sd_wire l /\ imm_text (fst p) = Val (snd l))
    ls (o_sent (tok_run t tok_init reads)) /\
  exists st, o_next (tok_run t tok_init reads) = TCont st /\ t_pending st = [].
Proof.
  intros t c ls Hc. rewrite delimiter_delim in Hc.
  assert (H : forall st, t_pending st = [] -> Forall (sd_message_of c) ls ->
    let reads := map (fun l => (encode t (sd_wire l), @None read_err)) ls in
    Forall2 (fun l p => parse (sd_wire l) None true = Val (fst p, None, None) /\ snd p = None /\ imm_string (fst p) = sd_wire l /\ imm_text (fst p) = Val (snd l))
    ls (o_sent (tok_run t st reads)) /\ exists st', o_next (tok_run t st reads) = TCont st' /\ t_pending st' = []).
  { induction ls as [|[[ws els] text] ls IH]; intros st Hst Hok; cbn [map tok_run].
    - split; [constructor|]. exists st. auto.
    - inversion Hok as [|? ? Hm Hok']; subst.
      assert (Hfr : encode t (sd_wire (ws, els, text)) = sd_wire (ws, els, text) ++ [c]) by (destruct t; try discriminate; injection Hc as <-; reflexivity).
      rewrite Hfr. destruct (sd_frame_parse t c ws els text false Hc Hm) as (p & Hp & Hp0 & Hs & Ht).
      destruct (step_nonempty t st (sd_wire (ws, els, text) ++ [c]) None [(p, None)] (Val [])) as [H1 H2].
      { destruct (sd_wire (ws, els, text)); discriminate. }
      { rewrite Hst. cbn [app is_eof tok_inner]. rewrite Hp. reflexivity. }
      rewrite H2. cbn [is_eof o_next o_sent]. rewrite H1.
      match goal with |- context [tok_run t ?s _] => destruct (IH s eq_refl Hok') as [IH1 IH2] end.
      split; [|exact IH2]. cbn [app]. constructor; [|exact IH1]. cbn [fst snd]. auto. }
  intros Hok. exact (H tok_init eq_refl Hok).
Qed.
Print Assumptions C34_one_frame_per_read.

(** Two such messages in the same read are delivered as one *)
Theorem C34_structured_data_merged : forall t c l1 l2, delimiter t = Some c -> sd_message_of c l1 -> sd_message_of c l2 ->
  Forall (fun w => ~ In RBR w) (fst (fst l2)) ->
  exists p, o_sent (tok_run t tok_init [(encode t (sd_wire l1) ++ encode t (sd_wire l2), None)]) = [(p, None)] /\
    imm_string p = sd_wire l1 ++ [c] ++ sd_wire l2 /\ imm_text p = Val (snd l2).
Proof.
  intros t c [[ws els] text] [[ws2 els2] text2] Hc H1 H2 Hrb. rewrite delimiter_delim in Hc. cbn [fst snd] in Hrb |- *.
  destruct (delim_char t c Hc) as [Hcr Hcs].
  destruct H1 as (Hl & Hw & Hne & Hf & Htx & Hts & Hn). destruct H2 as (Hl2 & Hw2 & Hne2 & Hf2 & Htx2 & Hts2 & Hn2).
  assert (Hfr : forall d, encode t d = d ++ [c]) by (intros; destruct t; try discriminate; injection Hc as <-; reflexivity). rewrite !Hfr.
  destruct els2 as [|e2 els2]; [congruence|]. inversion Hf2 as [|? ? He2 Hf2']; subst.
  destruct (element_scan _ He2) as (body & Ee & Hbody).
  set (big := (SP :: text ++ c :: join ws2 ++ body) ++ [QUO; RBR]).
  set (E := els ++ big :: els2).
  set (data := join ws ++ concat E ++ SP :: text2 ++ [c]).
  assert (Hdata : (sd_wire (ws, els, text) ++ [c]) ++ sd_wire (ws2, e2 :: els2, text2) ++ [c] = data).
  { subst data E big. unfold sd_wire. rewrite concat_app. cbn [concat]. rewrite Ee, <- !app_assoc. cbn [app]. rewrite <- !app_assoc. cbn [app]. rewrite <- !app_assoc. reflexivity. }
  assert (HE : Forall scan_element E).
  { apply Forall_app. split; [eapply Forall_impl; [|exact Hf]; exact element_scan|]. constructor; [|eapply Forall_impl; [|exact Hf2']; exact element_scan].
    eexists. split; [reflexivity|]. change (SP :: text ++ c :: join ws2 ++ body) with ([SP] ++ text ++ [c] ++ join ws2 ++ body).
    apply bracket_safe_app; [apply bracket_safe_none; intros [H|[]]; discriminate|]. apply bracket_safe_app; [apply Hts|].
    apply bracket_safe_app; [apply bracket_safe_none; intros [H|[]]; congruence|]. apply bracket_safe_app; [|exact Hbody]. apply bracket_safe_none.
    clear -Hrb. induction Hrb as [|w l H _ IH]; [intros []|]. rewrite join_cons. intros Hin. apply in_app_or in Hin as [Hin|[Hin|Hin]]; [contradiction|discriminate|contradiction]. }
  set (m := mk data (ends 0 ws ++ el_ends (length (join ws)) E) (Z.of_nat (length (join ws) + length (concat E)) + 1)).
  assert (Hacc : accepted data m).
  { exists ws, (concat E ++ SP :: text2 ++ [c]). split; [exact Hl|]. split; [exact Hw|]. split; [reflexivity|]. split; [reflexivity|].
    right. right. exists E, (SP :: text2 ++ [c]). split; [exact HE|]. split; [reflexivity|].
    split; [subst E; rewrite concat_app, <- app_assoc; apply concat_el_late; assumption|]. split; [reflexivity|]. right. split; [discriminate|]. split; [|reflexivity]. split.
    - change (SP :: text2 ++ [c]) with ([SP] ++ text2 ++ [c]). apply bracket_safe_app; [apply bracket_safe_none; intros [H|[]]; discriminate|].
      apply bracket_safe_app; [apply Hts2|]. apply bracket_safe_none. intros [H|[]]; congruence.
    - rewrite app_comm_cons. apply not_end_rbr, Hcr. }
  assert (Hpar : parse data (Some t) false = Val (mk ((join ws ++ concat E ++ [SP]) ++ text2) (i_index m) (i_text m), Some [], None)).
  { rewrite (parse_accepted t c data false m Hc Hacc).
    destruct (parse_return_cases m t c false data Hc eq_refl) as (pre & tl & Hd & Hpl & Hx).
    { subst m data. cbn [i_text mk]. rewrite !app_length. cbn [length]. rewrite !app_length. lia. }
    assert (Ex : pre = join ws ++ concat E ++ [SP] /\ tl = text2 ++ [c]).
    { symmetry in Hd. subst data. replace (join ws ++ concat E ++ SP :: text2 ++ [c]) with ((join ws ++ concat E ++ [SP]) ++ text2 ++ [c]) in Hd by (rewrite <- !app_assoc; reflexivity).
      apply app_inj_len in Hd; [exact Hd|]. subst m. cbn [i_text mk] in Hpl. rewrite !app_length. cbn [length]. lia. }
    destruct Ex as [-> ->]. destruct Hx as [(Ex & _)|[(a & b & Ex & Ha & ->)|(_ & Hno & _)]].
    - apply app_eq_nil in Ex as [_ Ex]. discriminate.
    - change [c] with (c :: []) in Ex. apply split_unique in Ex as [<- <-]; [|assumption..]. reflexivity.
    - exfalso. apply Hno, in_or_app. right; left; reflexivity. }
  eexists. cbn [tok_run].
  destruct (step_nonempty t tok_init ((sd_wire (ws, els, text) ++ [c]) ++ sd_wire (ws2, e2 :: els2, text2) ++ [c]) None
     [(mk ((join ws ++ concat E ++ [SP]) ++ text2) (i_index m) (i_text m), None)] (Val [])) as [H1 H2].
  { rewrite Hdata. subst data. destruct (join ws); [destruct (concat E)|]; discriminate. }
  { cbn [t_pending tok_init app is_eof]. rewrite Hdata. cbn [tok_inner]. rewrite Hpar. reflexivity. }
  rewrite H2. cbn [is_eof o_next o_sent app]. rewrite H1. split; [reflexivity|]. split.
  - cbn [imm_string mk i_buf]. subst E big. unfold sd_wire. rewrite concat_app. cbn [concat]. rewrite Ee, <- !app_assoc. cbn [app]. rewrite <- !app_assoc. cbn [app]. rewrite <- !app_assoc. reflexivity.
  - replace (i_text m) with (Z.of_nat (length (join ws ++ concat E ++ [SP]))) by (subst m; cbn [i_text mk]; rewrite !app_length; cbn [length]; lia).
    rewrite text_at. rewrite !app_length. cbn [length]. destruct (Nat.eqb_spec (length (join ws) + (length (concat E) + 1)) 0); [lia|reflexivity].
Qed.
Print Assumptions C34_structured_data_merged.

(** The claim for every message and every segmentation is false: a read that stops after '-'
    crashes; messages with structured data are merged; messages without text are held back
    until the next message, and lost when there is none. *)
Theorem C34_all_messages_refuted : let l := bs "<1>1 - h a p m - hello" in let s := bs "<2>1 - h a p m [x@1 k=""v""] hi" in let e := bs "<3>1 - h a p m -" in
  o_next (tok_run TLFEnded tok_init [(firstn 16 l, None); (skipn 16 l ++ [LF], None)]) = TCrash /\
  (exists p, o_sent (tok_run TLFEnded tok_init [(encode TLFEnded s ++ encode TLFEnded s, None)]) = [(p, None)]) /\
  o_sent (tok_run TLFEnded tok_init [(encode TLFEnded e, None); ([], Some REOF)]) = [] /\
  (exists p q, o_sent (tok_run TLFEnded tok_init [(encode TLFEnded e, None); (encode TLFEnded l, None)]) = [(p, None); (q, None)]).
Proof. cbv zeta. split; [vm_compute; reflexivity|]. split; [eexists; vm_compute; reflexivity|]. split; [vm_compute; reflexivity|]. do 2 eexists; vm_compute; reflexivity. Qed.
Print Assumptions C34_all_messages_refuted.

Definition ex_words : list bytes := [bs "<1>1"; bs "-"; bs "h"; bs "a"; bs "p"; bs "m"].
Lemma ex_words_ok : length ex_words = 6%nat /\ Forall word ex_words /\ Forall (fun w => ~ In RBR w) ex_words.
Proof.
  split; [reflexivity|]. split; repeat (constructor; [|]); try constructor; try discriminate;
    intros H; cbn in H; repeat (destruct H as [H|H]; [discriminate|]); exact H.
Qed.
Definition ex_lines : list (list bytes * bytes) := [(ex_words, bs "one"); (ex_words, bs "- t]wo ""]"); (ex_words, [])].
Definition ex_line_reads : list (bytes * option read_err) :=
  [(bs "<1>1 - h a p", None); (bs " m - on", Some (ROther 3)); (bs "e" ++ [LF] ++ bs "<1>1 - h a p m - - t]wo ""]", None); ([], None);
   ([LF] ++ bs "<1>1 - h a p m - " ++ [LF], Some REOF)].

Lemma ex_not_at_dash : ~ stops_at_dash TLFEnded ex_lines ex_line_reads.
Proof.
  intros (n & before & ws & text & after & E & H).
  destruct before as [|b1 [|b2 [|b3 before]]]; cbn in E.
  - injection E as <- <- _. do 5 (destruct n as [|n]; [vm_compute in H; discriminate|]). rewrite firstn_all2 in H by (cbn; lia). vm_compute in H. discriminate.
  - injection E as <- <- <- _. do 5 (destruct n as [|n]; [vm_compute in H; discriminate|]). rewrite firstn_all2 in H by (cbn; lia). vm_compute in H. discriminate.
  - injection E as <- <- <- <- _. do 5 (destruct n as [|n]; [vm_compute in H; discriminate|]). rewrite firstn_all2 in H by (cbn; lia). vm_compute in H. discriminate.
  - destruct before; discriminate.
Qed.

Lemma ex_element : sd_element (bs "[x@1 k=""v""]").
Proof.
  exists (bs "x@1"), [(bs "k", bs "v")]. split; [reflexivity|]. destruct sample_sd_ok as (H1 & H2 & H3 & H4 & _). auto.
Qed.

Example C34_nonvacuous :
  Forall (message_of 10%N) ex_lines /\ stream ex_line_reads = concat (map (encode TLFEnded) (map wire_of ex_lines)) /\ eof_last ex_line_reads /\
  ~ stops_at_dash TLFEnded ex_lines ex_line_reads /\ reads_ok TLFEnded tok_init ex_line_reads /\ length (o_sent (tok_run TLFEnded tok_init ex_line_reads)) = 3%nat /\
  sd_message_of 0%N (ex_words, [bs "[x@1 k=""v""]"; bs "[x@1 k=""v""]"], bs "hi \] there").
Proof.
  destruct ex_words_ok as (A & B & C).
  split; [repeat (constructor; [split; [exact A|split; [exact B|cbn; intros H; repeat (destruct H as [H|H]; [discriminate|]); exact H]]|]); constructor|].
  split; [vm_compute; reflexivity|]. split; [repeat split; intros; discriminate|]. split; [exact ex_not_at_dash|].
  split; [|split; [vm_compute; reflexivity|]].
  - repeat (split; [vm_compute; discriminate|]; match goal with |- context [o_next ?x] => let v := eval vm_compute in (o_next x) in replace (o_next x) with v by (vm_compute; reflexivity) end; cbn iota).
    reflexivity.
  - split; [exact A|]. split; [exact B|]. split; [discriminate|]. split; [constructor; [exact ex_element|constructor; [exact ex_element|constructor]]|]. split; [discriminate|].
    split; [|cbn; intros H; repeat (destruct H as [H|H]; [discriminate|]); exact H]. split.
    + change (bs "hi \] there") with ((bs "hi " ++ [BSL; RBR]) ++ bs " there"). apply bracket_safe_app.
      * apply bracket_safe_escaped. cbn. intros H; repeat (destruct H as [H|H]; [discriminate|]); exact H.
      * apply bracket_safe_none. cbn. intros H; repeat (destruct H as [H|H]; [discriminate|]); exact H.
    + change (bs "hi \] there") with (bs "hi \] ther" ++ bs "e"). apply not_end_rbr. discriminate.
Qed.

(** ** C33 *)
Lemma blocked_step t c st chunk err : delim t = Some c -> blocked (t_pending st) \/ (exists a b, t_pending st = a ++ b /\ blocked a) ->
  o_sent (tok_step t st chunk err) = [] /\
  match o_next (tok_step t st chunk err) with
  | TCont st' => t_pending st' = t_pending st ++ chunk
  | TReturn l => l = t_pending st ++ chunk /\ is_eof err = true
  | TCrash => False
  end.
Proof.
  intros Hc Hb. assert (Hb' : exists a b, t_pending st = a ++ b /\ blocked a).
  { destruct Hb as [H|H]; [exists (t_pending st), []; rewrite app_nil_r; auto|exact H]. }
  destruct Hb' as (a & b & E & Ha). destruct chunk as [|x chunk].
  - rewrite step_empty. cbn. split; [reflexivity|]. rewrite app_nil_r. destruct (is_eof err); auto.
  - destruct (parse_not_accepted t c (t_pending st ++ x :: chunk) (is_eof err) Hc) as [e He].
    { intros m. rewrite E, <- app_assoc. apply blocked_not_accepted, Ha. }
    destruct (step_nonempty t st (x :: chunk) err [] (Val (t_pending st ++ x :: chunk))) as [H1 H2]; [discriminate| |].
    { cbn [tok_inner]. rewrite He. reflexivity. }
    split; [exact H1|]. rewrite H2. destruct (is_eof err); auto.
Qed.

Lemma blocked_run t c reads : forall st, delim t = Some c -> (exists a b, t_pending st = a ++ b /\ blocked a) ->
  o_sent (tok_run t st reads) = [] /\ o_next (tok_run t st reads) <> TCrash.
Proof.
  induction reads as [|[chunk err] more IH]; intros st Hc Hb; cbn [tok_run]; [split; [reflexivity|discriminate]|].
  destruct (blocked_step t c st chunk err Hc (or_intror Hb)) as [H1 H2].
  destruct (o_next (tok_step t st chunk err)) as [st'| |] eqn:En; [|rewrite En; split; [exact H1|discriminate]|destruct H2].
  cbn [o_sent o_next]. rewrite H1. cbn [app]. apply IH; [exact Hc|]. destruct Hb as (a & b & E & Ha). exists a, (b ++ chunk). rewrite H2, E, app_assoc. auto.
Qed.

(** Nothing more is ever delivered by a LF (NUL) connection, whatever it receives, if and only if
    what it keeps is blocked: an empty word in the header, or a wrong structured data field *)
Theorem C33_stuck_iff : forall t c st, delimiter t = Some c ->
  (blocked (t_pending st) <-> forall reads, o_sent (tok_run t st reads) = []).
Proof.
  intros t c st Hc. rewrite delimiter_delim in Hc. split.
  - intros Hb reads. apply (blocked_run t c reads st Hc). exists (t_pending st), []. rewrite app_nil_r. auto.
  - intros H. destruct (blocked_or_completed t c (t_pending st) Hc) as [Hb|(ext & Hl & m & r & Hp)]; [exact Hb|]. exfalso.
    specialize (H [(ext, None)]). cbn [tok_run] in H. destruct ext as [|x ext]; [cbn in Hl; lia|].
    destruct (tok_inner (S (length (t_pending st ++ x :: ext))) t (is_eof None) (t_pending st ++ x :: ext)) as [sent q] eqn:Ei.
    destruct (step_nonempty t st (x :: ext) None sent q ltac:(discriminate) Ei) as [H1 _].
    assert (Hs : sent <> []).
    { cbn [tok_inner is_eof] in Ei. rewrite Hp in Ei. destruct (length r =? 0)%nat; [injection Ei as <- _; discriminate|].
      destruct (tok_inner _ t false r). injection Ei as <- _. discriminate. }
    destruct (o_next (tok_step t st (x :: ext) None)); cbn [o_sent] in H; rewrite H1 in H; [apply app_eq_nil in H as [H _]|..]; contradiction.
Qed.
Print Assumptions C33_stuck_iff.

(** ... and then it neither crashes nor stops before the end of the stream, and reports nothing
    but the errors of the reads *)
Theorem C33_stuck_silent : forall t c st reads, delimiter t = Some c -> blocked (t_pending st) -> ended reads = false ->
  o_errs (tok_run t st reads) = read_errors reads /\
  exists st', o_next (tok_run t st reads) = TCont st' /\ t_pending st' = t_pending st ++ stream reads.
Proof.
  intros t c st reads Hc Hb He. rewrite delimiter_delim in Hc.
  assert (Hb' : exists a b, t_pending st = a ++ b /\ blocked a) by (exists (t_pending st), []; rewrite app_nil_r; auto). clear Hb.
  revert st Hb'. induction reads as [|[chunk err] more IH]; intros st Hb; cbn [tok_run].
  - split; [reflexivity|]. exists st. unfold stream. cbn. rewrite app_nil_r. auto.
  - cbn in He. apply orb_false_iff in He as [He1 He2].
    destruct (blocked_step t c st chunk err Hc (or_intror Hb)) as [H1 H2].
    destruct (o_next (tok_step t st chunk err)) as [st'| |] eqn:En; [|destruct H2 as [_ H2]; cbn in He1; congruence|destruct H2].
    cbn [o_errs o_next]. rewrite step_errs. destruct (IH He2 st') as (IH1 & st2 & IH2 & IH3).
    { destruct Hb as (a & b & E & Ha). exists a, (b ++ chunk). rewrite H2, E, app_assoc. auto. }
    rewrite IH1. split; [reflexivity|]. exists st2. split; [exact IH2|]. rewrite IH3, H2. unfold stream. cbn [map fst concat]. rewrite app_assoc. reflexivity.
Qed.
Print Assumptions C33_stuck_silent.

(** A connection that is not stuck needs at most 15 more bytes to deliver something *)
Theorem C33_not_stuck : forall t c st, delimiter t = Some c -> ~ blocked (t_pending st) ->
  exists ext, (1 <= length ext <= 15)%nat /\ o_sent (tok_run t st [(ext, None)]) <> [].
Proof.
  intros t c st Hc Hb. rewrite delimiter_delim in Hc.
  destruct (blocked_or_completed t c (t_pending st) Hc) as [H|(ext & Hl & m & r & Hp)]; [contradiction|]. exists ext. split; [exact Hl|].
  cbn [tok_run]. destruct ext as [|x ext]; [cbn in Hl; lia|].
  destruct (tok_inner (S (length (t_pending st ++ x :: ext))) t (is_eof None) (t_pending st ++ x :: ext)) as [sent q] eqn:Ei.
  destruct (step_nonempty t st (x :: ext) None sent q ltac:(discriminate) Ei) as [H1 _].
  assert (Hs : sent <> []).
  { cbn [tok_inner is_eof] in Ei. rewrite Hp in Ei. destruct (length r =? 0)%nat; [injection Ei as <- _; discriminate|].
    destruct (tok_inner _ t false r). injection Ei as <- _. discriminate. }
  destruct (o_next (tok_step t st (x :: ext) None)); cbn [o_sent]; rewrite H1; [intros H; apply app_eq_nil in H as [H _]; contradiction|exact Hs..].
Qed.
Print Assumptions C33_not_stuck.

(** A malformed line without space is glued to the message that follows it, and the result is
    delivered without error *)
Theorem C33_junk_glued : forall t c junk w ws text, delimiter t = Some c -> ~ In SP junk -> message_of c (w :: ws, text) ->
  exists p, o_sent (tok_run t tok_init [(encode t junk ++ encode t (wire_of (w :: ws, text)), None)]) = [(p, None)] /\
    imm_string p = junk ++ [c] ++ wire_of (w :: ws, text).
Proof.
  intros t c junk w ws text Hc Hj (Hl & Hw & Hn). rewrite delimiter_delim in Hc. destruct (delim_char t c Hc) as [_ Hcs].
  assert (Hfr : forall d, encode t d = d ++ [c]) by (intros; destruct t; try discriminate; injection Hc as <-; reflexivity). rewrite !Hfr.
  cbn [fst snd] in *. inversion Hw as [|? ? [H1 H2] Hw']; subst.
  assert (Hok : line_ok c ((junk ++ c :: w) :: ws, text)).
  { split; [exact Hl|]. split; [|exact Hn]. constructor; [|exact Hw']. split; [destruct junk; discriminate|].
    intros H. apply in_app_or in H as [H|[H|H]]; [contradiction|congruence|contradiction]. }
  assert (E : (junk ++ [c]) ++ wire_of (w :: ws, text) ++ [c] = line ((junk ++ c :: w) :: ws, text) ++ c :: []).
  { unfold wire_of, line. cbn [fst snd]. rewrite !join_cons, <- !app_assoc. reflexivity. }
  eexists. cbn [tok_run].
  destruct (step_nonempty t tok_init ((junk ++ [c]) ++ wire_of (w :: ws, text) ++ [c]) None [(line_msg ((junk ++ c :: w) :: ws, text), None)] (Val [])) as [H3 H4].
  { destruct junk; discriminate. }
  { cbn [t_pending tok_init app is_eof]. rewrite E. cbn [tok_inner]. rewrite (line_complete t c _ [] false Hc Hok). reflexivity. }
  rewrite H4. cbn [is_eof o_next o_sent app]. rewrite H3. split; [reflexivity|].
  unfold imm_string. cbn [line_msg mk i_buf]. unfold wire_of, line. cbn [fst snd]. rewrite !join_cons, <- !app_assoc. reflexivity.
Qed.
Print Assumptions C33_junk_glued.

(** The claim is false: a line with an empty word stops everything *)
Theorem C33_malformed_line_refuted : forall t c reads, delimiter t = Some c ->
  o_sent (tok_run t tok_init ((encode t (bs "<1>1  h a p m - hi"), None) :: reads)) = [].
Proof.
  intros t c reads Hc. rewrite delimiter_delim in Hc. cbn [tok_run].
  assert (Hfr : forall d, encode t d = d ++ [c]) by (intros; destruct t; try discriminate; injection Hc as <-; reflexivity). rewrite Hfr.
  assert (Hb : blocked (bs "<1>1  ")).
  { left. exists [bs "<1>1"], []. split; [cbn; lia|]. split; [|reflexivity]. constructor; [|constructor]. split; [discriminate|].
    cbn. intros H; repeat (destruct H as [H|H]; [discriminate|]); exact H. }
  set (st0 := {| t_pending := bs "<1>1  "; t_buflen := read_buffer |}).
  (* the first read leaves everything pending *)
  destruct (parse_not_accepted t c (bs "<1>1  h a p m - hi" ++ [c]) false Hc) as [e He].
  { intros m. change (bs "<1>1  h a p m - hi" ++ [c]) with (bs "<1>1  " ++ (bs "h a p m - hi" ++ [c])). apply blocked_not_accepted, Hb. }
  destruct (step_nonempty t tok_init (bs "<1>1  h a p m - hi" ++ [c]) None [] (Val (bs "<1>1  h a p m - hi" ++ [c]))) as [H1 H2]; [discriminate| |].
  { cbn [t_pending tok_init app is_eof]. change (bs "<1>1  h a p m - hi" ++ [c]) with (bs "<1>1  h a p m - hi" ++ [c]) in He. cbn [tok_inner].
    rewrite He. reflexivity. }
  rewrite H2. cbn [is_eof o_sent]. rewrite H1. cbn [app].
  refine (proj1 (blocked_run t c reads _ Hc _)). cbn [t_pending]. exists (bs "<1>1  "), (bs "h a p m - hi" ++ [c]). split; [reflexivity|exact Hb].
Qed.
Print Assumptions C33_malformed_line_refuted.

Example C33_nonvacuous : ~ In SP (bs "hello") /\ message_of 10%N (ex_words, bs "one") /\
  blocked (bs " bad") /\ blocked (bs "<1>1 - h a p m [x] hi") /\ ~ blocked (bs "hello") /\ ~ blocked (bs "<1>1 - h a p m [x k=""v\]"" y=""").
Proof.
  destruct ex_words_ok as (A & B & C).
  split; [cbn; intros H; repeat (destruct H as [H|H]; [discriminate|]); exact H|].
  split; [split; [exact A|split; [exact B|cbn; intros H; repeat (destruct H as [H|H]; [discriminate|]); exact H]]|].
  split; [left; exists [], (bs "bad"); split; [cbn; lia|split; [constructor|reflexivity]]|].
  split.
  { right. exists ex_words, (bs "[x] hi"). split; [exact A|]. split; [exact B|]. split; [vm_compute; reflexivity|]. right. split; [discriminate|].
    exists [], (bs "[x"), (bs " hi"). split; [constructor|]. split; [reflexivity|]. split.
    - apply bracket_safe_none. cbn. intros H; repeat (destruct H as [H|H]; [discriminate|]); exact H.
    - right. exists (bs "["), 120%N. split; [reflexivity|]. split; discriminate. }
  assert (Hd : forall d ext p r, parse (d ++ ext) (Some TLFEnded) false = Val (p, Some r, None) -> ~ blocked d).
  { intros d ext p r H Hb. destruct (parse_not_accepted TLFEnded LF (d ++ ext) false eq_refl) as [e He]; [|congruence].
    intros m. apply blocked_not_accepted, Hb. }
  split.
  - eapply (Hd _ (bs "x - - - - - - hi" ++ [LF])). vm_compute. reflexivity.
  - eapply (Hd _ (bs "z""] hi" ++ [LF])). vm_compute. reflexivity.
Qed.

(** ** C36 *)
Lemma run_errs t reads : forall st, reads_ok t st reads -> o_errs (tok_run t st reads) = read_errors reads.
Proof.
  induction reads as [|[chunk err] more IH]; intros st Hok; cbn [tok_run]; [reflexivity|]. cbn [reads_ok] in Hok. destruct Hok as [_ Hok].
  unfold read_errors. cbn [map concat snd]. fold (read_errors more). pose proof (step_errs t st chunk err) as He.
  destruct (o_next (tok_step t st chunk err)) as [st'| |] eqn:En.
  - cbn [o_errs]. rewrite He, (IH st' Hok). reflexivity.
  - subst more. rewrite He. cbn. rewrite app_nil_r. reflexivity.
  - subst more. rewrite He. cbn. rewrite app_nil_r. reflexivity.
Qed.

(** Every byte received belongs to a delivered piece (a line with its delimiter, an RFC 5425 frame)
    or to a rest that nothing reports: the only errors the user sees besides those are the errors
    of the reads *)
Theorem C36_accounting : forall t reads, reads_ok t tok_init reads ->
  let o := tok_run t tok_init reads in
  exists pieces left, stream reads = concat pieces ++ left /\ Forall2 (carries t) pieces (o_sent o) /\ o_errs o = read_errors reads /\
    match o_next o with
    | TCont st => t_pending st = left
    | TReturn l => l = left
    | TCrash => exists eof, parse left (Some t) eof = Panic
    end.
Proof.
  intros t reads Hok. cbv zeta. destruct (run_spec t reads tok_init Hok) as (pieces & left & H1 & H2 & H3). exists pieces, left.
  split; [exact H1|]. split; [exact H2|]. split; [exact (run_errs t reads tok_init Hok)|exact H3].
Qed.
Print Assumptions C36_accounting.

(** A decoding error is only ever reported for a complete RFC 5425 frame whose payload is not a
    message; LF and NUL connections never report one *)
Theorem C36_reported_errors : forall t reads p e, reads_ok t tok_init reads -> In (p, Some e) (o_sent (tok_run t tok_init reads)) ->
  t = TRFC5425 /\ p = zero_immutable /\ exists before hdr d after, stream reads = before ++ hdr ++ d ++ after /\ length_header hdr /\ parse d None true = Val (zero_immutable, None, Some e).
Proof.
  intros t reads p e Hok Hin. destruct (run_spec t reads tok_init Hok) as (pieces & left & H1 & H2 & _).
  apply in_split in Hin as (l1 & l2 & E). rewrite E in H2. apply Forall2_app_inv_r in H2 as (p1 & p2 & _ & H2 & Ep).
  inversion H2 as [|piece ? p2' ? Hc _]; subst. unfold carries in Hc. cbn [fst snd] in Hc.
  destruct (delimiter t) as [c|] eqn:Ed; [destruct Hc as (_ & H & _); discriminate|]. destruct t; try discriminate. split; [reflexivity|].
  destruct Hc as (hdr & d & -> & Hh & Hp).
  assert (Hz : p = zero_immutable). { destruct (parse_none_spec d true) as (m & e' & H & Hs). rewrite H in Hp. injection Hp as <- ->. exact Hs. }
  split; [exact Hz|]. exists (concat p1), hdr, d, (concat p2' ++ left). subst p. split; [|auto].
  cbn [t_pending tok_init app] in H1. rewrite H1, concat_app. cbn [concat]. rewrite <- !app_assoc. reflexivity.
Qed.
Print Assumptions C36_reported_errors.

(** A last line without its delimiter is dropped and nothing says so *)
Theorem C36_unterminated_line_dropped : forall t c reads, delimiter t = Some c -> reads_ok t tok_init reads -> ~ In c (stream reads) ->
  o_sent (tok_run t tok_init reads) = [] /\ o_errs (tok_run t tok_init reads) = read_errors reads.
Proof.
  intros t c reads Hc Hok Hn. split; [|exact (run_errs t reads tok_init Hok)].
  destruct (run_spec t reads tok_init Hok) as (pieces & left & H1 & H2 & _). destruct H2 as [|piece p pieces sent Hp H2]; [reflexivity|].
  exfalso. unfold carries in Hp. rewrite Hc in Hp. destruct Hp as (_ & _ & ->). apply Hn. cbn [t_pending tok_init app] in H1. rewrite H1.
  cbn [concat]. rewrite <- !app_assoc. apply in_or_app. right. left. reflexivity.
Qed.
Print Assumptions C36_unterminated_line_dropped.

(** A length header that is not a number: nothing is ever delivered or reported again *)
Definition bad_header (data : bytes) : Prop :=
  (exists r, data = SP :: r) \/ (exists h r, data = h ++ SP :: r /\ ~ In SP h /\ forall n, ~ int64_text h n).

Lemma bad_header_app data ext : bad_header data -> bad_header (data ++ ext).
Proof.
  intros [(r & ->)|(h & r & -> & H1 & H2)]; [left; exists (r ++ ext); reflexivity|right]. exists h, (r ++ ext). rewrite <- app_assoc. auto.
Qed.

Lemma bad_header_parse data eof : bad_header data -> exists e, parse data (Some TRFC5425) eof = Val (zero_immutable, None, e).
Proof.
  intros Hb. unfold parse. cbn [prefix_strip].
  assert (Hzz : forall er, parse_body (Some TRFC5425) eof [] None (Some er) = Val (zero_immutable, None, Some er)) by reflexivity.
  destruct (rfc_strip_cases data eof) as [(_ & Hs)|(_ & [(Hs & _)|(h & r & Hd & Hh & Hnh & Hx)])].
  - rewrite Hs. cbn. eauto.
  - rewrite Hs. cbn [bind]. rewrite Hzz. eauto.
  - assert (Ha : atoi h = None).
    { destruct Hb as [(q & E)|(h' & r' & E & H1 & H2)].
      - rewrite E in Hd. destruct h as [|h0 h]; [congruence|]. injection Hd as <- _. exfalso. apply Hnh. left; reflexivity.
      - rewrite E in Hd. apply (split_unique SP) in Hd as [-> _]; [|assumption..]. apply atoi_none, H2. }
    destruct Hx as [(_ & Hs)|(n & En & _)]; [|congruence]. rewrite Hs. cbn [bind]. rewrite Hzz. eauto.
Qed.

Theorem C36_bad_header_silent : forall st reads, bad_header (t_pending st) ->
  o_sent (tok_run TRFC5425 st reads) = [] /\ o_next (tok_run TRFC5425 st reads) <> TCrash.
Proof.
  intros st reads. revert st. induction reads as [|[chunk err] more IH]; intros st Hb; cbn [tok_run]; [split; [reflexivity|discriminate]|].
  destruct chunk as [|x chunk].
  - rewrite step_empty. cbn [o_next]. destruct (is_eof err); cbn [o_next o_sent]; [split; [reflexivity|discriminate]|]. exact (IH st Hb).
  - destruct (bad_header_parse (t_pending st ++ x :: chunk) (is_eof err) (bad_header_app _ _ Hb)) as [e He].
    destruct (step_nonempty TRFC5425 st (x :: chunk) err [] (Val (t_pending st ++ x :: chunk))) as [H1 H2]; [discriminate| |].
    { cbn [tok_inner]. rewrite He. reflexivity. }
    rewrite H2. destruct (is_eof err); [rewrite H2, H1; split; [reflexivity|discriminate]|]. cbn [o_next o_sent]. rewrite H1. cbn [app].
    apply IH. cbn [t_pending]. apply bad_header_app, Hb.
Qed.
Print Assumptions C36_bad_header_silent.

(** A frame cut by the end of the connection is dropped and nothing says so *)
Lemma cut_frame_parse p z d eof m r e : fits d -> encode TRFC5425 d = p ++ z -> z <> [] -> parse p (Some TRFC5425) eof = Val (m, Some r, e) -> False.
Proof.
  intros Hf He Hz Hp. destruct (parse_rfc_inv _ _ _ _ _ Hp) as [(_ & E & _)|[(h & n & d' & q & Hd & Hh & Hnh & Ha & Hl & _)|(h & n & d' & _ & _ & _ & _ & _ & E & _)]]; [discriminate| |discriminate].
  cbn [encode] in He. rewrite itoa_nat, Hd, <- app_assoc in He. cbn [app] in He.
  apply (split_unique SP) in He; [|apply digits_no_space, utoa_digits|exact Hnh]. destruct He as [E1 E2]. subst h.
  assert (Ha' : atoi (utoa (N.of_nat (length d))) = Some (Z.of_nat (length d))).
  { rewrite <- itoa_nat. apply atoi_itoa. unfold fits in Hf. cbn [encode] in Hf. rewrite !app_length in Hf. lia. }
  rewrite Ha in Ha'. injection Ha' as ->. unfold fits in Hf. cbn [encode] in Hf. rewrite itoa_nat, !app_length in Hf. cbn [length] in Hf.
  rewrite wrap64_id in Hl by lia. apply (f_equal (@length N)) in E2. rewrite !app_length in E2. destruct z; [congruence|]. cbn in E2. lia.
Qed.

Theorem C36_cut_frame_dropped : forall d reads z, fits d -> stream reads ++ z = encode TRFC5425 d -> z <> [] -> reads_ok TRFC5425 tok_init reads ->
  o_sent (tok_run TRFC5425 tok_init reads) = [] /\ o_errs (tok_run TRFC5425 tok_init reads) = read_errors reads.
Proof.
  intros d reads z Hf Hs Hz Hok. split; [|exact (run_errs _ reads tok_init Hok)].
  change (stream reads ++ z) with (t_pending tok_init ++ stream reads ++ z) in Hs. clear Hok. revert Hs. generalize tok_init.
  induction reads as [|[chunk err] more IH]; intros st Hs; cbn [tok_run]; [reflexivity|].
  unfold stream in Hs. cbn [map fst concat] in Hs. fold (stream more) in Hs. destruct chunk as [|x chunk].
  - rewrite step_empty. cbn [o_next]. destruct (is_eof err); cbn [o_next o_sent]; [reflexivity|]. exact (IH st Hs).
  - assert (Hi : exists r, tok_inner (S (length (t_pending st ++ x :: chunk))) TRFC5425 (is_eof err) (t_pending st ++ x :: chunk) = ([], r) /\
       forall d', r = Val d' -> d' = t_pending st ++ x :: chunk).
    { cbn [tok_inner]. destruct (parse (t_pending st ++ x :: chunk) (Some TRFC5425) (is_eof err)) as [[[m rest] e]| |] eqn:Ep; [|eexists; split; [reflexivity|discriminate]..].
      destruct rest as [r|]; [|eexists; split; [reflexivity|intros d' E; injection E as <-; reflexivity]]. exfalso.
      apply (cut_frame_parse (t_pending st ++ x :: chunk) (stream more ++ z) d (is_eof err) m r e Hf); [|destruct (stream more); [exact Hz|discriminate]|exact Ep].
      rewrite <- Hs, <- !app_assoc. reflexivity. }
    destruct Hi as (r & Hi & Hr). destruct (step_nonempty TRFC5425 st (x :: chunk) err [] r ltac:(discriminate) Hi) as [H1 H2].
    rewrite H2. destruct r as [d'| |]; [|rewrite H1; reflexivity..]. destruct (is_eof err); [rewrite H1; reflexivity|]. cbn [o_next o_sent]. rewrite H1. cbn [app].
    apply IH. cbn [t_pending]. rewrite (Hr d' eq_refl), <- Hs, <- !app_assoc. reflexivity.
Qed.
Print Assumptions C36_cut_frame_dropped.

Theorem C36_reported_refuted :
  (o_sent (tok_run TLFEnded tok_init [(bs "<1>1 - h a p m - hello", None); ([], Some REOF)]) = [] /\
   o_errs (tok_run TLFEnded tok_init [(bs "<1>1 - h a p m - hello", None); ([], Some REOF)]) = []) /\
  (o_sent (tok_run TRFC5425 tok_init [(bs "x2 <1>1 - h a p m - hello", None); ([], Some REOF)]) = [] /\
   o_errs (tok_run TRFC5425 tok_init [(bs "x2 <1>1 - h a p m - hello", None); ([], Some REOF)]) = []).
Proof. repeat split; vm_compute; reflexivity. Qed.
Print Assumptions C36_reported_refuted.

Example C36_nonvacuous :
  reads_ok TLFEnded tok_init ex_line_reads /\ bad_header (bs "x2 <1>1") /\
  (exists e, In (zero_immutable, Some e) (o_sent (tok_run TRFC5425 tok_init [(bs "20 <1>1 - h a p m hello", None)]))) /\
  (fits (bs "<1>1 - h a p m - hello") /\ bs "22 <1>1 - h a p m - hel" ++ bs "lo" = encode TRFC5425 (bs "<1>1 - h a p m - hello")).
Proof.
  split; [exact (proj1 (proj2 (proj2 (proj2 (proj2 C34_nonvacuous)))))|]. split; [|split].
  - right. exists (bs "x2"), (bs "<1>1"). split; [reflexivity|]. split; [cbn; intros H; repeat (destruct H as [H|H]; [discriminate|]); exact H|].
    apply atoi_none. vm_compute. reflexivity.
  - eexists. vm_compute. left. reflexivity.
  - split; [apply small_fits; vm_compute; lia|vm_compute; reflexivity].
Qed.

(** ** C37 *)
(** The goroutine of a connection ends exactly when a read reports EOF (or the decoder crashes) *)
Theorem C37_returns_iff_eof : forall t reads, reads_ok t tok_init reads -> o_next (tok_run t tok_init reads) <> TCrash ->
  ((exists left, o_next (tok_run t tok_init reads) = TReturn left) <-> exists chunk, In (chunk, Some REOF) reads).
Proof.
  intros t reads. generalize tok_init. induction reads as [|[chunk err] more IH]; intros st Hok Hn; cbn [tok_run] in *.
  - split; [intros [l E]; discriminate|intros [c []]].
  - cbn [reads_ok] in Hok. destruct Hok as [_ Hok]. destruct (step_spec t st chunk err) as (pieces & left & _ & _ & Hs). cbv zeta in Hs.
    destruct (o_next (tok_step t st chunk err)) as [st'|l|] eqn:En.
    + cbn [o_next] in *. rewrite (IH st' Hok Hn). destruct Hs as [Hs _]. split.
      * intros [c H]. exists c. right; exact H.
      * intros [c [H|H]]; [|exists c; exact H]. injection H as _ ->. discriminate.
    + rewrite En in *. destruct Hs as [Hs _]. split; [|intros _; eauto]. intros _. exists chunk. left. destruct err as [[|e]|]; try discriminate. reflexivity.
    + rewrite En in Hn. congruence.
Qed.
Print Assumptions C37_returns_iff_eof.

(** On a connection that keeps failing with another error the goroutine never ends: each read adds
    one error to the error channel, nothing else changes *)
Theorem C37_error_reads : forall t st errs, 
  tok_run t st (map (fun e => ([], Some (ROther e))) errs) = {| o_sent := []; o_errs := errs; o_next := TCont st |}.
Proof.
  intros t st errs. induction errs as [|e errs IH]; [reflexivity|]. cbn [map tok_run]. rewrite step_empty. cbn [is_eof o_next]. rewrite IH. reflexivity.
Qed.
Print Assumptions C37_error_reads.

Theorem C37_error_ends_refuted : forall t n, 
  o_next (tok_run t tok_init (repeat ([], Some (ROther 104)) n)) = TCont tok_init /\
  o_errs (tok_run t tok_init (repeat ([], Some (ROther 104)) n)) = repeat 104%nat n.
Proof.
  intros t n. replace (repeat (@nil N, Some (ROther 104)) n) with (map (fun e => (@nil N, Some (ROther e))) (repeat 104%nat n)).
  - rewrite C37_error_reads. auto.
  - induction n as [|n IH]; [reflexivity|]. cbn [repeat map]. rewrite IH. reflexivity.
Qed.
Print Assumptions C37_error_ends_refuted.

Example C37_nonvacuous : reads_ok TLFEnded tok_init ex_line_reads /\ o_next (tok_run TLFEnded tok_init ex_line_reads) = TReturn [].
Proof. split; [exact (proj1 C36_nonvacuous)|vm_compute; reflexivity]. Qed.
