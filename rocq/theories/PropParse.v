(** PropParse.v -- properties C13..C21 (message-immutable.go without transport, accessors). *)
From Verif Require Import Base BaseFacts Spec MPriority MHelpers MText MTime MSData MMessage MTransport MParse.
From Verif Require Import LPriority LText LTime LSData LParse LTransport LRound LResult PropPriority PropMessage.
From Coq Require Import ZifyBool ZifyNat ZifyN.

(** a time cut to the microsecond *)
Definition at_us (t : gotime) : gotime := {| t_sec := t_sec t; t_nsec := (t_nsec t / 1000 * 1000)%Z; t_off := t_off t |}.

(** what the accessors of a parsed message return, compared to a message *)
Definition reads (p : immutable) (m : message) : Prop :=
  imm_priority p = Val (m_prio m) /\ imm_timestamp p = Val (at_us (m_time m)) /\ imm_hostname p = Val (m_host m) /\
  imm_appname p = Val (m_app m) /\ imm_procid p = Val (m_procid m) /\ imm_msgid p = Val (m_msgid m) /\
  imm_text p = Val (m_text m).

Lemma inr_inj {A B} (x y : B) : @Val (A + B) (inr x) = Val (inr y) -> x = y.
Proof. congruence. Qed.

(** ** the header words of an encoded message *)
Definition words_of (m : message) : list bytes :=
  [bs "<" ++ decimal (Z.to_N (m_prio m)) ++ bs ">1"; time_format (m_time m); m_host m; m_app m; m_procid m; m_msgid m].

Lemma wire_join m sd text :
  wire (bs "<" ++ decimal (Z.to_N (m_prio m)) ++ bs ">1") (time_format (m_time m)) (m_host m) (m_app m) (m_procid m) (m_msgid m) sd text
  = join (words_of m) ++ sd ++ (match text with [] => [] | _ => SP :: text end).
Proof. unfold wire, words_of, join. cbn [map concat]. change (bs " ") with [SP]. rewrite <- !app_assoc. cbn [app]. reflexivity. Qed.

Lemma prio_word n : word (bs "<" ++ decimal n ++ bs ">1").
Proof.
  split; [discriminate|]. intros Hin. apply in_app_or in Hin as [[E|[]]|Hin]; [discriminate|].
  apply in_app_or in Hin as [Hin|Hin].
  - pose proof (proj1 (Forall_forall _ _) (utoa_digits n) _ Hin) as H. discriminate.
  - cbn in Hin. destruct Hin as [E|[E|[]]]; discriminate.
Qed.

Lemma header_word_word n w : header_word n w -> word w.
Proof. intros (H1 & _ & H3). split; [exact H1|]. intros Hin. specialize (H3 _ Hin). unfold printusascii in H3. lia. Qed.

Definition words_ok (m : message) : Prop := word (m_host m) /\ word (m_app m) /\ word (m_procid m) /\ word (m_msgid m).

Lemma words_of_word m : words_ok m -> Forall word (words_of m).
Proof.
  intros (A & B & C & D). unfold words_of. constructor; [apply prio_word|]. constructor; [apply time_format_word|]. auto.
Qed.

Lemma header_ok_words m : header_ok m -> words_ok m.
Proof. intros (A & B & C & D). split; [|split; [|split]]; eapply header_word_word; eassumption. Qed.

(** the header accessors on a buffer starting with those words *)
Definition reads_header (p : immutable) (m : message) : Prop :=
  imm_priority p = Val (m_prio m) /\ imm_timestamp p = Val (at_us (m_time m)) /\
  imm_hostname p = Val (valid_host (m_host m)) /\ imm_appname p = Val (valid_app (m_app m)) /\
  imm_procid p = Val (valid_procid (m_procid m)) /\ imm_msgid p = Val (valid_msgid (m_msgid m)).

Lemma reads_header_ok m tail more text : (0 <= m_prio m <= 299)%Z -> time_valid (m_time m) ->
  reads_header (mk (join (words_of m) ++ tail) (ends 0 (words_of m) ++ more) text) m.
Proof.
  intros Hp Ht. destruct (header_accessors (mk (join (words_of m) ++ tail) (ends 0 (words_of m) ++ more) text) (words_of m))
    as (w1 & w2 & w3 & w4 & w5 & w6 & E & H1 & H2 & H3 & H4 & H5 & H6).
  { split; [reflexivity|]. split; eexists; reflexivity. }
  unfold words_of in E. injection E as <- <- <- <- <- <-. unfold reads_header.
  rewrite H1, H2, H3, H4, H5, H6.
  assert (Hc : LT :: decimal (Z.to_N (m_prio m)) ++ [GT; C1] = bs "<" ++ decimal (Z.to_N (m_prio m)) ++ bs ">1") by reflexivity.
  rewrite ?Hc. rewrite <- (marshal_canonical (m_prio m) Hp). rewrite unmarshal_marshal by exact Hp.
  cbn [bind fst]. rewrite time_parse_format by exact Ht. repeat split.
Qed.

Lemma reads_of m p : header_ok m -> reads_header p m -> imm_text p = Val (m_text m) -> reads p m.
Proof.
  intros (A & B & C & D) (H1 & H2 & H3 & H4 & H5 & H6) H7. unfold reads.
  rewrite H1, H2, H3, H4, H5, H6, H7. unfold valid_host, valid_app, valid_procid, valid_msgid.
  rewrite !validator_id by assumption. repeat split.
Qed.

(** ** C13 *)
(** a message without structured data, any space-free header words *)
Lemma parse_no_sd uni m enc eof : (0 <= m_prio m <= 299)%Z -> time_valid (m_time m) -> words_ok m -> m_sd m = [] ->
  message_marshal uni m = Val (inr enc) ->
  exists p, parse enc None eof = Val (p, None, None) /\ imm_string p = enc /\ reads_header p m /\
    imm_text p = Val (m_text m) /\ forall order spare, imm_structured_data order spare p = Val [].
Proof.
  intros Hp Ht Hw Hsd He.
  destruct (C11_wire_format uni m [] Hp) as [Hm _]. { rewrite Hsd. constructor. }
  rewrite He in Hm. apply inr_inj in Hm. subst enc. rewrite wire_join. pose proof (words_of_word m Hw) as Hws.
  change (sd_field []) with [DASH]. destruct (m_text m) as [|c t] eqn:Et.
  - rewrite app_nil_r. eexists. split; [exact (parse_dash (words_of m) eq_refl Hws eof)|]. split; [reflexivity|].
    split; [apply reads_header_ok; assumption|]. split; [reflexivity|]. intros order spare.
    exact (structured_data_dash order spare (words_of m) [] _ _ eq_refl).
  - eexists. split; [exact (parse_dash_text (words_of m) eq_refl Hws (c :: t) eof)|]. split; [reflexivity|].
    split; [apply reads_header_ok; assumption|]. split.
    + replace (Z.of_nat (length (join (words_of m))) + 2)%Z with (Z.of_nat (length (join (words_of m) ++ [DASH; SP])))
        by (rewrite app_length; cbn [length]; lia).
      replace (join (words_of m) ++ DASH :: SP :: c :: t) with ((join (words_of m) ++ [DASH; SP]) ++ c :: t)
        by (rewrite <- app_assoc; reflexivity).
      rewrite text_at. rewrite app_length. cbn [length]. destruct (Nat.eqb_spec (length (join (words_of m)) + 2) 0); [lia|reflexivity].
    + intros order spare. exact (structured_data_dash order spare (words_of m) _ _ _ eq_refl).
Qed.

Theorem C13_parse_recovers_fields : forall uni (m : message) enc eof,
  header_ok m -> (0 <= m_prio m <= 299)%Z -> time_valid (m_time m) -> m_sd m = [] ->
  message_marshal uni m = Val (inr enc) ->
  exists p, parse enc None eof = Val (p, None, None) /\ imm_string p = enc /\ reads p m /\
    forall order spare, imm_structured_data order spare p = Val [].
Proof.
  intros uni m enc eof Hh Hp Ht Hsd He.
  destruct (parse_no_sd uni m enc eof Hp Ht (header_ok_words m Hh) Hsd He) as (p & H1 & H2 & H3 & H4 & H5).
  exists p. split; [exact H1|]. split; [exact H2|]. split; [|exact H5]. apply reads_of; assumption.
Qed.
Print Assumptions C13_parse_recovers_fields.

(** the same for messages forged with any non-empty space-free header fields: the accessors return
    the sanitised fields *)
Theorem C13_parse_recovers_any_words : forall uni (m : message) enc eof,
  words_ok m -> (0 <= m_prio m <= 299)%Z -> time_valid (m_time m) -> m_sd m = [] ->
  message_marshal uni m = Val (inr enc) ->
  exists p h a i g, parse enc None eof = Val (p, None, None) /\ imm_string p = enc /\
    imm_priority p = Val (m_prio m) /\ imm_timestamp p = Val (at_us (m_time m)) /\ imm_text p = Val (m_text m) /\
    imm_hostname p = Val h /\ imm_appname p = Val a /\ imm_procid p = Val i /\ imm_msgid p = Val g /\
    sanitised 255 (m_host m) h /\ sanitised 48 (m_app m) a /\ sanitised 128 (m_procid m) i /\ sanitised 32 (m_msgid m) g.
Proof.
  intros uni m enc eof Hh Hp Ht Hsd He.
  destruct (parse_no_sd uni m enc eof Hp Ht Hh Hsd He) as (p & H1 & H2 & (A & B & C & D & E & F) & H4 & _).
  exists p, (valid_host (m_host m)), (valid_app (m_app m)), (valid_procid (m_procid m)), (valid_msgid (m_msgid m)).
  repeat (split; [first [assumption | apply sanitised_generic; lia]|]). apply sanitised_generic; lia.
Qed.
Print Assumptions C13_parse_recovers_any_words.

Definition sample : message :=
  create_whole_message 165 {| t_sec := 1061727255; t_nsec := 3456789; t_off := -18000 |}
     (bs "host") (bs "app") (bs "42") (bs "ID47") (bs "]]  any text \] ""] ").

Lemma word_check n w : ((1 <=? length w)%nat && (length w <=? n)%nat && forallb (fun c => (33 <=? c)%N && (c <=? 126)%N) w) = true ->
  header_word n w.
Proof.
  intros H. apply andb_true_iff in H as [H H3]. apply andb_true_iff in H as [H1 H2].
  split; [intros ->; discriminate|]. split; [lia|]. intros c Hc. rewrite forallb_forall in H3. specialize (H3 c Hc).
  unfold printusascii. lia.
Qed.

Lemma sample_ok : header_ok sample /\ (0 <= m_prio sample <= 299)%Z /\ time_valid (m_time sample).
Proof.
  split; [split; [|split; [|split]]; apply word_check; vm_compute; reflexivity|]. split; [cbn; lia|].
  unfold time_valid. replace (c_year (civil_of (m_time sample))) with 2003%Z by (vm_compute; reflexivity). cbn. lia.
Qed.

Example C13_nonvacuous :
  header_ok sample /\ (0 <= m_prio sample <= 299)%Z /\ time_valid (m_time sample) /\ m_sd sample = [] /\
  message_marshal (fun _ => true) sample =
    Val (inr (bs "<165>1 2003-08-24T07:14:15.003456-05:00 host app 42 ID47 - ]]  any text \] ""]")).
Proof. destruct sample_ok as (A & B & C). repeat (split; [assumption || reflexivity|]). vm_compute. reflexivity. Qed.

(** ** C15: text after structured data *)
Lemma unsafe_text ws els text p eof : length ws = 6%nat -> Forall word ws -> els <> [] -> Forall sd_element els -> text <> [] ->
  ~ text_safe text -> parse (join ws ++ concat els ++ SP :: text) None eof = Val (p, None, None) -> imm_text p <> Val text.
Proof.
  intros Hl Hw Hne Hf Ht Hu Hp.
  destruct (parse_elements_text_unsafe ws Hl Hw els text eof Hne Hf) as [(e & E)|(idx & t & E & Hn)].
  - intros [H|H]; [exact (Hu H)|exact (Ht H)].
  - rewrite Hp in E. discriminate.
  - rewrite Hp in E. injection E as ->. unfold imm_text, mk. cbn [i_text i_buf].
    destruct (Z.ltb_spec t 1); [congruence|]. unfold go_from_z. destruct (Z.ltb_spec t 0); [lia|].
    unfold go_from. destruct (Nat.leb_spec (Z.to_nat t) (length (join ws ++ concat els ++ SP :: text))); [|discriminate].
    intros H2. injection H2 as H2. apply (f_equal (@length N)) in H2. rewrite skipn_length in H2.
    assert (length (join ws ++ concat els ++ SP :: text) = length (join ws ++ concat els) + 1 + length text)%nat
      by (rewrite !app_length; cbn [length]; lia).
    assert (1 <= length text)%nat by (destruct text; [congruence|cbn; lia]). lia.
Qed.

Lemma safe_text ws els text eof : length ws = 6%nat -> Forall word ws -> els <> [] -> Forall sd_element els -> text <> [] ->
  text_safe text ->
  let p := mk (join ws ++ concat els ++ SP :: text) (ends 0 ws ++ el_ends (length (join ws)) els) (Z.of_nat (length (join ws ++ concat els)) + 1) in
  parse (join ws ++ concat els ++ SP :: text) None eof = Val (p, None, None) /\ imm_text p = Val text.
Proof.
  intros Hl Hw Hne Hf Ht Hs p. split; [exact (parse_elements_text ws Hl Hw els text eof Hne Hf (or_introl Hs))|].
  subst p. replace (Z.of_nat (length (join ws ++ concat els)) + 1)%Z with (Z.of_nat (length (join ws ++ concat els ++ [SP])))
    by (rewrite !app_length; cbn [length]; lia).
  replace (join ws ++ concat els ++ SP :: text) with ((join ws ++ concat els ++ [SP]) ++ text) by (rewrite <- !app_assoc; reflexivity).
  rewrite text_at. destruct (Nat.eqb_spec (length (join ws ++ concat els ++ [SP])) 0) as [E|_]; [|reflexivity].
  exfalso. rewrite !app_length in E. cbn in E. lia.
Qed.

Theorem C15_text_recovered_iff : forall uni (m : message) encs enc eof,
  words_ok m -> (0 <= m_prio m <= 299)%Z ->
  Forall2 (fun s e => sd_marshal uni s = Val (inr e)) (m_sd m) encs -> Forall sd_element encs -> encs <> [] ->
  m_text m <> [] -> message_marshal uni m = Val (inr enc) ->
  ((exists p, parse enc None eof = Val (p, None, None) /\ imm_text p = Val (m_text m)) <-> text_safe (m_text m)).
Proof.
  intros uni m encs enc eof Hw Hp H2 Hf Hne Ht He. destruct (C11_wire_format uni m encs Hp H2) as [Hm _].
  rewrite He in Hm. apply inr_inj in Hm. subst enc. rewrite wire_join. pose proof (words_of_word m Hw) as Hws.
  replace (sd_field encs) with (concat encs) by (destruct encs; [congruence|reflexivity]).
  replace (match m_text m with [] => [] | _ => SP :: m_text m end) with (SP :: m_text m) by (destruct (m_text m); [congruence|reflexivity]).
  split.
  - intros (p & E & Hx). 
    destruct (text_safe_dec (m_text m)) as [Hs|Hu]; [exact Hs|]. exfalso.
    exact (unsafe_text (words_of m) encs (m_text m) p eof eq_refl Hws Hne Hf Ht Hu E Hx).
  - intros Hs. destruct (safe_text (words_of m) encs (m_text m) eof eq_refl Hws Hne Hf Ht Hs) as [A B]. eexists. split; [exact A|exact B].
Qed.
Print Assumptions C15_text_recovered_iff.

Lemma unknown_element name ps : unknown_ok name ps -> sd_element (unknown_marshal name ps).
Proof.
  intros (H1 & H2 & H3 & H4 & _). exists name, ps. split; [|exact (conj H1 (conj H2 (conj H3 H4)))].
  rewrite unknown_marshal_eq. unfold text_of. rewrite map_map. reflexivity.
Qed.

(** The claim for every text is false: a ']' in the text makes the message unparsable, or moves
    the start of the text. *)
Definition with_text (t : bytes) : message := msg_set_text (msg_add_sd sample [SDUnknown (bs "x@1") [(bs "k", bs "v")]]) t.
Theorem C15_text_recovered_refuted :
  (exists enc, message_marshal (fun _ => true) (with_text (bs "see ] here")) = Val (inr enc) /\
     exists e, parse enc None false = Val (zero_immutable, None, Some e)) /\
  (exists enc p, message_marshal (fun _ => true) (with_text (bs "a=""b"" [c=""d""] tail")) = Val (inr enc) /\
     parse enc None false = Val (p, None, None) /\ imm_text p = Val (bs "tail") /\
     imm_structured_data (fun _ => []) [] p = Val [SDUnknown (bs "x@1") [(bs "k", bs "v")]]) /\
  (exists enc, message_marshal (fun _ => true) (with_text (bs "ends with \]")) = Val (inr enc) /\
     parse enc None false = Val (zero_immutable, None, Some ErrImpossible)).
Proof.
  split; [|split].
  - eexists. split; [vm_compute; reflexivity|]. eexists. vm_compute. reflexivity.
  - eexists. eexists. split; [vm_compute; reflexivity|]. split; [vm_compute; reflexivity|]. split; vm_compute; reflexivity.
  - eexists. split; vm_compute; reflexivity.
Qed.
Print Assumptions C15_text_recovered_refuted.

Lemma sample_sd_ok : unknown_ok (bs "x@1") [(bs "k", bs "v")].
Proof.
  split; [discriminate|]. split; [|split; [discriminate|split]].
  - intros c Hc. cbn in Hc. unfold sd_name_byte. repeat (destruct Hc as [<-|Hc]; [lia|]). destruct Hc.
  - constructor; [|constructor]. split.
    + intros c Hc. cbn in Hc. destruct Hc as [<-|[]]. unfold sd_name_byte; lia.
    + apply WE_plain; [discriminate..|apply WE_nil].
  - intros _. discriminate.
Qed.

Example C15_nonvacuous :
  let m := with_text (bs "a \] b") in
  words_ok m /\ Forall sd_element [bs "[x@1 k=""v""]"] /\ text_safe (m_text m) /\ ~ text_safe (bs "a ] b") /\
  Forall2 (fun s e => sd_marshal (fun _ => true) s = Val (inr e)) (m_sd m) [bs "[x@1 k=""v""]"].
Proof.
  split; [apply header_ok_words; destruct sample_ok as [H _]; exact H|].
  split; [constructor; [|constructor]; exact (unknown_element _ _ sample_sd_ok)|]. split; [split|].
  - change (m_text (with_text (bs "a \] b"))) with ((bs "a " ++ [BSL; RBR]) ++ bs " b"). apply bracket_safe_app.
    + apply bracket_safe_escaped. cbn. intros [E|[E|[]]]; discriminate.
    + apply bracket_safe_none. cbn. intros [E|[E|[]]]; discriminate.
  - intros [x E]. change (m_text (with_text (bs "a \] b"))) with (bs "a \] " ++ [98%N]) in E. apply app_inj_tail in E as [_ E]. discriminate.
  - split; [|repeat constructor]. intros [H _]. destruct (H (bs "a ") (bs " b") eq_refl) as [x E].
    change (bs "a ") with (bs "a" ++ [SP]) in E. apply app_inj_tail in E as [_ E]. discriminate.
Qed.

(** ** C14: Writable *)
(** an element of the default-decoded kind that no registered decoder claims; [order b] is the
    order in which the registry is walked when the element at offset b is looked up *)
Definition default_decoded (order : nat -> list sdid) (s : sdval) : Prop :=
  exists name ps, s = SDUnknown name ps /\ unknown_ok name ps /\
    forall b d sp, In d (order b) -> sdid_found d (unknown_marshal name ps) sp = Val None.

Lemma registry_rejects order el sp : (forall d, In d order -> sdid_found d el sp = Val None) -> registry_found order el sp = unknown_found el.
Proof.
  induction order as [|d order IH]; intros H; [reflexivity|]. cbn [registry_found]. rewrite H by (left; reflexivity).
  cbn [bind]. apply IH. intros x Hx. apply H. right; exact Hx.
Qed.

Lemma default_list uni order l : Forall (default_decoded order) l ->
  exists encs, Forall2 (fun s e => sd_marshal uni s = Val (inr e)) l encs /\ Forall sd_element encs /\
    Forall2 (fun el sd => forall b sp, registry_found (order b) el sp = Val (Some sd)) encs l /\ (l <> [] -> encs <> []).
Proof.
  intros H. induction H as [|s l (name & ps & -> & Hok & Hd) H IH].
  - exists []. repeat split; try constructor. auto.
  - destruct IH as (encs & H1 & H2 & H3 & _). exists (unknown_marshal name ps :: encs). split; [constructor; [reflexivity|exact H1]|].
    split; [constructor; [exact (unknown_element _ _ Hok)|exact H2]|]. split; [|discriminate].
    constructor; [|exact H3]. intros b sp. rewrite registry_rejects by (intros d Hin; exact (Hd b d sp Hin)).
    exact (unknown_roundtrip name ps Hok).
Qed.

Lemma writable_reads order spare p m : reads p m -> imm_structured_data order spare p = Val (m_sd m) ->
  imm_writable order spare p = Val (msg_set_time m (at_us (m_time m))).
Proof.
  intros (H1 & H2 & H3 & H4 & H5 & H6 & H7) H8. unfold imm_writable. rewrite H1, H2, H3, H4, H5, H6, H7. cbn [bind]. rewrite H8. reflexivity.
Qed.

Lemma text_of_writable order spare p w : imm_writable order spare p = Val w -> imm_text p = Val (m_text w).
Proof.
  unfold imm_writable. destruct (imm_priority p); [|discriminate..]. destruct (imm_timestamp p); [|discriminate..].
  destruct (imm_hostname p); [|discriminate..]. destruct (imm_appname p); [|discriminate..]. destruct (imm_procid p); [|discriminate..].
  destruct (imm_msgid p); [|discriminate..]. cbn [bind]. destruct (imm_structured_data order spare p); [|discriminate..]. cbn [bind].
  destruct (imm_text p); [|discriminate..]. cbn [bind]. intros H. inv H. reflexivity.
Qed.

(** for any structured data that encodes to elements which the registry decodes back *)
Definition comes_back (uni : N -> bool) (order : nat -> list sdid) (s : sdval) : Prop :=
  exists e, sd_marshal uni s = Val (inr e) /\ sd_element e /\ forall b sp, registry_found (order b) e sp = Val (Some s).

Lemma back_list uni order l : Forall (comes_back uni order) l ->
  exists encs, Forall2 (fun s e => sd_marshal uni s = Val (inr e)) l encs /\ Forall sd_element encs /\
    Forall2 (fun el sd => forall b sp, registry_found (order b) el sp = Val (Some sd)) encs l /\ (l <> [] -> encs <> []).
Proof.
  intros H. induction H as [|s l (e & E1 & E2 & E3) H IH].
  - exists []. repeat split; try constructor. auto.
  - destruct IH as (encs & H1 & H2 & H3 & _). exists (e :: encs). split; [constructor; [exact E1|exact H1]|].
    split; [constructor; [exact E2|exact H2]|]. split; [constructor; [exact E3|exact H3]|discriminate].
Qed.

Lemma writable_iff : forall uni (m : message) enc eof order spare,
  header_ok m -> (0 <= m_prio m <= 299)%Z -> time_valid (m_time m) -> Forall (comes_back uni order) (m_sd m) ->
  message_marshal uni m = Val (inr enc) ->
  ((exists p, parse enc None eof = Val (p, None, None) /\ imm_string p = enc /\
      imm_writable order spare p = Val (msg_set_time m (at_us (m_time m))))
   <-> (m_sd m = [] \/ m_text m = [] \/ text_safe (m_text m))).
Proof.
  intros uni m enc eof order spare Hh Hp Ht Hsd He.
  destruct (m_sd m) as [|s l] eqn:Es.
  { split; [auto|]. intros _. destruct (C13_parse_recovers_fields uni m enc eof Hh Hp Ht Es He) as (p & H1 & H2 & H3 & H4).
    exists p. split; [exact H1|]. split; [exact H2|]. apply writable_reads; [exact H3|]. rewrite Es. apply H4. }
  rewrite <- Es in *. assert (Hne : m_sd m <> []) by congruence. clear Es s l.
  destruct (back_list uni order (m_sd m) Hsd) as (encs & H2 & Hel & Hfd & Hn). specialize (Hn Hne).
  pose proof (words_of_word m (header_ok_words m Hh)) as Hws.
  destruct (m_text m) as [|c t] eqn:Et.
  - split; [auto|]. intros _. destruct (C11_wire_format uni m encs Hp H2) as [Hm _]. rewrite He in Hm. apply inr_inj in Hm. subst enc.
    rewrite wire_join, Et. rewrite app_nil_r. replace (sd_field encs) with (concat encs) by (destruct encs; [congruence|reflexivity]).
    eexists. split; [exact (parse_elements (words_of m) eq_refl Hws encs eof Hn Hel)|]. split; [reflexivity|].
    apply writable_reads.
    + apply reads_of; [exact Hh|apply reads_header_ok; assumption|]. rewrite Et. reflexivity.
    + rewrite <- (app_nil_r (concat encs)) at 1. apply structured_data_elements; [reflexivity|exact Hn|exact Hel|exact Hfd].
  - rewrite <- Et in *. assert (Htn : m_text m <> []) by congruence. clear Et c t.
    pose proof (C15_text_recovered_iff uni m encs enc eof (header_ok_words m Hh) Hp H2 Hel Hn Htn He) as H15.
    split.
    + intros (p & Hpa & _ & Hwr). right. right. apply H15. exists p. split; [exact Hpa|].
      rewrite (text_of_writable _ _ _ _ Hwr). reflexivity.
    + intros [E|[E|Hs]]; [congruence|congruence|]. destruct (C11_wire_format uni m encs Hp H2) as [Hm _]. rewrite He in Hm.
      apply inr_inj in Hm. subst enc. rewrite wire_join.
      replace (sd_field encs) with (concat encs) by (destruct encs; [congruence|reflexivity]).
      replace (match m_text m with [] => [] | _ => SP :: m_text m end) with (SP :: m_text m) by (destruct (m_text m); [congruence|reflexivity]).
      destruct (safe_text (words_of m) encs (m_text m) eof eq_refl Hws Hn Hel Htn Hs) as [A B]. eexists. split; [exact A|].
      split; [reflexivity|]. apply writable_reads.
      * apply reads_of; [exact Hh|apply reads_header_ok; assumption|exact B].
      * apply structured_data_elements; [reflexivity|exact Hn|exact Hel|exact Hfd].
Qed.

Lemma default_back uni order s : default_decoded order s -> comes_back uni order s.
Proof.
  intros (name & ps & -> & Hok & Hd). exists (unknown_marshal name ps).
  split; [reflexivity|]. split; [exact (unknown_element _ _ Hok)|]. intros b sp. rewrite registry_rejects by (intros d Hin; exact (Hd b d sp Hin)). exact (unknown_roundtrip name ps Hok).
Qed.

Theorem C14_writable_iff : forall uni (m : message) enc eof order spare,
  header_ok m -> (0 <= m_prio m <= 299)%Z -> time_valid (m_time m) -> Forall (default_decoded order) (m_sd m) ->
  message_marshal uni m = Val (inr enc) ->
  ((exists p, parse enc None eof = Val (p, None, None) /\ imm_string p = enc /\
      imm_writable order spare p = Val (msg_set_time m (at_us (m_time m))))
   <-> (m_sd m = [] \/ m_text m = [] \/ text_safe (m_text m))).
Proof.
  intros uni m enc eof order spare Hh Hp Ht Hsd He. apply (writable_iff uni m enc eof order spare Hh Hp Ht); [|exact He].
  eapply Forall_impl; [|exact Hsd]. intros s. apply default_back.
Qed.
Print Assumptions C14_writable_iff.

(** the claim for every text is false *)
Theorem C14_writable_refuted : exists (m : message) enc, header_ok m /\ (0 <= m_prio m <= 299)%Z /\ time_valid (m_time m) /\
  Forall (default_decoded (fun _ => [])) (m_sd m) /\ message_marshal (fun _ => true) m = Val (inr enc) /\
  forall p, parse enc None false <> Val (p, None, None).
Proof.
  exists (with_text (bs "see ] here")). eexists. destruct sample_ok as (A & B & C). split; [exact A|]. split; [exact B|]. split; [exact C|].
  split; [|split; [vm_compute; reflexivity|]].
  - constructor; [|constructor]. exists (bs "x@1"), [(bs "k", bs "v")]. split; [reflexivity|]. split; [exact sample_sd_ok|intros b d sp []].
  - intros p H. vm_compute in H. discriminate.
Qed.
Print Assumptions C14_writable_refuted.

(** ** C16: elements without parameters *)
Lemma paramless_rejected ws els name rest eof : length ws = 6%nat -> Forall word ws -> Forall sd_element els ->
  name <> [] -> sd_name name -> (forall x, name <> x ++ [BSL]) ->
  exists e, parse (join ws ++ concat els ++ bs "[" ++ name ++ bs "]" ++ rest) None eof = Val (zero_immutable, None, Some e).
Proof.
  intros Hl Hw Hf Hne Hn Hb. set (tl := bs "[" ++ name ++ bs "]" ++ rest). set (tail := concat els ++ tl).
  set (data := join ws ++ tail). rewrite (parse_head ws Hl Hw data tail eof eq_refl). cbv zeta.
  assert (Htl : (3 <= length tail)%nat).
  { subst tail tl. rewrite !app_length. cbn. destruct name; [congruence|]. cbn. lia. }
  destruct (Nat.eqb_spec (length tail) 0); [lia|]. destruct (Nat.eqb_spec (length tail) 1); [lia|].
  destruct (search_next_sep tail SP) as [e|e] eqn:Es; [|eexists; reflexivity].
  assert (He : e <> 1%nat).
  { intros ->. apply search_inl in Es as (w & r & Ew & Hlw & _ & _). destruct w as [|a [|]]; try discriminate.
    subst tail tl. destruct els as [|el els].
    - cbn in Ew. destruct name as [|c name]; [congruence|]. cbn in Ew. injection Ew as _ Ec _.
      apply sd_name_cons in Hn as [(Hc & _) _]. lia.
    - inv Hf. cbn [concat] in Ew. rewrite <- app_assoc in Ew.
      destruct (element_space el (concat els ++ bs "[" ++ name ++ bs "]" ++ rest) H1) as (i & Hi & Hi1).
      rewrite Ew in Hi. change (search_next_sep ([a] ++ SP :: r) SP) with (search_next_sep (a :: SP :: r) SP) in Hi.
      unfold search_next_sep in Hi. cbn [index_byte] in Hi. destruct (N.eqb_spec a SP); cbn in Hi; [discriminate|]. congruence. }
  destruct (Nat.eqb_spec e 1); [congruence|].
  assert (Hfail : forall fuel pre b idx, data = pre ++ tl -> exists er, sd_loop (S fuel) data (length pre) b idx = Val (SDFail er)).
  { intros fuel pre b idx Hd. cbn [sd_loop]. rewrite Hd, go_from_val by (rewrite app_length; lia). rewrite skipn_app_exact. cbn [bind].
    destruct (Nat.eqb_spec (length tl) 0) as [E|_]; [subst tl; rewrite !app_length in E; cbn in E; lia|].
    destruct (exists_last Hne) as (nm & c & ->).
    assert (Hs : search_next_sep tl RBR = inl (S (S (length nm)))).
    { unfold search_next_sep. subst tl. replace (bs "[" ++ (nm ++ [c]) ++ bs "]" ++ rest) with ((LBR :: nm ++ [c]) ++ RBR :: rest)
        by (cbn; rewrite <- !app_assoc; reflexivity).
      rewrite index_byte_app_notin.
      - cbn [length]. rewrite app_length. cbn [length]. rewrite Nat.add_1_r. reflexivity.
      - intros [E|Hin]; [discriminate|]. exact (sd_name_no_bracket _ Hn Hin). }
    rewrite Hs.
    assert (Hat : go_at (pre ++ tl) (length pre + S (S (length nm)) - 1) = Val c).
    { subst tl. replace (pre ++ bs "[" ++ (nm ++ [c]) ++ bs "]" ++ rest) with ((pre ++ LBR :: nm) ++ c :: RBR :: rest)
        by (cbn; rewrite <- !app_assoc; reflexivity).
      replace (length pre + S (S (length nm)) - 1)%nat with (length (pre ++ LBR :: nm)) by (rewrite app_length; cbn; lia). apply go_at_app. }
    rewrite Hat. cbn [bind]. destruct (N.eqb_spec c BSL) as [->|_]; [exfalso; exact (Hb nm eq_refl)|].
    destruct (N.eqb_spec c QUO) as [->|_]; [|eexists; reflexivity].
    exfalso. assert (Hq : In QUO (nm ++ [QUO])) by (apply in_or_app; right; left; reflexivity). destruct (Hn _ Hq) as (_ & _ & _ & Hq' & _). congruence. }
  destruct els as [|el els].
  - destruct (Hfail (length data) (join ws) (length (join ws)) (ends 0 ws) eq_refl) as [er Her]. rewrite Her. eexists; reflexivity.
  - destruct (sd_loop_elements_then (el :: els) (S (length data)) data (join ws) tl (length (join ws)) (ends 0 ws)) as (f' & Hf' & E).
    + discriminate. + eapply Forall_impl; [|exact Hf]. exact element_scan. + reflexivity. + discriminate.
    + subst data. fold tail. rewrite app_length. lia.
    + rewrite E. destruct f' as [|f']; [lia|].
      destruct (Hfail f' (join ws ++ concat (el :: els)) (length (join ws ++ concat (el :: els))) (ends 0 ws ++ el_ends (length (join ws)) (el :: els))) as [er Her].
      { subst data tail. rewrite <- app_assoc. reflexivity. }
      rewrite Her. eexists; reflexivity.
Qed.

(** Every message with an element that encodes without parameter is rejected by the parser. *)
Theorem C16_paramless_element_rejected : forall uni (m : message) (encs1 encs2 : list bytes) name enc eof,
  words_ok m -> (0 <= m_prio m <= 299)%Z ->
  Forall2 (fun s e => sd_marshal uni s = Val (inr e)) (m_sd m) (encs1 ++ (bs "[" ++ name ++ bs "]") :: encs2) ->
  Forall sd_element encs1 -> name <> [] -> sd_name name -> (forall x, name <> x ++ bs "\") ->
  message_marshal uni m = Val (inr enc) ->
  exists e, parse enc None eof = Val (zero_immutable, None, Some e).
Proof.
  intros uni m encs1 encs2 name enc eof Hw Hp H2 Hf Hn1 Hn2 Hn3 He. destruct (C11_wire_format uni m _ Hp H2) as [Hm _].
  rewrite He in Hm. apply inr_inj in Hm. subst enc. rewrite wire_join.
  replace (sd_field (encs1 ++ (bs "[" ++ name ++ bs "]") :: encs2)) with (concat (encs1 ++ (bs "[" ++ name ++ bs "]") :: encs2))
    by (destruct encs1; reflexivity).
  rewrite concat_app. cbn [concat]. rewrite <- !app_assoc.
  exact (paramless_rejected (words_of m) encs1 name _ eof eq_refl (words_of_word m Hw) Hf Hn1 Hn2 Hn3).
Qed.
Print Assumptions C16_paramless_element_rejected.

(** With parameters it parses: exactly the elements without parameters are lost. *)
Theorem C16_element_parses_iff : forall uni (m : message) name ps enc eof,
  words_ok m -> (0 <= m_prio m <= 299)%Z -> m_sd m = [SDUnknown name ps] -> m_text m = [] ->
  name <> [] -> sd_name name -> (forall x, name <> x ++ bs "\") -> Forall param_ok ps ->
  message_marshal uni m = Val (inr enc) ->
  ((exists p, parse enc None eof = Val (p, None, None)) <-> ps <> []).
Proof.
  intros uni m name ps enc eof Hw Hp Hsd Ht Hn1 Hn2 Hn3 Hps He. split.
  - intros [p Hpa] ->. destruct (C16_paramless_element_rejected uni m [] [] name enc eof Hw Hp) as [e Hx]; try assumption.
    + rewrite Hsd. constructor; [|constructor]. reflexivity.
    + constructor.
    + rewrite Hpa in Hx. discriminate.
  - intros Hne. assert (Hel : sd_element (unknown_marshal name ps)).
    { exists name, ps. split; [rewrite unknown_marshal_eq; unfold text_of; rewrite map_map; reflexivity|]. exact (conj Hn1 (conj Hn2 (conj Hne Hps))). }
    destruct (C11_wire_format uni m [unknown_marshal name ps] Hp) as [Hm _].
    { rewrite Hsd. constructor; [reflexivity|constructor]. }
    rewrite He in Hm. apply inr_inj in Hm. subst enc. rewrite wire_join, Ht, app_nil_r.
    change (sd_field [unknown_marshal name ps]) with (concat [unknown_marshal name ps]).
    eexists. apply (parse_elements (words_of m) eq_refl (words_of_word m Hw)); [discriminate|]. constructor; [exact Hel|constructor].
Qed.
Print Assumptions C16_element_parses_iff.

(** In particular the package's own zero TimeQuality encodes and cannot be parsed back. *)
Theorem C16_zero_timequality_refuted :
  let m := msg_add_sd sample [SDTimeQuality tq_zero] in
  exists enc e, header_ok m /\ message_marshal (fun _ => true) m = Val (inr enc) /\
    parse enc None false = Val (zero_immutable, None, Some e).
Proof. eexists. eexists. split; [destruct sample_ok as [A _]; exact A|]. split; vm_compute; reflexivity. Qed.
Print Assumptions C16_zero_timequality_refuted.

Example C16_nonvacuous :
  let m := msg_add_sd sample [SDUnknown (bs "x@1") [(bs "k", bs "v")]; SDUnknown (bs "empty") []] in
  words_ok m /\ sd_name (bs "empty") /\ (forall x, bs "empty" <> x ++ bs "\") /\
  Forall2 (fun s e => sd_marshal (fun _ => true) s = Val (inr e)) (m_sd m) ([bs "[x@1 k=""v""]"] ++ (bs "[" ++ bs "empty" ++ bs "]") :: []).
Proof.
  split; [apply header_ok_words; destruct sample_ok as [H _]; exact H|]. split; [|split].
  - intros c Hc. cbn in Hc. unfold sd_name_byte. repeat (destruct Hc as [<-|Hc]; [lia|]). destruct Hc.
  - intros x E. change (bs "empty") with (bs "empt" ++ [121%N]) in E. change (bs "\") with [BSL] in E. apply app_inj_tail in E as [_ E]. discriminate.
  - repeat constructor.
Qed.

(** ** C17: totality without transport *)
Theorem C17_parse_total : forall data eof, exists p e, parse data None eof = Val (p, None, e) /\
  match e with None => imm_string p = data | Some _ => p = zero_immutable end.
Proof.
  intros data eof. destruct (parse_none_spec data eof) as (m & e & H & Hs). exists m, e. split; [exact H|].
  destruct e; [exact Hs|]. destruct Hs as (ws & tail & _ & _ & _ & Hb & _). exact Hb.
Qed.
Print Assumptions C17_parse_total.

(** the at-EOF flag does not matter without transport *)
Theorem C17_eof_irrelevant : forall data e1 e2, parse data None e1 = parse data None e2.
Proof. exact parse_none_eof. Qed.
Print Assumptions C17_eof_irrelevant.

Example C17_nonvacuous : exists p, parse (bs "<165>1 - h a p m - hello") None false = Val (p, None, None) /\ imm_text p = Val (bs "hello").
Proof. eexists. split; vm_compute; reflexivity. Qed.

(** ** C18: accessors *)
(** what Parse can return, for every transport *)
Lemma result_header data t eof m rest e : parse data t eof = Val (m, rest, e) -> imm_string m <> [] ->
  (exists ws, has_header m ws /\ Forall word ws) /\ (i_text m = (-1)%Z \/ (1 <= i_text m <= Z.of_nat (length (i_buf m)))%Z).
Proof.
  intros H Hne. destruct (parse_result _ _ _ _ _ _ H) as [->|(body & m0 & Hacc & Hi & Ht & Hx)]; [exfalso; apply Hne; reflexivity|].
  destruct (accepted_text_range _ _ Hacc) as [Hbuf Hr].
  destruct Hx as [->|(pre & a & cut & Hb & Hbm & Hp1 & Hp)].
  - split; [exact (accepted_header _ _ Hacc)|]. rewrite Hbuf. exact Hr.
  - destruct (accepted_text_after _ _ Hacc) as (ws & tail & Hl & Hw & Hd & (more & Hmore) & Hta). split.
    + exists ws. split; [|exact Hw]. split; [exact Hl|]. split; [|exists more; congruence].
      destruct Hta as [Hta|Hta]; [lia|]. rewrite Hb in Hd. rewrite Hbm.
      symmetry in Hd. apply app_eq_suffix in Hd as [(z & E1 & E2)|(z & E1 & E2)].
      * assert (z = []). { apply (f_equal (@length N)) in E1. rewrite app_length in E1. destruct z; [reflexivity|cbn in E1; lia]. }
        subst z. rewrite app_nil_r in E1. exists a. rewrite E1. reflexivity.
      * exists (z ++ a). rewrite E1, <- app_assoc. reflexivity.
    + right. rewrite Hbm, app_length. lia.
Qed.

Theorem C18_accessors_never_panic : forall data t eof p rest e,
  parse data t eof = Val (p, rest, e) -> imm_string p <> [] ->
  exists pr ts h a i g tx, imm_priority p = Val pr /\ imm_timestamp p = Val ts /\ imm_hostname p = Val h /\ imm_appname p = Val a /\
    imm_procid p = Val i /\ imm_msgid p = Val g /\ imm_text p = Val tx.
Proof.
  intros data t eof p rest e H Hne. destruct (result_header _ _ _ _ _ _ H Hne) as [(ws & Hh & _) Ht].
  destruct (header_accessors p ws Hh) as (w1 & w2 & w3 & w4 & w5 & w6 & _ & H1 & H2 & H3 & H4 & H5 & H6).
  destruct (unmarshal_total 0 w1) as (q & ok & Hq & _). rewrite Hq in H1. cbn [bind fst] in H1.
  assert (Htx : exists tx, imm_text p = Val tx).
  { unfold imm_text. destruct (Z.ltb_spec (i_text p) 1); [eexists; reflexivity|]. destruct Ht as [Ht|Ht]; [lia|].
    unfold go_from_z. destruct (Z.ltb_spec (i_text p) 0); [lia|]. rewrite go_from_val by lia. eexists; reflexivity. }
  destruct Htx as [tx Htx]. do 7 eexists. repeat (split; [eassumption|]). exact Htx.
Qed.
Print Assumptions C18_accessors_never_panic.

(** the zero message: String, WriteTo and Text return, every other accessor panics *)
Theorem C18_zero_message : imm_string zero_immutable = [] /\ imm_write_to zero_immutable = [] /\ imm_text zero_immutable = Val [] /\
  imm_priority zero_immutable = Panic /\ imm_timestamp zero_immutable = Panic /\ imm_hostname zero_immutable = Panic /\
  forall order spare, imm_structured_data order spare zero_immutable = Panic.
Proof. repeat split. Qed.
Print Assumptions C18_zero_message.

Example C18_nonvacuous :
  exists p, parse (bs "<6>1 - h a p m - one" ++ [LF] ++ bs "<6>1 - h") (Some TLFEnded) false = Val (p, Some (bs "<6>1 - h"), None) /\
    imm_string p <> [] /\ imm_text p = Val (bs "one").
Proof. eexists. split; [vm_compute; reflexivity|]. split; [discriminate|vm_compute; reflexivity]. Qed.

(** ** C19: faithful header split *)
Theorem C19_header_split : forall data eof p, parse data None eof = Val (p, None, None) ->
  exists w1 w2 w3 w4 w5 w6 r,
    data = w1 ++ bs " " ++ w2 ++ bs " " ++ w3 ++ bs " " ++ w4 ++ bs " " ++ w5 ++ bs " " ++ w6 ++ bs " " ++ r /\
    Forall word [w1; w2; w3; w4; w5; w6] /\ r <> [] /\
    (exists q ok, priority_unmarshal 0 w1 = Val (q, ok) /\ imm_priority p = Val q) /\
    imm_timestamp p = Val (time_parse w2) /\
    (exists h a i g, imm_hostname p = Val h /\ imm_appname p = Val a /\ imm_procid p = Val i /\ imm_msgid p = Val g /\
       sanitised 255 w3 h /\ sanitised 48 w4 a /\ sanitised 128 w5 i /\ sanitised 32 w6 g).
Proof.
  intros data eof p H. apply parse_iff in H. pose proof H as (ws & tail & Hl & Hw & Hd & Hb & Hc).
  assert (Hh : has_header p ws).
  { split; [exact Hl|]. split; [exists tail; congruence|].
    destruct Hc as [(_ & Hi & _)|[(x & _ & Hi & _)|(els & tl & _ & _ & _ & Hi & _)]]; eexists; exact Hi. }
  destruct (header_accessors p ws Hh) as (w1 & w2 & w3 & w4 & w5 & w6 & -> & H1 & H2 & H3 & H4 & H5 & H6).
  exists w1, w2, w3, w4, w5, w6, tail. split.
  { rewrite Hd. unfold join. cbn [map concat]. change (bs " ") with [SP]. rewrite <- !app_assoc. cbn [app]. reflexivity. }
  split; [exact Hw|]. split.
  { destruct Hc as [(-> & _)|[(x & -> & _)|(els & tl & _ & _ & (x & y & -> & _) & _)]]; [discriminate|discriminate|destruct x; discriminate]. }
  split.
  { destruct (unmarshal_total 0 w1) as (q & ok & Hq & _). exists q, ok. split; [exact Hq|]. rewrite Hq in H1. exact H1. }
  split; [exact H2|]. exists (valid_host w3), (valid_app w4), (valid_procid w5), (valid_msgid w6).
  repeat (split; [first [assumption | apply sanitised_generic; lia]|]). apply sanitised_generic; lia.
Qed.
Print Assumptions C19_header_split.

Example C19_nonvacuous : exists p, parse (bs "<13>1 2003-10-11T22:14:15.003Z mymachine.example.com su 123 ID47 - 'su root' failed") None true = Val (p, None, None) /\
  imm_priority p = Val 13%Z /\ imm_procid p = Val (bs "123") /\ imm_text p = Val (bs "'su root' failed").
Proof. eexists. repeat split; vm_compute; reflexivity. Qed.

(** ** C20: the accepted inputs, and what Text returns, exactly *)
Definition text_is (p : immutable) (t : bytes) : Prop := imm_text p = Val t.

Lemma text_cut pre c t idx : imm_text (mk (pre ++ c :: t) idx (Z.of_nat (length pre) + 1)) = Val t.
Proof.
  replace (Z.of_nat (length pre) + 1)%Z with (Z.of_nat (length (pre ++ [c]))) by (rewrite app_length; cbn [length]; lia).
  replace (pre ++ c :: t) with ((pre ++ [c]) ++ t) by (rewrite <- app_assoc; reflexivity).
  rewrite text_at, app_length. cbn [length]. destruct (Nat.eqb_spec (length pre + 1) 0); [lia|reflexivity].
Qed.

Theorem C20_accepted_iff : forall data eof text,
  (exists p, parse data None eof = Val (p, None, None) /\ text_is p text) <->
  (exists ws tail, length ws = 6%nat /\ Forall word ws /\ data = join ws ++ tail /\
     ( (tail = bs "-" /\ text = []) \/
       tail = bs "- " ++ text \/
       (late_space tail /\ exists els, Forall scan_element els /\ els <> [] /\ tail = concat els /\ text = []) \/
       (late_space tail /\ exists els c, Forall scan_element els /\ tail = concat els ++ c :: text /\ text_safe (c :: text)))).
Proof.
  intros data eof text. split.
  - intros (p & H & Ht). apply parse_iff in H. destruct H as (ws & tail & Hl & Hw & Hd & Hb & Hc).
    exists ws, tail. split; [exact Hl|]. split; [exact Hw|]. split; [exact Hd|]. destruct p as [buf idx txt]. cbn [i_buf i_index i_text] in *. subst buf.
    unfold text_is in Ht. destruct Hc as [(-> & -> & ->)|[(x & -> & -> & ->)|(els & tl & Hf & Htl & Hls & -> & Hc)]].
    + left. split; [reflexivity|]. cbn in Ht. congruence.
    + right. left. rewrite Hd in Ht. pose proof (text_cut (join ws ++ [DASH]) SP x (ends 0 ws ++ [(length (join ws) + 1)%nat])) as Hcut.
      rewrite app_length in Hcut. cbn [length] in Hcut. rewrite <- app_assoc in Hcut. cbn [app] in Hcut. unfold mk in Hcut.
      replace (Z.of_nat (length (join ws) + 1) + 1)%Z with (Z.of_nat (length (join ws)) + 2)%Z in Hcut by lia.
      rewrite Hcut in Ht. injection Ht as ->. reflexivity.
    + destruct Hc as [(-> & Hne & ->)|(Hne & Hts & ->)].
      * right. right. left. split; [exact Hls|]. exists els. rewrite app_nil_r in Htl. cbn in Ht. repeat split; auto. congruence.
      * right. right. right. split; [exact Hls|]. destruct tl as [|c tl]; [congruence|]. exists els, c.
        assert (Hx : data = (join ws ++ concat els) ++ c :: tl) by (rewrite Hd, Htl, <- app_assoc; reflexivity).
        rewrite Hx in Ht. rewrite <- app_length in Ht. pose proof (text_cut (join ws ++ concat els) c tl (ends 0 ws ++ el_ends (length (join ws)) els)) as Hcut.
        unfold mk in Hcut. rewrite Hcut in Ht. injection Ht as ->. auto.
  - intros (ws & tail & Hl & Hw & Hd & Hc). destruct Hc as [(-> & ->)|[->|[(Hls & els & Hf & Hne & -> & ->)|(Hls & els & c & Hf & -> & Hts)]]].
    + eexists. split; [apply parse_iff; exists ws, [DASH]; split; [exact Hl|]; split; [exact Hw|]; split; [exact Hd|]; split; [|left; split; [reflexivity|split]]|].
      * instantiate (1 := mk data _ _). reflexivity. * reflexivity. * reflexivity. * reflexivity.
    + exists (mk data (ends 0 ws ++ [(length (join ws) + 1)%nat]) (Z.of_nat (length (join ws)) + 2)). split.
      * apply parse_iff. exists ws, (bs "- " ++ text). split; [exact Hl|]. split; [exact Hw|]. split; [exact Hd|]. split; [reflexivity|].
        right. left. exists text. repeat split.
      * unfold text_is. pose proof (text_cut (join ws ++ [DASH]) SP text (ends 0 ws ++ [(length (join ws) + 1)%nat])) as Hcut.
        rewrite app_length in Hcut. cbn [length] in Hcut. rewrite <- app_assoc in Hcut. cbn [app] in Hcut.
        replace (Z.of_nat (length (join ws) + 1) + 1)%Z with (Z.of_nat (length (join ws)) + 2)%Z in Hcut by lia. rewrite Hd. exact Hcut.
    + exists (mk data (ends 0 ws ++ el_ends (length (join ws)) els) (-1)). split; [|reflexivity].
      apply parse_iff. exists ws, (concat els). split; [exact Hl|]. split; [exact Hw|]. split; [exact Hd|]. split; [reflexivity|].
      right. right. exists els, []. split; [exact Hf|]. split; [rewrite app_nil_r; reflexivity|]. split; [exact Hls|]. split; [reflexivity|].
      left. auto.
    + exists (mk data (ends 0 ws ++ el_ends (length (join ws)) els) (Z.of_nat (length (join ws) + length (concat els)) + 1)). split.
      * apply parse_iff. exists ws, (concat els ++ c :: text). split; [exact Hl|]. split; [exact Hw|]. split; [exact Hd|]. split; [reflexivity|].
        right. right. exists els, (c :: text). split; [exact Hf|]. split; [reflexivity|]. split; [exact Hls|]. split; [reflexivity|].
        right. split; [discriminate|]. auto.
      * unfold text_is. rewrite <- app_length, Hd, app_assoc. apply text_cut.
Qed.
Print Assumptions C20_accepted_iff.

(** The claim "one space precedes the text" is false: the byte before Text() can be anything, and
    is dropped. *)
Theorem C20_dropped_byte_refuted :
  (exists p, parse (bs "<1>1 - h a p m garbage and text") None true = Val (p, None, None) /\ text_is p (bs "arbage and text")) /\
  (exists p, parse (bs "<1>1 - h a p m [x a=""b""]Xtext") None true = Val (p, None, None) /\ text_is p (bs "text")).
Proof. split; eexists; split; vm_compute; reflexivity. Qed.
Print Assumptions C20_dropped_byte_refuted.

(** ** C21: rejection *)
Lemma split_unique (c : N) w : forall w' u v, ~ In c w -> ~ In c w' -> w ++ c :: u = w' ++ c :: v -> w = w' /\ u = v.
Proof.
  induction w as [|a w IH]; intros [|b w'] u v Hn Hn' E; cbn in E.
  - injection E as ->. auto.
  - injection E as <- _. exfalso. apply Hn'. left; reflexivity.
  - injection E as -> _. exfalso. apply Hn. left; reflexivity.
  - injection E as -> E. destruct (IH w' u v) as [-> ->]; auto.
    + intros Hi. apply Hn. right; exact Hi. + intros Hi. apply Hn'. right; exact Hi.
Qed.

Lemma join_prefix ws : forall ws' t t', Forall word ws -> Forall word ws' -> (length ws <= length ws')%nat ->
  join ws ++ t = join ws' ++ t' -> exists ws2, ws' = ws ++ ws2 /\ t = join ws2 ++ t'.
Proof.
  induction ws as [|w ws IH]; intros ws' t t' H H' Hl E; [exists ws'; auto|].
  destruct ws' as [|w' ws']; [cbn in Hl; lia|]. inv H. inv H'. rewrite !join_cons, <- !app_assoc in E. cbn [app] in E.
  destruct H2 as [_ Hn1]. destruct H1 as [_ Hn2].
  apply split_unique in E as [-> E]; [|assumption..]. cbn in Hl.
  destruct (IH ws' t t' H3 H4 ltac:(lia) E) as (ws2 & -> & ->). exists ws2. auto.
Qed.

Lemma rejected_unless_shape data eof :
  (forall ws tail, length ws = 6%nat -> Forall word ws -> data = join ws ++ tail -> tail = []) ->
  exists e, parse data None eof = Val (zero_immutable, None, Some e).
Proof.
  intros H. destruct (parse_none_spec data eof) as (m & e & Hp & Hs). destruct e as [e|]; [exists e; rewrite Hp, Hs; reflexivity|].
  exfalso. destruct Hs as (ws & tail & Hl & Hw & Hd & _ & Hc). specialize (H ws tail Hl Hw Hd). subst tail.
  destruct Hc as [(E & _)|[(x & E & _)|(els & tl & _ & _ & (x & y & E & _) & _)]]; [discriminate|discriminate|destruct x; discriminate].
Qed.

(** an empty field among the first six *)
Theorem C21_empty_field_rejected : forall ws r eof, (length ws < 6)%nat -> Forall word ws ->
  exists e, parse (join ws ++ bs " " ++ r) None eof = Val (zero_immutable, None, Some e).
Proof.
  intros ws r eof Hl Hw. apply rejected_unless_shape. intros ws' tail Hl' Hw' E.
  destruct (join_prefix ws ws' _ _ Hw Hw' ltac:(lia) E) as (ws2 & -> & E2). exfalso.
  rewrite app_length in Hl'. destruct ws2 as [|w ws2]; [cbn in Hl'; lia|].
  apply Forall_app in Hw' as [_ Hw2]. pose proof (Forall_inv Hw2) as [Hn Hs]. rewrite join_cons, <- app_assoc in E2.
  destruct w as [|a w]; [congruence|]. cbn in E2. injection E2 as <- _. apply Hs. left; reflexivity.
Qed.
Print Assumptions C21_empty_field_rejected.

(** nothing after the sixth space *)
Theorem C21_nothing_after_header_rejected : forall ws eof, length ws = 6%nat -> Forall word ws ->
  exists e, parse (join ws) None eof = Val (zero_immutable, None, Some e).
Proof.
  intros ws eof Hl Hw. apply rejected_unless_shape. intros ws' tail Hl' Hw' E. rewrite <- (app_nil_r (join ws)) in E.
  destruct (join_prefix ws ws' _ _ Hw Hw' ltac:(lia) E) as (ws2 & -> & E2). symmetry in E2. apply app_eq_nil in E2 as [_ E2]. exact E2.
Qed.
Print Assumptions C21_nothing_after_header_rejected.

Lemma join_spaces ws tail : (length ws <= count_occ N.eq_dec (join ws ++ tail) SP)%nat.
Proof.
  induction ws as [|w ws IH]; [cbn; lia|]. rewrite join_cons, <- app_assoc, count_occ_app. cbn [app].
  rewrite count_occ_cons_eq by reflexivity. cbn [length]. lia.
Qed.

(** fewer than six spaces *)
Theorem C21_too_few_spaces_rejected : forall data eof, (count_occ N.eq_dec data SP < 6)%nat ->
  exists e, parse data None eof = Val (zero_immutable, None, Some e).
Proof.
  intros data eof H. apply rejected_unless_shape. intros ws tail Hl _ ->. pose proof (join_spaces ws tail). lia.
Qed.
Print Assumptions C21_too_few_spaces_rejected.

Example C21_nonvacuous :
  Forall word [bs "<1>1"; bs "-"] /\ (count_occ N.eq_dec (bs "not a syslog message") SP < 6)%nat /\
  exists e, parse (bs "<1>1 -  a p m - x") None true = Val (zero_immutable, None, Some e).
Proof.
  split; [|split].
  - assert (H1 : word (bs "<1>1")) by (apply (header_word_word 9), word_check; reflexivity).
    assert (H2 : word (bs "-")) by (apply (header_word_word 9), word_check; reflexivity). auto.
  - vm_compute. lia.
  - eexists. vm_compute. reflexivity.
Qed.
