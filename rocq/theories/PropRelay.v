(** PropRelay.v -- C87: printing or writing out a received message (String, WriteTo) and decoding it
    again. *)
From Verif Require Import Base BaseFacts Spec MPriority MTime MSData MMessage MTransport MParse.
From Verif Require Import MAux.
From Verif Require Import LText LParse LTransport LRound LResult PropParse PropTransport LTokenize LLines LBlocked.
From Coq Require Import ZifyNat.

(** every accessor agrees *)
Definition same_content (p q : immutable) : Prop :=
  imm_priority p = imm_priority q /\ imm_timestamp p = imm_timestamp q /\ imm_hostname p = imm_hostname q /\
  imm_appname p = imm_appname q /\ imm_procid p = imm_procid q /\ imm_msgid p = imm_msgid q /\
  (forall order spare, imm_structured_data order spare p = imm_structured_data order spare q) /\ imm_text p = imm_text q.

(** The bytes of a message, after its six header fields: "-", or "- " and a text, or anything else with
    a space somewhere and no ']' at the end. *)
Definition stands_alone (b : bytes) : Prop :=
  exists ws tail, length ws = 6%nat /\ Forall word ws /\ b = join ws ++ tail /\
    (tail = bs "-" \/ (exists text, tail = bs "- " ++ text) \/ (In SP tail /\ ~ exists x, tail = x ++ bs "]")).

Lemma late_space_cut t u : late_space (t ++ u) -> In SP t -> late_space t.
Proof.
  intros (x & y & E & Hn & Hl) Hi. apply app_eq_suffix in E as [(e & E1 & E2)|(e & E1 & E2)].
  - destruct e as [|z e]; [exfalso; apply Hn; rewrite app_nil_r in E1; subst t; exact Hi|]. cbn in E2. injection E2 as <- ->. exists x, e. auto.
  - exfalso. apply Hn. rewrite E1. apply in_or_app. left. exact Hi.
Qed.

Lemma bracket_safe_cut t u : bracket_safe (t ++ u) -> bracket_safe t.
Proof. intros H x y ->. apply (H x (y ++ u)). rewrite <- app_assoc. reflexivity. Qed.

Lemma last_byte (a b : bytes) c : b <> [] -> (exists x, a ++ b = x ++ [c]) -> exists x, b = x ++ [c].
Proof.
  intros Hne (x & E). destruct (exists_last Hne) as (b' & z & ->). rewrite app_assoc in E. apply app_inj_tail in E as [_ ->]. eauto.
Qed.

Lemma accepted_stands b m : accepted b m -> ~ (exists x, b = x ++ [QUO; RBR]) -> stands_alone b.
Proof.
  intros (ws & tail & Hl & Hw & Hd & _ & Hc) Hq. exists ws, tail. split; [exact Hl|]. split; [exact Hw|]. split; [exact Hd|].
  destruct Hc as [(-> & _)|[(text & -> & _)|(els & tl & Hf & Ht & Hls & _ & Hc)]].
  - left. reflexivity.
  - right. left. exists text. reflexivity.
  - right. right. destruct Hls as (x & y & E & _). split; [rewrite E; apply in_or_app; right; left; reflexivity|].
    destruct Hc as [(-> & Hne & _)|(Hne & [_ Hs] & _)].
    + exfalso. apply Hq. destruct (exists_last Hne) as (els' & el & ->). apply Forall_app in Hf as [_ Hf]. destruct (Forall_inv Hf) as (body & -> & _).
      rewrite app_nil_r, concat_app in Ht. cbn [concat] in Ht. rewrite app_nil_r in Ht. rewrite Hd, Ht. exists (join ws ++ concat els' ++ body). rewrite <- !app_assoc. reflexivity.
    + intros Hx. apply Hs. rewrite Ht in Hx. exact (last_byte _ _ _ Hne Hx).
Qed.

Lemma same_content_refl p : same_content p p.
Proof. repeat split. Qed.

Lemma cut_accepted data m0 pre a c b : accepted data m0 -> data = pre ++ a ++ c :: b -> Z.of_nat (length pre) = i_text m0 -> (1 <= length pre)%nat ->
  let p := {| i_buf := pre ++ a; i_index := i_index m0; i_text := i_text m0 |} in
  (forall q, accepted (pre ++ a) q -> stands_alone (pre ++ a)) /\
  (stands_alone (pre ++ a) -> exists q, accepted (pre ++ a) q /\ same_content p q).
Proof.
  intros (ws & tail & Hl & Hw & Hd & Hb & Hc) Hd' Hpre Hp1 p. rewrite Hd in Hd'.
  assert (Hcut : forall u v, tail = u ++ v -> length pre = (length (join ws) + length u)%nat -> pre = join ws ++ u /\ v = a ++ c :: b).
  { intros u v -> E. rewrite app_assoc in Hd'. apply app_inj_len in Hd' as [E1 E2]; [auto|]. rewrite app_length. lia. }
  destruct Hc as [(-> & _ & Ht)|[(text & -> & Hi & Ht)|(els & tl & Hf & Htl & Hls & Hi & Hc)]]; [lia| |].
  - destruct (Hcut [DASH; SP] text eq_refl) as [-> ->]; [cbn; lia|].
    assert (Hs : stands_alone ((join ws ++ [DASH; SP]) ++ a)).
    { exists ws, (bs "- " ++ a). rewrite <- app_assoc. split; [exact Hl|]. split; [exact Hw|]. split; [reflexivity|]. right. left. exists a. reflexivity. }
    split; [intros _ _; exact Hs|]. intros _. exists p. split; [|apply same_content_refl].
    exists ws, (DASH :: SP :: a). unfold p. cbn [i_buf i_index i_text]. rewrite <- app_assoc. split; [exact Hl|]. split; [exact Hw|]. split; [reflexivity|]. split; [reflexivity|].
    right. left. exists a. split; [reflexivity|]. auto.
  - destruct Hc as [(_ & _ & Ht)|(Hne & Hsafe & Ht)]; [lia|]. destruct tl as [|c' tl]; [congruence|].
    destruct (Hcut (concat els ++ [c']) tl) as [-> ->]; [rewrite Htl, <- app_assoc; reflexivity|rewrite app_length; cbn; lia|].
    assert (Hbuf : (join ws ++ concat els ++ [c']) ++ a = join ws ++ concat els ++ c' :: a) by (rewrite <- !app_assoc; reflexivity).
    assert (Hbs : bracket_safe (c' :: a)) by (apply (bracket_safe_cut (c' :: a) (c :: b)); exact (proj1 Hsafe)).
    assert (Hlate : In SP (concat els ++ c' :: a) -> late_space (concat els ++ c' :: a)).
    { apply (late_space_cut (concat els ++ c' :: a) (c :: b)). rewrite <- app_assoc. rewrite Htl in Hls. exact Hls. }
    unfold p. rewrite !Hbuf. split.
    + intros q Hq. apply (accepted_stands _ _ Hq). intros (x & E). rewrite app_assoc in E.
      change [QUO; RBR] with ([QUO] ++ [RBR]) in E. rewrite app_assoc in E.
      destruct (exists_last (l := c' :: a)) as (l & z & El); [discriminate|]. rewrite El, app_assoc in E. apply app_inj_tail in E as [E ->].
      destruct (Hbs l [] El) as [l' ->]. rewrite app_assoc in E. apply app_inj_tail in E as [_ E]. discriminate.
    + intros (ws' & tail' & Hl' & Hw' & Ed & Hcs). apply join_unique in Ed as [<- <-]; [|congruence|assumption..].
      assert (Hgood : In SP (concat els ++ c' :: a) -> ~ (exists x, concat els ++ c' :: a = x ++ [RBR]) -> exists q, accepted (join ws ++ concat els ++ c' :: a) q /\
         same_content {| i_buf := join ws ++ concat els ++ c' :: a; i_index := i_index m0; i_text := i_text m0 |} q).
      { intros Hsp Hend. eexists. split; [|apply same_content_refl]. exists ws, (concat els ++ c' :: a). cbn [i_buf i_index i_text].
        split; [exact Hl|]. split; [exact Hw|]. split; [reflexivity|]. split; [reflexivity|]. right. right. exists els, (c' :: a). split; [exact Hf|]. split; [reflexivity|].
        split; [exact (Hlate Hsp)|]. split; [exact Hi|]. right. split; [discriminate|]. split; [|exact Ht]. split; [exact Hbs|].
        intros (x & Ex). apply Hend. exists (concat els ++ x). rewrite Ex, app_assoc. reflexivity. }
      destruct Hcs as [Hdash|[(text & Ed)|[Hsp Hend]]]; [|exfalso|exact (Hgood Hsp Hend)].
      2: { assert (Hsp : In SP (concat els ++ c' :: a)) by (rewrite Ed; right; left; reflexivity). apply Hlate in Hsp. rewrite Ed in Hsp. exact (late_space_second _ _ Hsp). }
      assert (Hels : els = []).
      { destruct els as [|el els]; [reflexivity|]. exfalso. apply Forall_inv in Hf as (body & -> & _). apply (f_equal (@length N)) in Hdash. rewrite !app_length in Hdash. cbn in Hdash.
        rewrite !app_length in Hdash. cbn in Hdash. lia. }
      subst els. cbn [concat app] in *. injection Hdash as -> ->.
      exists {| i_buf := join ws ++ [DASH]; i_index := ends 0 ws ++ [(length (join ws) + 2)%nat]; i_text := -1 |}. split.
      * exists ws, [DASH]. split; [exact Hl|]. split; [exact Hw|]. split; [reflexivity|]. split; [reflexivity|]. left. auto.
      * rewrite Hi, app_nil_r in *. cbn [el_ends app length] in *.
        set (P := {| i_buf := _; i_index := _; i_text := _ |}). set (Q := {| i_buf := _; i_index := _; i_text := -1 |}).
        assert (HP : has_header P ws) by (split; [exact Hl|]; split; [exists [DASH]; reflexivity|exists []; unfold P; cbn; rewrite app_nil_r; reflexivity]).
        assert (HQ : has_header Q ws) by (split; [exact Hl|]; split; [exists [DASH]; reflexivity|eexists; reflexivity]).
        destruct (header_accessors P ws HP) as (w1 & w2 & w3 & w4 & w5 & w6 & Ew & H1 & H2 & H3 & H4 & H5 & H6).
        destruct (header_accessors Q ws HQ) as (v1 & v2 & v3 & v4 & v5 & v6 & Ev & G1 & G2 & G3 & G4 & G5 & G6).
        rewrite Ew in Ev. injection Ev as <- <- <- <- <- <-.
        split; [congruence|]. split; [congruence|]. split; [congruence|]. split; [congruence|]. split; [congruence|]. split; [congruence|]. split.
        -- intros order spare. assert (EP : imm_structured_data order spare P = Val []).
           { unfold imm_structured_data, P. cbn [i_index]. rewrite Ew. reflexivity. }
           assert (HlQ : length (i_index Q) = 7%nat) by (unfold Q; cbn [i_index]; rewrite app_length, ends_length, Hl; reflexivity).
           assert (EI : idx_at Q 5 = Val (length (join (firstn 5 ws)) + length w6)%nat) by (apply (idx_at_header Q ws 5 w6 HQ); rewrite Ew; reflexivity).
           assert (EC : go_at (i_buf Q) (length (join (firstn 5 ws)) + length w6 + 1) = Val DASH).
           { replace (length (join (firstn 5 ws)) + length w6 + 1)%nat with (length (join ws)); [apply (go_at_app (join ws) DASH [])|].
             rewrite Ew; unfold join; cbn [firstn map concat]; rewrite !app_length; cbn [length]; lia. }
           rewrite EP. symmetry. unfold imm_structured_data. rewrite skipn_length, HlQ, EI. cbn [Nat.sub Nat.ltb Nat.leb Nat.eqb bind]. rewrite EC. reflexivity.
        -- unfold imm_text, P, Q. cbn [i_text i_buf]. rewrite Ht.
           replace (Z.of_nat (length (join ws) + 0) + 1)%Z with (Z.of_nat (length (join ws ++ [DASH]))) by (rewrite app_length; cbn; lia).
           destruct (Z.ltb_spec (Z.of_nat (length (join ws ++ [DASH]))) 1); [reflexivity|]. change (-1 <? 1)%Z with true. cbn iota.
           unfold go_from_z. destruct (Z.ltb_spec (Z.of_nat (length (join ws ++ [DASH]))) 0); [lia|]. rewrite Nat2Z.id, go_from_val by lia. rewrite skipn_all. reflexivity.
Qed.

(** ** theorems *)

(** Whatever was received with whatever framing: the bytes that String returns and WriteTo writes,
    given to Parse without framing, give a message with the same content, or are refused; and exactly
    when. *)
Theorem C87_relay_iff : forall data t eof p rest e eof', parse data (Some t) eof = Val (p, rest, e) -> imm_string p <> [] ->
  ((exists q, parse (imm_string p) None eof' = Val (q, None, None) /\ same_content p q) <->
     t = TRFC5425 \/ rest = None \/ stands_alone (imm_string p)) /\
  (forall q, parse (imm_string p) None eof' = Val (q, None, None) -> same_content p q).
Proof.
  intros data t eof p rest e eof' H Hne. unfold imm_string in *.
  assert (Hdet : forall b q q', accepted b q -> parse b None eof' = Val (q', None, None) -> q' = q).
  { intros b q q' Ha Hp. apply (parse_iff b q eof') in Ha. congruence. }
  assert (Hsame : accepted (i_buf p) p -> (t = TRFC5425 \/ rest = None) ->
     ((exists q, parse (i_buf p) None eof' = Val (q, None, None) /\ same_content p q) <-> t = TRFC5425 \/ rest = None \/ stands_alone (i_buf p)) /\
     (forall q, parse (i_buf p) None eof' = Val (q, None, None) -> same_content p q)).
  { intros Ha Hc. split; [split; [intros _; tauto|intros _]|].
    - exists p. split; [apply parse_iff; exact Ha|apply same_content_refl].
    - intros q Hq. rewrite (Hdet _ _ _ Ha Hq). apply same_content_refl. }
  assert (Hz : p <> zero_immutable) by (intros ->; apply Hne; reflexivity).
  assert (Hdel : forall c, delim t = Some c ->
     ((exists q, parse (i_buf p) None eof' = Val (q, None, None) /\ same_content p q) <-> t = TRFC5425 \/ rest = None \/ stands_alone (i_buf p)) /\
     (forall q, parse (i_buf p) None eof' = Val (q, None, None) -> same_content p q)).
  { intros c Hc. destruct (parse_delim_inv t c data eof p rest e Hc H) as [(-> & _)|(m0 & Hacc & Hi & Ht & pre & tl & Hd & Hp1 & Hp & Hx)]; [congruence|].
    destruct Hx as [(a & b & -> & Hn & Hb & -> & ->)|(_ & _ & -> & -> & ->)].
    - destruct (cut_accepted data m0 pre a c b Hacc Hd Hp Hp1) as [Hto Hfrom]. rewrite <- Hb, <- Hi, <- Ht in *.
      assert (Ep : {| i_buf := i_buf p; i_index := i_index p; i_text := i_text p |} = p) by (destruct p; reflexivity). rewrite Ep in Hfrom.
      assert (Hall : forall q, parse (i_buf p) None eof' = Val (q, None, None) -> stands_alone (i_buf p) /\ same_content p q).
      { intros q Hq. apply parse_iff in Hq as Ha. split; [exact (Hto _ Ha)|]. destruct (Hfrom (Hto _ Ha)) as (q' & Ha' & Hs). rewrite (Hdet _ _ _ Ha' Hq). exact Hs. }
      split; [|intros q Hq; exact (proj2 (Hall q Hq))]. split.
      + intros (q & Hq & _). right. right. exact (proj1 (Hall q Hq)).
      + intros [->|[K|K]]; [discriminate|discriminate|]. destruct (Hfrom K) as (q & Ha & Hs). exists q. split; [apply parse_iff; exact Ha|exact Hs].
    - destruct (accepted_text_range _ _ Hacc) as [Hb _]. apply Hsame; [|auto]. rewrite Hb. exact Hacc. }
  destruct t; [exact (Hdel _ eq_refl)|exact (Hdel _ eq_refl)|]. clear Hdel.
  apply Hsame; [|auto].
  destruct (parse_rfc_inv data eof p rest e H) as
    [(-> & _)|[(h & n & d & q & Hd & Hh & Hnh & Ha & _ & -> & Hp)|(h & n & d & Hd & Hh & Hnh & Ha & -> & -> & _ & Hx)]]; [congruence| |].
  - destruct (parse_none_spec d eof) as (m0 & e0 & H0 & Hs). rewrite H0 in Hp. injection Hp as -> ->. destruct e; [congruence|].
    destruct (accepted_text_range _ _ Hs) as [Hb _]. rewrite Hb. exact Hs.
  - destruct Hx as [(-> & _)|(m0 & Hacc & _ & [(_ & ->)|(_ & ->)])]; try congruence.
    destruct (accepted_text_range _ _ Hacc) as [Hb _]. rewrite Hb. exact Hacc.
Qed.
Print Assumptions C87_relay_iff.

(** A relay that reads any framing and writes RFC 5425 frames: the next hop decodes the same content,
    whatever follows, under the same condition; from RFC 5425 to RFC 5425 it always does. *)
Theorem C87_next_hop : forall data t eof p rest e tail eof', parse data (Some t) eof = Val (p, rest, e) -> imm_string p <> [] ->
  fits (imm_string p) -> (20 <= length (encode TRFC5425 (imm_string p) ++ tail))%nat ->
  t = TRFC5425 \/ rest = None \/ stands_alone (imm_string p) ->
  exists q, parse (encode TRFC5425 (imm_string p) ++ tail) (Some TRFC5425) eof' = Val (q, Some tail, None) /\ same_content p q /\ imm_string q = imm_string p.
Proof.
  intros data t eof p rest e tail eof' H Hne Hf H20 Hc. destruct (C87_relay_iff data t eof p rest e eof' H Hne) as [Hiff _].
  destruct (proj2 Hiff Hc) as (q & Hq & Hs). exists q. split; [|split; [exact Hs|]].
  - apply parse_rfc_frame; assumption.
  - apply parse_iff in Hq. destruct (accepted_text_range _ _ Hq) as [Hb _]. exact Hb.
Qed.
Print Assumptions C87_next_hop.

(** WriteTo hands String's bytes to the writer, once.  io.Writer: at most the whole slice is taken, and
    not less without an error *)
Definition io_writer (w : writer) : Prop := forall b, (fst (w b) <= length b)%nat /\ (snd (w b) = None -> fst (w b) = length b).
Theorem C87_write_to : forall w p n err, io_writer w -> imm_write_to_w w p = (n, err) ->
  (0 <= n <= Z.of_nat (length (imm_string p)))%Z /\ (err = None -> n = Z.of_nat (length (imm_string p))) /\ w (imm_string p) = (Z.to_nat n, err).
Proof.
  intros w p n err Hw H. unfold imm_write_to_w, imm_string in *. destruct (Hw (i_buf p)) as [H1 H2]. destruct (w (i_buf p)) as [k er]. cbn [fst snd] in *.
  injection H as <- <-. split; [lia|]. split; [intros E; rewrite (H2 E); reflexivity|]. rewrite Nat2Z.id. reflexivity.
Qed.
Print Assumptions C87_write_to.

(** String of a message being built is its encoding, or empty exactly when the encoding fails. *)
Theorem C87_message_string : forall uni m s, message_string uni m = Val s ->
  (s = [] <-> exists e, message_marshal uni m = Val (inl e)) /\ (s <> [] <-> message_marshal uni m = Val (inr s)).
Proof.
  intros uni m s H. unfold message_string in H.
  assert (Hne : forall b, message_marshal uni m = Val (inr b) -> b <> []).
  { intros b E ->. unfold message_marshal in E. destruct (list_marshal uni (m_sd m)) as [[e|sd]| |]; try discriminate.
    unfold emit in E. destruct (m_text m); injection E; unfold priority_marshal; intros K; apply app_eq_nil in K as [_ K]; discriminate. }
  destruct (message_marshal uni m) as [[e|b]| |] eqn:E; try discriminate; injection H as <-.
  - split; split; intros K; try congruence; [exists e; reflexivity].
  - specialize (Hne b eq_refl). split; split; intros K; try congruence. destruct K as [e K]. discriminate.
Qed.
Print Assumptions C87_message_string.

(** ** concrete cases *)
Definition two_lines : bytes := bs "<1>1 - h a p m [x@1 k=""v""] one" ++ [10%N] ++ bs "<1>1 - h a p m - two" ++ [10%N].
Theorem C87_nonvacuous : exists p q, parse two_lines (Some TLFEnded) false = Val (p, Some (bs "<1>1 - h a p m - two" ++ [10%N]), None) /\
  stands_alone (imm_string p) /\ imm_string p = bs "<1>1 - h a p m [x@1 k=""v""] one" /\
  parse (encode TRFC5425 (imm_string p) ++ bs "rest") (Some TRFC5425) true = Val (q, Some (bs "rest"), None) /\ imm_text q = Val (bs "one").
Proof.
  eexists. eexists. split; [vm_compute; reflexivity|]. cbn [imm_string i_buf]. split.
  - exists [bs "<1>1"; bs "-"; bs "h"; bs "a"; bs "p"; bs "m"], (bs "[x@1 k=""v""] one"). split; [reflexivity|]. split; [repeat constructor; vm_compute; intuition discriminate|].
    split; [vm_compute; reflexivity|]. right. right. split; [vm_compute; tauto|]. intros (x & E). change (bs "[x@1 k=""v""] one") with (bs "[x@1 k=""v""] on" ++ [101%N]) in E.
    apply app_inj_tail in E as [_ E]. discriminate.
  - split; [vm_compute; reflexivity|]. split; vm_compute; reflexivity.
Qed.
Print Assumptions C87_nonvacuous.

(** A line received whole whose bytes cannot be decoded again: its text ends with an escaped bracket *)
Definition escaped_end : bytes := bs "<1>1 - h a p m [x@1 k=""v""] end\]".
Theorem C87_always_refuted : exists p, parse (escaped_end ++ [10%N] ++ bs "<1>1 - h a p m - two") (Some TLFEnded) false = Val (p, Some (bs "<1>1 - h a p m - two"), None) /\
  imm_text p = Val (bs "end\]") /\ imm_string p = escaped_end /\ parse (imm_string p) None true = Val (zero_immutable, None, Some ErrImpossible).
Proof. eexists. split; [vm_compute; reflexivity|]. split; [vm_compute; reflexivity|]. split; vm_compute; reflexivity. Qed.
Print Assumptions C87_always_refuted.
