(** PropRfcProgram.v -- property C107 for whole logging programs: the frames of a program hold RFC 5424
    messages (syslog.go, channel.go, message.go). *)
From Verif Require Import Base BaseFacts Spec Rfc5424 MPriority MHelpers MText MTime MSData MMessage MParse MTransport MSender MTokenize MReceiver MSyslog.
From Verif Require Import LResult LSyslog PropMessage PropParse PropStamp PropAnyPriority PropRfc PropSyslog PropSyslog2 PropSender3 PropEndToEnd PropProgram.
From Coq Require Import ZifyBool ZifyNat ZifyN.
Ltac Zify.zify_post_hook ::= Z.to_euclidean_division_equations.

Definition rfc_time (t : gotime) : Prop := (0 <= c_year (civil_of t) <= 9999 /\ - 86400 < t_off t < 86400)%Z.

(** a call whose time, text (without its trailing white space) and structured data the RFC allows *)
Definition rfc_call (uni : N -> bool) (c : logcall) : Prop :=
  match c with
  | LWrite _ now d => rfc_time now /\ forall t, trimmed d t -> rfc_msg t
  | LLog _ now d sd => rfc_time now /\ (forall t, trimmed d t -> rfc_msg t) /\ (forall s e, In s sd -> sd_marshal uni s = Val (inr e) -> rfc_element e)
  | LPrint _ prefix caller now s => rfc_time now /\ (forall t, trimmed (prefix ++ s) t -> rfc_msg t) /\ (forall t, trimmed (prefix ++ caller ++ bs ": " ++ s) t -> rfc_msg t)
  | _ => True
  end.
(** a Syslog created with a priority whose facility is one of the 24 of the RFC *)
Definition rfc_facility (h : chan_history) : Prop := let '(b, _, _, _) := h in (b_minp b / 8 mod 32 < 24)%Z.

Lemma rfc_field_of n w : header_word n w -> rfc_field n w.
Proof. intros (A & B & C). right. split; [destruct w; [congruence|cbn [length] in *; lia]|exact C]. Qed.

Lemma good_message uni m enc : header_ok m -> (0 <= m_prio m <= 191)%Z -> rfc_time (m_time m) ->
  (forall s e, In s (m_sd m) -> sd_marshal uni s = Val (inr e) -> rfc_element e) -> rfc_msg (m_text m) ->
  message_marshal uni m = Val (inr enc) -> syslog_msg enc.
Proof.
  intros Hok Hp Ht Hs Hx E.
  assert (Hall : exists encs, Forall2 (fun s e => sd_marshal uni s = Val (inr e)) (m_sd m) encs).
  { pose proof (proj1 (C12_success_iff uni m) (ex_intro _ enc E)) as A. clear - A. induction (m_sd m) as [|s l IH]; [exists []; constructor|].
    destruct (A s (or_introl eq_refl)) as [b Hb]. destruct IH as [es He]; [intros x Hx; apply A; right; exact Hx|]. exists (b :: es). constructor; assumption. }
  destruct Hall as [encs Hall].
  assert (Hr : Forall rfc_element encs).
  { clear - Hall Hs. induction Hall as [|s e l es H1 _ IH]; [constructor|]. constructor; [apply (Hs s); [left; reflexivity|exact H1]|apply IH; intros s' e' Hi; apply Hs; right; exact Hi]. }
  apply (C107_message_iff uni m encs enc (header_ok_words m Hok) Hall); [eapply Forall_impl; [|exact Hr]; apply rfc_element_parts|exact E|].
  destruct Hok as (A & B & C & D). destruct Ht as [T1 T2]. split; [|split; [auto|split; [auto 6 using rfc_field_of|auto]]].
  split; [left; lia|]. rewrite (proj2 (number_itself (m_prio m))); lia.
Qed.

(** Every frame of a program that creates its Syslogs with a facility of the RFC and proper names, and
    logs what the RFC allows, is the framing of an RFC 5424 message -- for every transport. *)
Theorem C107_program : forall uni tr cs g o t, log_run uni tr log_init cs = Some (Val g) -> tr o = Some t ->
  Forall (fun h => sound_channel h /\ rfc_facility h) (snd (fold_left told cs ([], []))) -> Forall (rfc_call uni) cs ->
  exists encs, for_sender o (g_queued g) = map (encode t) encs /\ Forall syslog_msg encs.
Proof.
  intros uni tr cs g o t Hg Ht Hch Hcalls. destruct (C78_frames _ _ _ _ _ _ Hg Ht) as (ms & Hl & Hf). exists (encodings uni ms).
  split; [rewrite Hf; apply sections_encodings|]. destruct (C78_histories _ _ _ _ Hg) as [_ Hc].
  assert (Hs : Forall sound_channel (snd (fold_left told cs ([], [])))) by (eapply Forall_impl; [|exact Hch]; intros h [H _]; exact H).
  clear Hg Hf. remember (snd (fold_left told cs ([], []))) as hs eqn:Ehs. clear Ehs.
  assert (P : forall k x, logging g k x -> (0 <= x_prio x <= 191)%Z).
  { intros k x Hx. assert (K : exists c, nth_error (g_chan g) k = Some c /\ (c = MsgChannel x \/ c = TrueChannel x)) by (destruct Hx as [H|H]; eauto).
    destruct K as (c & Hk & Hx'). destruct (Forall2_nth _ _ _ Hc _ _ Hk) as ([[[b ops] sev] d] & Hh & (s & s' & c0 & (s0 & H0 & Hr) & Hcc & ->)).
    rewrite Forall_forall in Hch. destruct (Hch _ (nth_error_In _ _ Hh)) as [_ Hfac]. cbn [rfc_facility] in Hfac.
    destruct (C52_priority_in_range _ _ _ _ _ _ _ _ _ _ _ _ _ H0 Hr Hcc Hx') as (E & _ & _). rewrite E. lia. }
  induction Hl as [|c cs' m ms Hm Hl IH|c cs' ms Hn Hl IH]; [constructor| |].
  2:{ apply IH. exact (Forall_inv_tail Hcalls). }
  pose proof (Forall_inv Hcalls) as Hok.
  assert (G : forall k x now sd text, logging g k x -> message_of x now sd text m -> rfc_time now -> (forall t, trimmed text t -> rfc_msg t) ->
    (forall s e, In s sd -> sd_marshal uni s = Val (inr e) -> rfc_element e) -> forall enc, message_marshal uni m = Val (inr enc) -> syslog_msg enc).
  { intros k x now sd text Hx (Ep & Et & Eh & Ea & Epi & Em & Es & Etx) Hv Htx Hsd enc E. destruct (channel_sound _ _ _ _ Hc Hs Hx) as [Hh _].
    apply (good_message uni m enc); [|rewrite Ep; exact (P _ _ Hx)|rewrite Et; exact Hv|rewrite Es; exact Hsd|exact (Htx _ Etx)|exact E].
    apply (header_ok_fields (chan_message x now text)); try (symmetry; assumption); apply Hh. }
  assert (Q : forall enc, message_marshal uni m = Val (inr enc) -> syslog_msg enc).
  { destruct c as [| | | | | |k now d|k now d sd|k prefix caller now s]; cbn [submits] in Hm; try contradiction; destruct Hm as (x & Hx & _ & Hm); cbn [rfc_call] in Hok.
    - destruct Hok as [A B]. eapply G; [exact Hx|exact Hm|exact A|exact B|intros ? ? []].
    - destruct Hok as (A & B & C). eapply G; eassumption.
    - destruct Hok as (A & B & C). eapply G; [exact Hx|exact Hm|exact A| |intros ? ? []]. destruct (_ =? 7)%Z; [rewrite <- app_assoc; exact C|exact B]. }
  unfold encodings in *. cbn [flat_map]. apply Forall_app. split; [|apply IH; exact (Forall_inv_tail Hcalls)].
  destruct (message_marshal uni m) as [[e|enc]| |]; constructor; [apply Q; reflexivity|constructor].
Qed.
Print Assumptions C107_program.

(** the program of C83's example *)
Example C107_program_nonvacuous : exists encs, for_sender 0 (g_queued demo2_state) = map (encode TRFC5425) encs /\ length encs = 2%nat /\ Forall syslog_msg encs.
Proof.
  assert (T : rfc_time demo_time) by (split; [vm_compute; split; discriminate|vm_compute; split; reflexivity]).
  assert (B : forall d, d <> [] -> hd 0%N d <> 239%N -> forall t, trimmed d t -> rfc_msg t).
  { intros d Hd Hh t (w & -> & _) . left. intros [r ->]. apply Hh. reflexivity. }
  destruct (C107_program uni0 demo_tr demo2 demo2_state 0 TRFC5425) as (encs & E & H).
  - vm_compute. reflexivity.
  - reflexivity.
  - cbn [demo2 fold_left told nth_error change_at fst snd app].
    repeat (constructor; [split; [split; [cbn; lia|left; vm_compute sub_path; apply word_of; vm_compute; reflexivity]|vm_compute; reflexivity]|]). constructor.
  - unfold demo2. do 6 (constructor; [exact I|]). constructor; [split; [exact T|apply B; discriminate]|]. constructor; [|constructor].
    split; [exact T|]. split; [apply B; discriminate|]. intros s e [<-|[]] E.
    destruct (C107_unknown_iff uni0 (bs "x@1") [(bs "k", bs "v")]) as (e' & E' & _ & I).
    + apply rfc_name_loose, ascii_name; [cbn; lia|reflexivity].
    + constructor; [|constructor]. split; [apply rfc_name_loose, ascii_name; [cbn; lia|reflexivity]|]. cbn. apply WE_plain; [lia..|constructor].
    + rewrite E in E'. injection E' as <-. apply I. split; [apply ascii_name; [cbn; lia|reflexivity]|]. constructor; [|constructor].
      split; [apply ascii_name; [cbn; lia|reflexivity]|]. apply plain_value. intros c [<-|[]]. cbn. lia.
  - exists encs. split; [exact E|]. split; [|exact H]. apply (f_equal (@length bytes)) in E. rewrite map_length in E. rewrite <- E. vm_compute. reflexivity.
Qed.
