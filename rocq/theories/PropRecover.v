(** PropRecover.v -- C112: panics of user code (the Marshal5424 of a structured data, the Encode of a
    Transport) inside Send, when the caller recovers them. *)
From Coq Require Import Permutation Sorted.
From Verif Require Import Base BaseFacts MText MSData MMessage MTransport MSender MRecover LSData PropMessage PropSData PropSData2.

(** ** encoding always ends *)
Lemma nf_seq a b : a <> NoFuel -> b <> NoFuel -> eseq a b <> NoFuel.
Proof. unfold eseq. destruct a as [[?|?]| |]; try discriminate; try congruence. destruct b as [[?|?]| |]; try discriminate; congruence. Qed.
Lemma nf_value : forall v ro prefix, enc_value v ro prefix <> NoFuel.
Proof.
  fix IH 1. intros v ro prefix. destruct v; cbn [enc_value]; try discriminate.
  - destruct ro; discriminate.
  - destruct target as [t|]; [apply IH|discriminate].
  - destruct elems as [es|]; [|discriminate]. destruct elem_iface; [discriminate|]. induction es as [|x es IHes]; [discriminate|]. apply nf_seq; [apply IH|exact IHes].
  - destruct nil_ptr; [discriminate|]. destruct ro; [discriminate|]. destruct nil_iface; [discriminate|]. destruct result as [[e|b]|e|]; discriminate.
Qed.
Lemma nf_entries l : enc_entries l <> NoFuel.
Proof. induction l as [|[k v] l IH]; [discriminate|]. cbn [enc_entries]. apply nf_seq; [apply nf_value|exact IH]. Qed.
Lemma nf_fields uni l : enc_fields uni l <> NoFuel.
Proof.
  induction l as [|[sf f] l IH]; [discriminate|]. cbn [enc_fields]. destruct (get_name uni sf) as [name m]. destruct (_ || _); [destruct m; [discriminate|exact IH]|].
  apply nf_seq; [apply nf_value|exact IH].
Qed.
Lemma nf_sd uni s : sd_marshal uni s <> NoFuel.
Proof.
  destruct s as [n ps|t|id pm v|id|r]; cbn [sd_marshal]; try discriminate.
  - unfold tq_marshal. destruct (negb _); [discriminate|]. destruct (syncAccuracy t) as [a|]; [|discriminate]. destruct (a <=? 0)%Z; discriminate.
  - destruct v; cbn [enc_root]; try (destruct pm; discriminate); try discriminate.
    + unfold enc_map. destruct key_is_string; [|discriminate]. destruct elem_iface; [discriminate|]. destruct entries; [|discriminate]. apply nf_seq; [discriminate|]. apply nf_seq; [apply nf_entries|discriminate].
    + unfold enc_struct. apply nf_seq; [discriminate|]. apply nf_seq; [apply nf_fields|discriminate].
    + destruct nil_ptr; [discriminate|]. destruct nil_iface; [discriminate|]. destruct result as [[e|b]|e|]; discriminate.
  - destruct r; discriminate.
Qed.

(** ** what a message meets *)
(** the first structured data of a message that does not encode, and what its Marshal5424 does *)
Definition first_failure (uni : N -> bool) (l : list sdval) (r : eres) : Prop :=
  exists pre s post, l = pre ++ s :: post /\ Forall (fun x => exists b, sd_marshal uni x = Val (inr b)) pre /\ sd_marshal uni s = r.

Lemma marshal_all_cases uni l :
  (marshal_all uni l = Panic <-> first_failure uni l Panic) /\ marshal_all uni l <> NoFuel.
Proof.
  induction l as [|s l [IH IHn]].
  - cbn. split; [|discriminate]. split; [discriminate|]. intros ([|? ?] & ? & ? & H & _); discriminate.
  - cbn [marshal_all]. pose proof (nf_sd uni s) as Hn. split.
    + split.
      * destruct (sd_marshal uni s) as [[e'|t]| |] eqn:Es; try discriminate.
        -- destruct (marshal_all uni l) as [[e'|us]| |] eqn:El; try discriminate. intros _.
           destruct (proj1 IH eq_refl) as (pre & x & post & -> & Hp & Hx). exists (s :: pre), x, post. split; [reflexivity|]. split; [constructor; [eauto|exact Hp]|exact Hx].
        -- intros _. exists [], s, l. split; [reflexivity|]. split; [constructor|exact Es].
      * intros (pre & x & post & E & Hp & Hx). destruct pre as [|p pre]; cbn in E.
        -- injection E as <- <-. rewrite Hx. reflexivity.
        -- injection E as <- ->. inversion Hp as [|? ? [b Hb] Hp']; subst. rewrite Hb. rewrite (proj2 IH); [reflexivity|]. exists pre, x, post. auto.
    + destruct (sd_marshal uni s) as [[e'|t]| |]; try discriminate; [|congruence]. destruct (marshal_all uni l) as [[?|?]| |]; try discriminate; congruence.
Qed.

Lemma marshal_cases uni m :
  (message_marshal uni m = Panic <-> first_failure uni (m_sd m) Panic) /\
  (forall e, message_marshal uni m = Val (inl e) <-> first_failure uni (m_sd m) (Val (inl e))) /\
  message_marshal uni m <> NoFuel.
Proof.
  destruct (marshal_all_cases uni (m_sd m)) as [Hp Hn]. destruct (C70_list_encoding uni (m_sd m)) as (_ & _ & He).
  assert (HL : (list_marshal uni (m_sd m) = Panic <-> first_failure uni (m_sd m) Panic) /\ list_marshal uni (m_sd m) <> NoFuel).
  { unfold list_marshal. destruct (m_sd m) as [|s l] eqn:E; [split; [|discriminate]; split; [discriminate|intros ([|? ?] & ? & ? & H & _); discriminate]|].
    rewrite <- Hp. unfold emit, efail. destruct (marshal_all uni (s :: l)) as [[e|ts]| |]; (split; [split; intros X; try discriminate X; reflexivity|congruence]). }
  destruct HL as [HL HLn]. unfold message_marshal. cbv zeta.
  assert (HE : forall e, list_marshal uni (m_sd m) = Val (inl e) <-> first_failure uni (m_sd m) (Val (inl e))) by exact He.
  destruct (list_marshal uni (m_sd m)) as [[e|b]| |].
  - split; [exact HL|]. split; [exact HE|discriminate].
  - split; [|split].
    + rewrite <- HL. destruct (m_text m); split; discriminate.
    + intros e. rewrite <- HE. destruct (m_text m); split; discriminate.
    + destruct (m_text m); discriminate.
  - split; [exact HL|]. split; [exact HE|discriminate].
  - congruence.
Qed.

(** Which of the four a call of Send meets: the first structured data that does not encode decides; if
    they all encode, so does the Transport. *)
Theorem C112_call_of_message : forall uni t m,
  (send_call uni t m = CMarshalPanics <-> first_failure uni (m_sd m) Panic) /\
  (forall e, send_call uni t m = CMarshalError e <-> first_failure uni (m_sd m) (Val (inl e))) /\
  (send_call uni t m = CEncodePanics <-> exists enc, message_marshal uni m = Val (inr enc) /\ forall encode, t = Some encode -> encode enc = None) /\
  (forall f, send_call uni t m = CEncoded f <-> exists enc encode, message_marshal uni m = Val (inr enc) /\ t = Some encode /\ encode enc = Some f).
Proof.
  intros uni t m. destruct (marshal_cases uni m) as (Hp & He & Hn). unfold send_call.
  split; [|split; [|split]].
  - rewrite <- Hp. destruct (message_marshal uni m) as [[e|b]| |]; [split; discriminate| |tauto|congruence].
    split; [|discriminate]. destruct t as [f|]; [destruct (f b)|]; discriminate.
  - intros e. rewrite <- He. destruct (message_marshal uni m) as [[e'|b]| |]; [split; intros H; injection H as ->; reflexivity| |split; discriminate|congruence].
    split; [|discriminate]. destruct t as [f|]; [destruct (f b)|]; discriminate.
  - destruct (message_marshal uni m) as [[e'|b]| |]; [split; [discriminate|intros (enc & H & _); discriminate]| |split; [discriminate|intros (enc & H & _); discriminate]|congruence].
    destruct t as [f|].
    + destruct (f b) eqn:Ef; (split; [intros H|intros (enc & H & K)]); try discriminate.
      * injection H as <-. rewrite (K f eq_refl) in Ef. discriminate.
      * exists b. split; [reflexivity|]. intros g Hg. injection Hg as <-. exact Ef.
      * reflexivity.
    + split; [|reflexivity]. intros _. exists b. split; [reflexivity|]. discriminate.
  - intros fr. destruct (message_marshal uni m) as [[e'|b]| |]; [split; [discriminate|intros (enc & g & H & _); discriminate]| |split; [discriminate|intros (enc & g & H & _); discriminate]|congruence].
    destruct t as [f|]; [|split; [discriminate|intros (enc & g & _ & H & _); discriminate]].
    destruct (f b) eqn:Ef; (split; [intros H|intros (enc & g & H & K & L)]); try discriminate.
    + injection H as <-. eauto.
    + injection H as <-. injection K as <-. rewrite Ef in L. injection L as ->. reflexivity.
    + injection H as <-. injection K as <-. congruence.
Qed.
Print Assumptions C112_call_of_message.

(** A structured data of another package in the list: its panic is Send's, whatever it panics with. *)
Theorem C112_foreign : forall uni r, sd_marshal uni (SDForeign r) = Panic <-> r = MPanic \/ exists e, r = MPanicErr e.
Proof.
  intros uni r. cbn [sd_marshal]. destruct r as [r|e|]; split; intros H; try discriminate H; try reflexivity; eauto.
  destruct H as [H|[e H]]; discriminate H.
Qed.
Print Assumptions C112_foreign.

(** Encoding the value v first meets a structured data of another package whose Marshal5424 does r:
    it is that structured data, or a pointer to such a value, or a slice with such a value after
    elements that encode. *)
Inductive meets : gval -> mcall -> Prop :=
| meets_here r : meets (VMar false false false r) r
| meets_pointer v r : meets v r -> meets (VPtr (Some v)) r
| meets_element l1 v l2 r : Forall (clean false) l1 -> meets v r -> meets (VSlice false (Some (l1 ++ v :: l2))) r.

Lemma meets_encode v r : meets v r -> is_empty_value v = false /\
  forall prefix, match r with MRet (inr _) => True | _ => enc_value v false prefix = enc_value (VMar false false false r) false prefix end.
Proof.
  induction 1 as [r|v r H [IHe IH]|l1 v l2 r Hl H [IHe IH]].
  - split; [reflexivity|]. intros prefix. destruct r as [[e|b]|e|]; reflexivity || exact I.
  - split; [reflexivity|]. intros prefix. specialize (IH prefix). destruct r as [[e|b]|e|]; try exact I; exact IH.
  - split; [destruct l1; reflexivity|]. intros prefix. specialize (IH prefix).
    cbn [enc_value]. destruct r as [[e|b]|e|]; [|exact I| |];
      (induction Hl as [|x l1 Hx Hl IHl]; cbn [app]; [rewrite IH; reflexivity|apply (clean_iff _ _ prefix) in Hx as [t Ht]; rewrite Ht, IHl; reflexivity]).
Qed.

(** Inside GenericSD, at a struct field that meets such a structured data: a panic with an error is returned as that error, not
    wrapped; the error it returns is wrapped; any other panic goes through.  The fields after it are
    not looked at. *)
Theorem C112_generic_field : forall uni id pm l1 f v r l2 name, meets v r -> Forall (field_fine uni) l1 -> f_exported f = true -> field_named uni f name -> name <> [] ->
  let result := sd_marshal uni (SDGeneric id pm (VStruct (l1 ++ (f, v) :: l2))) in
  (forall e, r = MPanicErr e -> result = Val (inl e)) /\
  (forall e, r = MRet (inl e) -> result = Val (inl (EMarshaler e))) /\
  (r = MPanic -> result = Panic).
Proof.
  intros uni id pm l1 f v r l2 name [Hev Hev'] % meets_encode Hl Hx Hn Hnn. cbv zeta. cbn [sd_marshal enc_root]. unfold enc_struct.
  assert (K : forall x, (forall y, x <> Val (inr y)) -> eseq (emit (header_write (Some id))) (eseq x (emit [RBR])) = x).
  { intros [[e|y]| |] H; cbn; try reflexivity. destruct (H y eq_refl). }
  assert (F : match r with MRet (inr _) => True | _ => enc_fields uni (l1 ++ (f, v) :: l2) = enc_value (VMar false false false r) false name end).
  { specialize (Hev' name). destruct r as [[e|b]|e|]; [|exact I| |]; (induction Hl as [|[sf w] l1 Hw Hl IH];
      [cbn [app enc_fields]; destruct (get_name_spec uni f) as [Hn' _]; destruct (get_name uni f) as [nm md]; cbn [fst] in Hn'; rewrite (field_named_fun _ _ _ _ Hn' Hn);
       rewrite Hev; cbn [orb]; rewrite Hx; destruct name as [|c name]; [congruence|]; cbn [length Nat.eqb negb]; rewrite Hev'; reflexivity
      |cbn [app enc_fields]; pose proof (skipped_dec uni sf w) as Hs; destruct (get_name_spec uni sf) as [_ Hm]; destruct (get_name uni sf) as [nm md]; cbn [fst snd] in *;
       destruct (is_empty_value w || (length nm =? 0)%nat);
       [destruct md; [exfalso; destruct Hw as [[_ Hw]|[Hw _]]; [apply Hw, Hm; reflexivity|apply Hw, Hs; reflexivity]|exact IH]
       |destruct Hw as [[Hw _]|[_ Hw]]; [apply Hs in Hw; discriminate Hw|]; cbn [fst snd] in Hw; apply (clean_iff _ _ nm) in Hw as [t Ht]; rewrite Ht, IH; reflexivity]]). }
  split; [|split]; [intros e ->|intros e ->|intros ->]; rewrite F, K; try reflexivity; intros y; discriminate.
Qed.
Print Assumptions C112_generic_field.

(** The same when what is given to GenericSD is such a value itself (no struct, no map). *)
Theorem C112_generic_root : forall uni id pm p r,
  let result := sd_marshal uni (SDGeneric id pm (VMar p false false r)) in
  (forall e, r = MPanicErr e -> result = Val (inl e)) /\
  (forall e, r = MRet (inl e) -> result = Val (inl (EMarshaler e))) /\
  (r = MPanic -> result = Panic).
Proof. intros uni id pm p r. cbv zeta. split; [|split]; [intros e ->|intros e ->|intros ->]; reflexivity. Qed.
Print Assumptions C112_generic_root.

(** The same for the elements of a map given to GenericSD: the entries are met in the order of their
    keys, whatever order the map yields them in; the first that does not encode decides, and the
    entries after it are not looked at. *)
Theorem C112_generic_map : forall uni id pm es s pre k v r post, meets v r -> NoDup (map fst es) ->
  Permutation s es -> StronglySorted (fun a b => bytes_lt (fst a) (fst b)) s ->
  s = pre ++ (k, v) :: post -> Forall (fun p => clean false (snd p)) pre ->
  let result := sd_marshal uni (SDGeneric id pm (VMap true false (Some es))) in
  (forall e, r = MPanicErr e -> result = Val (inl e)) /\
  (forall e, r = MRet (inl e) -> result = Val (inl (EMarshaler e))) /\
  (r = MPanic -> result = Panic).
Proof.
  intros uni id pm es s pre k v r post [_ Hev] % meets_encode Hnd Hperm Hsort E Hpre. cbv zeta. cbn [sd_marshal enc_root]. unfold enc_map. cbn [negb].
  assert (Es : sort_entries es = s).
  { apply sorted_unique; [apply sort_sorted| | |].
    - clear -Hsort. induction Hsort as [|x l Hs IH Hf]; constructor; [exact IH|]. eapply Forall_impl; [|exact Hf]. intros a. apply lt_leb.
    - eapply Permutation_NoDup; [apply Permutation_map, Permutation_sym, sort_perm|exact Hnd].
    - rewrite sort_perm. symmetry. exact Hperm. }
  rewrite Es, E. clear Es Hsort Hperm E.
  assert (K : forall x, (forall y, x <> Val (inr y)) -> eseq (emit (header_write (Some id))) (eseq x (emit [RBR])) = x).
  { intros [[e|y]| |] H; cbn; try reflexivity. destruct (H y eq_refl). }
  assert (F : match r with MRet (inr _) => True | _ => enc_entries (pre ++ (k, v) :: post) = enc_value (VMar false false false r) false k end).
  { specialize (Hev k). destruct r as [[e|b]|e|]; [|exact I| |]; (induction Hpre as [|[k' v'] pre Hv Hpre IH];
      [cbn [app enc_entries]; rewrite Hev; reflexivity
      |cbn [app enc_entries]; cbn [snd] in Hv; apply (clean_iff _ _ k') in Hv as [t Ht]; rewrite Ht, IH; reflexivity]). }
  split; [|split]; [intros e ->|intros e ->|intros ->]; rewrite F, K; try reflexivity; intros y; discriminate.
Qed.
Print Assumptions C112_generic_map.

(** for instance, of two entries that fail, the one with the smaller key decides *)
Example C112_generic_map_nonvacuous : forall uni id e,
  sd_marshal uni (SDGeneric id false (VMap true false (Some [(bs "b", VMar false false false MPanic); (bs "a", VMar false false false (MPanicErr e)); (bs "A", VBasic false [1%N])]))) = Val (inl e) /\
  sd_marshal uni (SDGeneric id false (VMap true false (Some [(bs "a", VMar false false false MPanic); (bs "b", VMar false false false (MPanicErr e))]))) = Panic.
Proof. intros. split; reflexivity. Qed.
Example meets_nonvacuous : forall e, meets (VPtr (Some (VSlice false (Some [VMar false false false (MRet (inr [1%N])); VMar false false false (MPanicErr e); VMar false false false MPanic])))) (MPanicErr e).
Proof. intros e. apply meets_pointer. apply (meets_element [_] _ [_]); [|apply meets_here]. constructor; [|constructor]. apply (clean_iff _ _ []). eexists. reflexivity. Qed.

(** ** the Sender *)
(** the calls that end before the lock *)
Definition before_lock (a : paction) : bool := match a with PCall (CMarshalError _) | PCall CMarshalPanics => true | _ => false end.
(** what the calls of a list of actions give *)
Definition gives (a : paction) : list sreturn :=
  match a with
  | PCall (CMarshalError e) => [SentError e]
  | PCall CMarshalPanics | PCall CEncodePanics => [SentPanic]
  | PCall (CEncoded _) => [SentOk]
  | PAct _ => []
  end.
(** the same actions for a Sender none of whose calls of Send panics *)
Definition plain (a : paction) : list saction := match a with PCall (CEncoded f) => [ASend f] | PCall _ => [] | PAct a => [a] end.

Lemma pstep_given s a s' : pstep s a = Some s' -> p_returned s' = p_returned s ++ gives a.
Proof.
  unfold pstep. destruct (s_crashed (p_s s)); [discriminate|]. destruct a as [[e| | |f]|a]; cbn [gives].
  - intros H. injection H as <-. reflexivity.
  - intros H. injection H as <-. reflexivity.
  - destruct (_ || _); [discriminate|]. intros H. injection H as <-. reflexivity.
  - destruct (p_stuck s); [discriminate|]. destruct (sstep _ _); [|discriminate]. intros H. injection H as <-. reflexivity.
  - rewrite app_nil_r. destruct a; try discriminate; try (destruct (p_stuck s); [discriminate|]); (destruct (sstep _ _); [|discriminate]); intros H; injection H as <-; reflexivity.
Qed.
Lemma prun_given : forall acts s s', prun s acts = Some s' -> p_returned s' = p_returned s ++ flat_map gives acts.
Proof.
  induction acts as [|a acts IH]; intros s s' H; cbn [prun flat_map] in *; [injection H as <-; rewrite app_nil_r; reflexivity|].
  destruct (pstep s a) as [s1|] eqn:E; [|discriminate]. rewrite (IH _ _ H), (pstep_given _ _ _ E), <- app_assoc. reflexivity.
Qed.

Definition same_sender (s s' : pstate) : Prop := p_s s = p_s s' /\ p_stuck s = p_stuck s'.
Lemma pstep_same s s' a : same_sender s s' -> match pstep s a, pstep s' a with Some x, Some y => same_sender x y | None, None => True | _, _ => False end.
Proof.
  destruct s as [x b r], s' as [y c q]. unfold same_sender. cbn. intros [-> ->]. unfold pstep. cbn [p_s p_stuck p_returned].
  destruct (s_crashed y); [exact I|]. destruct a as [[e| | |f]|a]; [cbn; auto|cbn; auto| | |].
  - destruct (c || locked y); cbn; auto.
  - destruct c; [exact I|]. destruct (sstep y (ASend f)); cbn; auto.
  - destruct a; try exact I; try (destruct c; [exact I|]); destruct (sstep y _); cbn; auto.
Qed.

(** A call of Send whose structured data fail, by an error or by a panic that the caller recovers, can
    be struck out of an execution: the Sender and everything that follows are the same. *)
Theorem C112_before_the_lock : forall acts s s1, prun s acts = Some s1 ->
  exists s2, prun s (filter (fun a => negb (before_lock a)) acts) = Some s2 /\ p_s s2 = p_s s1 /\ p_stuck s2 = p_stuck s1.
Proof.
  assert (G : forall acts s s' s1, same_sender s s' -> prun s acts = Some s1 -> exists s2, prun s' (filter (fun a => negb (before_lock a)) acts) = Some s2 /\ same_sender s1 s2).
  { induction acts as [|a acts IH]; intros s s' s1 Hs H; cbn [prun filter] in *; [injection H as <-; exists s'; auto|].
    destruct (pstep s a) as [sa|] eqn:Ea; [|discriminate]. destruct (before_lock a) eqn:Eb; cbn [negb].
    - apply (IH sa s'); [|exact H]. destruct Hs as [H1 H2]. unfold pstep in Ea. destruct (s_crashed (p_s s)); [discriminate|].
      destruct a as [[e| | |f]|a]; try discriminate Eb; injection Ea as <-; split; assumption.
    - cbn [prun]. pose proof (pstep_same s s' a Hs) as K. rewrite Ea in K. destruct (pstep s' a) as [sb|]; [|contradiction]. exact (IH _ _ _ K H). }
  intros acts s s1 H. destruct (G acts s s s1 (conj eq_refl eq_refl) H) as (s2 & H2 & E1 & E2). eauto.
Qed.
Print Assumptions C112_before_the_lock.

(** As long as no Encode panics, the Sender is that of MSender.v, for which the other properties hold:
    each call whose structured data and Transport both return has queued its frame, in order. *)
Theorem C112_same_sender : forall acts s, prun recover_init acts = Some s -> ~ In (PCall CEncodePanics) acts ->
  srun sender_init (flat_map plain acts) = Some (p_s s) /\ p_stuck s = false /\ p_returned s = flat_map gives acts.
Proof.
  assert (G : forall acts s s', p_stuck s = false -> prun s acts = Some s' -> ~ In (PCall CEncodePanics) acts -> srun (p_s s) (flat_map plain acts) = Some (p_s s') /\ p_stuck s' = false).
  { induction acts as [|a acts IH]; intros s s' Hs H Hn; cbn [prun flat_map] in *; [injection H as <-; auto|].
    destruct (pstep s a) as [s1|] eqn:E; [|discriminate].
    assert (K : p_stuck s1 = false /\ forall more, srun (p_s s) (plain a ++ more) = srun (p_s s1) more).
    { unfold pstep in E. destruct (s_crashed (p_s s)); [discriminate|]. rewrite Hs in E. destruct a as [[e| | |f]|a].
      - injection E as <-. auto.
      - injection E as <-. auto.
      - destruct Hn. left. reflexivity.
      - cbn [plain app srun]. destruct (sstep (p_s s) (ASend f)) as [x|]; [|discriminate]. injection E as <-. auto.
      - destruct a; try discriminate; cbn [plain app srun]; destruct (sstep (p_s s) _) as [x|]; try discriminate; injection E as <-; auto. }
    destruct K as [K1 K2]. rewrite K2. apply (IH s1 s'); [exact K1|exact H|]. intros X. apply Hn. right. exact X. }
  intros acts s H Hn. destruct (G acts recover_init s eq_refl H Hn) as [A B]. split; [exact A|]. split; [exact B|]. exact (prun_given _ _ _ H).
Qed.
Print Assumptions C112_same_sender.

(** The lock is left held exactly when an Encode has panicked; that happens at most once. *)
Theorem C112_held_iff : forall acts s, prun recover_init acts = Some s -> (p_stuck s = true <-> In (PCall CEncodePanics) acts).
Proof.
  assert (G : forall acts s s', prun s acts = Some s' -> (p_stuck s' = true <-> p_stuck s = true \/ In (PCall CEncodePanics) acts)).
  { induction acts as [|a acts IH]; intros s s' H; cbn [prun] in *; [injection H as <-; cbn; tauto|].
    destruct (pstep s a) as [s1|] eqn:E; [|discriminate]. rewrite (IH _ _ H). cbn [In].
    assert (K : p_stuck s1 = true <-> p_stuck s = true \/ a = PCall CEncodePanics).
    { unfold pstep in E. destruct (s_crashed (p_s s)); [discriminate|]. destruct a as [[e| | |f]|a].
      - injection E as <-. cbn. split; [auto|]. intros [?|?]; [assumption|discriminate].
      - injection E as <-. cbn. split; [auto|]. intros [?|?]; [assumption|discriminate].
      - destruct (_ || _); [discriminate|]. injection E as <-. cbn. tauto.
      - destruct (p_stuck s); [discriminate|]. destruct (sstep _ _); [|discriminate]. injection E as <-. cbn. split; [discriminate|]. intros [?|?]; discriminate.
      - destruct a; try discriminate; try (destruct (p_stuck s) eqn:Es; [discriminate|]); (destruct (sstep _ _); [|discriminate]); injection E as <-; cbn; rewrite ?Es;
          (split; [auto|intros [?|?]; [assumption|discriminate]]). }
    rewrite K. tauto. }
  intros acts s H. rewrite (G _ _ _ H). cbn. split; [intros [?|?]; [discriminate|assumption]|auto].
Qed.
Print Assumptions C112_held_iff.

Definition is_write (e : sevent) : bool := match e with EWrite _ _ => true | _ => false end.

(** where the goroutine is once the lock is held for ever: not between Lock and Unlock *)
Definition held_inv (s : pstate) : Prop := p_stuck s = true -> locked (p_s s) = false.
Lemma held_step s a s' : held_inv s -> pstep s a = Some s' -> held_inv s' /\
  (p_stuck s = true -> p_stuck s' = true /\ s_queue (p_s s') = s_queue (p_s s) /\ filter is_write (s_log (p_s s')) = filter is_write (s_log (p_s s)) /\
     (forall f, a <> PCall (CEncoded f)) /\ a <> PCall CEncodePanics).
Proof.
  intros Hi E. unfold held_inv in *. unfold pstep in E. destruct (s_crashed (p_s s)) eqn:Ec; [discriminate|]. destruct a as [[e| | |f]|a].
  - injection E as <-. cbn. split; [exact Hi|]. intros Hs. repeat split; try discriminate; assumption.
  - injection E as <-. cbn. split; [exact Hi|]. intros Hs. repeat split; try discriminate; assumption.
  - destruct (p_stuck s) eqn:Es; [discriminate|]. destruct (locked (p_s s)) eqn:El; [discriminate|]. injection E as <-. cbn. split; [auto|discriminate].
  - destruct (p_stuck s) eqn:Es; [discriminate|]. destruct (sstep _ _); [|discriminate]. injection E as <-. cbn. split; [discriminate|discriminate].
  - assert (K : forall x, sstep (p_s s) a = Some x -> s' = {| p_s := x; p_stuck := p_stuck s; p_returned := p_returned s |} ->
       locked (p_s s) = false -> a <> ALock -> (forall f, a <> ASend f) -> locked x = false /\ s_queue x = s_queue (p_s s) /\ filter is_write (s_log x) = filter is_write (s_log (p_s s))).
    { intros x Hx _ Hl Ha Hf. clear E Hi. unfold locked in *. unfold sstep in Hx. rewrite Ec in Hx.
      destruct a; try congruence; try (destruct (s_pc (p_s s)) eqn:Ep; try discriminate Hx; try discriminate Hl);
        repeat match type of Hx with
               | context [match ?y with _ => _ end] => destruct y eqn:?; try discriminate Hx
               end; injection Hx as <-; cbn; rewrite ?Ep; unfold flush_return, flush_entry;
        repeat match goal with |- context [match ?y with _ => _ end] => destruct y eqn:? end;
        rewrite ?filter_app; cbn; rewrite ?app_nil_r; try (repeat split; reflexivity); try (repeat split; congruence);
        exfalso; repeat match goal with H : match ?y with _ => _ end = _ |- _ => destruct y; try discriminate H end. }
    destruct a; try discriminate E.
    all: try (destruct (p_stuck s) eqn:Es; [discriminate E|]; destruct (sstep _ _); [|discriminate E]; injection E as <-; cbn; split; [discriminate|discriminate]).
    all: destruct (sstep (p_s s) _) as [x|] eqn:Ex; [|discriminate E]; injection E as <-; cbn [p_s p_stuck]; split;
         [intros Hs; apply (K x eq_refl eq_refl (Hi Hs)); [discriminate|intros ? ?; discriminate]
         |intros Hs; destruct (K x eq_refl eq_refl (Hi Hs)) as (_ & K2 & K3); [discriminate|intros ? ?; discriminate|]; repeat split; try discriminate; assumption].
Qed.
Lemma held_run : forall acts s s', held_inv s -> prun s acts = Some s' -> held_inv s' /\
  (p_stuck s = true -> p_stuck s' = true /\ s_queue (p_s s') = s_queue (p_s s) /\ filter is_write (s_log (p_s s')) = filter is_write (s_log (p_s s)) /\
     Forall (fun a => (forall f, a <> PCall (CEncoded f)) /\ a <> PCall CEncodePanics) acts).
Proof.
  induction acts as [|a acts IH]; intros s s' Hi H; cbn [prun] in *; [injection H as <-; split; [exact Hi|intros Hs; repeat split; auto]|].
  destruct (pstep s a) as [s1|] eqn:E; [|discriminate]. destruct (held_step _ _ _ Hi E) as [Hi1 K1]. destruct (IH _ _ Hi1 H) as [Hi2 K2]. split; [exact Hi2|].
  intros Hs. destruct (K1 Hs) as (A1 & A2 & A3 & A4 & A5). destruct (K2 A1) as (B1 & B2 & B3 & B4). rewrite B2, B3. repeat split; auto.
Qed.
Lemma held_init acts s : prun recover_init acts = Some s -> held_inv s.
Proof. intros H. apply (held_run acts recover_init s); [intros X; discriminate X|exact H]. Qed.

(** After an Encode has panicked, for ever: no call of Send whose structured data encode ends, the queue
    does not change, no byte is written. *)
Theorem C112_held_for_ever : forall acts s more s', prun recover_init acts = Some s -> p_stuck s = true -> prun s more = Some s' ->
  p_stuck s' = true /\ s_queue (p_s s') = s_queue (p_s s) /\
  filter is_write (s_log (p_s s')) = filter is_write (s_log (p_s s)) /\
  Forall (fun a => forall f, a <> PCall (CEncoded f) /\ a <> PCall CEncodePanics) more /\ ~ In SentOk (flat_map gives more).
Proof.
  intros acts s more s' H Hs H'. destruct (held_run more s s' (held_init _ _ H) H') as [_ K]. destruct (K Hs) as (A & B & C & D).
  split; [exact A|]. split; [exact B|]. split; [exact C|]. split.
  - eapply Forall_impl; [|exact D]. intros a [X Y] f. auto.
  - intros X. apply in_flat_map in X as (a & Ha & Hg). rewrite Forall_forall in D. destruct (D a Ha) as [Y _]. destruct a as [[e| | |f]|a]; cbn in Hg; try (destruct Hg as [Hg|[]]; try discriminate Hg); [|exact Hg].
    exact (Y f eq_refl).
Qed.
Print Assumptions C112_held_for_ever.

(** the goroutine has left the loop of its deferred function *)
Definition leaving (s : sstate) : bool := match s_pc s with PClose | PCloseDone | PCloseErr | PExit => true | _ => false end.

(** ... and if messages were waiting in the queue, End never returns and the error channel is never
    closed. *)
Theorem C112_end_never_returns : forall acts s more s', prun recover_init acts = Some s -> p_stuck s = true -> s_queue (p_s s) <> [] -> leaving (p_s s) = false ->
  prun s more = Some s' -> s_completed (p_s s') = s_completed (p_s s) /\ s_errclosed (p_s s') = s_errclosed (p_s s) /\ leaving (p_s s') = false.
Proof.
  intros acts s more s' H. pose proof (held_init _ _ H) as Hi. clear H acts. revert s Hi. induction more as [|a more IH]; intros s Hi Hs Hq Hl H; cbn [prun] in H; [injection H as <-; auto|].
  destruct (pstep s a) as [s1|] eqn:E; [|discriminate]. destruct (held_step _ _ _ Hi E) as [Hi1 K1]. destruct (K1 Hs) as (A1 & A2 & _ & A4 & A5).
  assert (K : s_completed (p_s s1) = s_completed (p_s s) /\ s_errclosed (p_s s1) = s_errclosed (p_s s) /\ leaving (p_s s1) = false).
  { clear -E Hl Hq Hs A4 A5. unfold pstep in E. destruct (s_crashed (p_s s)) eqn:Ec; [discriminate|]. destruct a as [[e| | |f]|a].
    - injection E as <-. auto.
    - injection E as <-. auto.
    - congruence.
    - destruct (A4 f eq_refl).
    - assert (G : forall x, sstep (p_s s) a = Some x -> (forall f, a <> ASend f) -> s_completed x = s_completed (p_s s) /\ s_errclosed x = s_errclosed (p_s s) /\ leaving x = false).
      { intros x Hx Hf. clear E. unfold leaving in *. unfold sstep in Hx. rewrite Ec in Hx.
        destruct a; try congruence; try (destruct (s_pc (p_s s)) eqn:Ep; try discriminate Hx; try discriminate Hl);
        repeat match type of Hx with
               | context [match ?y with _ => _ end] => destruct y eqn:?; try discriminate Hx
               end; injection Hx as <-; cbn; rewrite ?Ep; unfold flush_return, flush_entry;
        repeat match goal with |- context [match ?y with _ => _ end] => destruct y eqn:? end; try (repeat split; congruence);
        exfalso; repeat match goal with H : match ?y with _ => _ end = _ |- _ => destruct y eqn:?; try discriminate H; try congruence end. }
      destruct a; try discriminate E; try (destruct (p_stuck s); [discriminate E|]); (destruct (sstep (p_s s) _) as [x|] eqn:Ex; [|discriminate E]); injection E as <-; cbn [p_s];
        (apply (G x); [reflexivity|intros ? ?; discriminate]). }
  destruct K as (K1' & K2' & K3'). destruct (IH s1 Hi1 A1 ltac:(rewrite A2; exact Hq) K3' H) as (B1 & B2 & B3). rewrite B1, B2. auto.
Qed.
Print Assumptions C112_end_never_returns.

(** With an empty queue and an open connection, End still returns. *)
Theorem C112_end_with_empty_queue : forall acts s c, prun recover_init acts = Some s -> p_stuck s = true -> s_queue (p_s s) = [] -> s_out (p_s s) = Some c ->
  s_pc (p_s s) = PSelect -> s_end (p_s s) = false -> s_crashed (p_s s) = false -> s_completed (p_s s) = false -> s_errclosed (p_s s) = false ->
  exists s', prun s [PAct AEndCall; PAct ASelectEnd; PAct ADrain; PAct ACloseOut; PAct ACloseDone; PAct ACloseErr] = Some s' /\
    s_completed (p_s s') = true /\ s_crashed (p_s s') = false.
Proof.
  intros acts s c _ Hs Hq Ho Hp He Hc Hd Hr. destruct s as [x st rt], x as [pc q o e cp eq ec ge lg nx cr]. cbn in *. subst.
  eexists. split; [vm_compute; reflexivity|]. split; vm_compute; reflexivity.
Qed.
Print Assumptions C112_end_with_empty_queue.

(** ** examples *)
Definition a_call (l : list sdval) : scall := send_call (fun _ => false) (Some (fun e => if (length e <? 45)%nat then None else Some (encode TZeroEnded e))) (msg_add_sd (empty_message 14) l).

Example C112_nonvacuous :
  a_call [SDForeign MPanic] = CMarshalPanics /\ a_call [SDForeign (MPanicErr (EForeign 2))] = CMarshalPanics /\
  a_call [SDGeneric (bs "x@1") false (VStruct [(fld "A" "", VMar false false false (MPanicErr (EForeign 2)))]); SDForeign MPanic] = CMarshalError (EForeign 2) /\
  a_call [SDGeneric (bs "x@1") false (VStruct [(fld "A" "", VMar false false false (MRet (inl (EForeign 2))))])] = CMarshalError (EMarshaler (EForeign 2)) /\
  a_call [] = CEncodePanics /\
  (exists f, a_call [SDUnknown (bs "a@1") []; SDUnknown (bs "b@1") []] = CEncoded f) /\
  field_named (fun _ => false) (fld "A" "") (bs "A") /\
  (exists s, prun recover_init [PAct ATick; PAct (AConnect None); PAct ALock; PAct AWriteDone; PCall CEncodePanics] = Some s /\ p_stuck s = true /\ s_queue (p_s s) = [] /\
     s_out (p_s s) = Some 0%nat /\ s_pc (p_s s) = PSelect /\ s_end (p_s s) = false /\ s_crashed (p_s s) = false /\ s_completed (p_s s) = false /\ s_errclosed (p_s s) = false).
Proof.
  split; [vm_compute; reflexivity|]. split; [vm_compute; reflexivity|]. split; [vm_compute; reflexivity|]. split; [vm_compute; reflexivity|]. split; [vm_compute; reflexivity|].
  split; [eexists; vm_compute; reflexivity|]. split; [exact (proj1 (get_name_spec (fun _ => false) (fld "A" "")))|].
  eexists. split; [vm_compute; reflexivity|]. repeat split.
Qed.

(** A recovered panic is not always harmless: one Encode that panics, and the message already queued is
    never written, although the collector is there; nothing reports it. *)
Theorem C112_recovered_is_harmless_refuted : exists s, prun recover_init
    [PCall (CEncoded (bs "first")); PCall CMarshalPanics; PCall CEncodePanics; PAct AEndCall; PAct ATick; PAct (AConnect None)] = Some s /\
  p_returned s = [SentOk; SentPanic; SentPanic] /\ s_queue (p_s s) = [bs "first"] /\ s_errq (p_s s) = [] /\
  (forall more s', prun s more = Some s' -> s_queue (p_s s') = [bs "first"] /\ filter is_write (s_log (p_s s')) = [] /\ s_completed (p_s s') = false) /\
  exists s0, prun recover_init [PCall (CEncoded (bs "first")); PCall CMarshalPanics; PAct AEndCall; PAct ATick; PAct (AConnect None); PAct ALock; PAct (AWrite 5 WOk)] = Some s0 /\
    s_log (p_s s0) = [EOpen 0; EWrite 0 (bs "first")].
Proof.
  eexists. split; [vm_compute; reflexivity|]. split; [reflexivity|]. split; [vm_compute; reflexivity|]. split; [reflexivity|]. split.
  - intros more s' H.
    match type of H with prun ?x _ = _ => assert (R : prun recover_init [PCall (CEncoded (bs "first")); PCall CMarshalPanics; PCall CEncodePanics; PAct AEndCall; PAct ATick; PAct (AConnect None)] = Some x) by (vm_compute; reflexivity) end.
    destruct (C112_held_for_ever _ _ _ _ R eq_refl H) as (_ & Q & L & _).
    destruct (C112_end_never_returns _ _ _ _ R eq_refl ltac:(discriminate) eq_refl H) as (D & _). rewrite Q, L, D. repeat split; vm_compute; reflexivity.
  - eexists. split; [vm_compute; reflexivity|]. vm_compute. reflexivity.
Qed.
Print Assumptions C112_recovered_is_harmless_refuted.
