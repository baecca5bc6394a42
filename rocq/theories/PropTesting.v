(** PropTesting.v -- C96: the test helpers for structured data accept exactly what they say. *)
From Verif Require Import Base BaseFacts Spec MText MSData MMessage MTransport MParse MTesting LText LAtoi LSData LParse LRound PropMessage PropParse PropSData PropSData2 PropSData3.

(** the test passes: DoTest returns nil *)
Definition passes uni deq spare t f : Prop := do_test uni deq spare t f = Val None.

Lemma tq_eqb_eq a b : tq_eqb a b = true <-> a = b.
Proof.
  destruct a as [k s x], b as [k' s' y]. unfold tq_eqb. cbn. rewrite !Bool.andb_true_iff, !Bool.eqb_true_iff. split.
  - intros [[-> ->] H]. destruct x, y; try discriminate; [apply Z.eqb_eq in H; subst|]; reflexivity.
  - intros H. injection H as -> -> ->. repeat split. destruct y; [apply Z.eqb_refl|reflexivity].
Qed.
Lemma pairs_eqb_eq a : forall b, pairs_eqb a b = true <-> a = b.
Proof.
  induction a as [|[k v] a IH]; intros [|[k' v'] b]; cbn; try (split; [reflexivity || discriminate|reflexivity || discriminate]).
  rewrite !Bool.andb_true_iff, !bytes_eqb_eq, IH. split; [intros [[-> ->] ->]; reflexivity|intros H; injection H as -> -> ->; auto].
Qed.

Lemma valid_inv uni deq spare orig obj enc f : passes uni deq spare (TValid orig obj enc) f <->
  exists o x, foundable_found f orig spare = Val (Some o) /\ obj = Some x /\ deep_equal deq o x = true /\ sd_marshal uni o = Val (inr enc).
Proof.
  unfold passes, do_test. destruct (foundable_found f orig spare) as [[o|]| |] eqn:E; cbn [bind]; try (split; [discriminate|]; intros (o' & x & H & _); discriminate).
  destruct obj as [x|]; cbn [negb]; [|split; [discriminate|intros (o' & x & _ & H & _); discriminate]].
  destruct (deep_equal deq o x) eqn:Ed; cbn [negb]; [|split; [discriminate|intros (o' & y & H & H2 & H3 & _); injection H as <-; injection H2 as <-; congruence]].
  destruct (sd_marshal uni o) as [[e|d]| |] eqn:Em; cbn [bind]; try (split; [discriminate|intros (o' & y & H & H2 & H3 & H4); injection H as <-; congruence]).
  destruct (bytes_eqb d enc) eqn:Eb; cbn [negb].
  - apply bytes_eqb_eq in Eb. subst. split; [intros _; eauto 10|reflexivity].
  - split; [discriminate|]. intros (o' & y & H & H2 & H3 & H4). injection H as <-. rewrite Em in H4. injection H4 as ->. rewrite (proj2 (bytes_eqb_eq _ _) eq_refl) in Eb. discriminate.
Qed.

(** the texts that say time quality [t] *)
Definition says_tq (d : bytes) (t : tq) : Prop :=
  exists l, d = bs "[timeQuality" ++ concat (map param_text l) ++ bs "]" /\ Forall (fun p => (1 <= fst (fst p))%nat) l /\
    Forall tq_pair (map (fun p => (snd (fst p), snd p)) l) /\ says tq_zero (map (fun p => (snd (fst p), snd p)) l) t.

Lemma tq_marshal_inv uni t enc : sd_marshal uni (SDTimeQuality t) = Val (inr enc) <->
  tq_consistent t /\ (forall a, syncAccuracy t = Some a -> (0 < a)%Z) /\ enc = tq_text t.
Proof.
  split.
  - intros H. assert (Hc : tq_consistent t).
    { apply tq_valid_iff. cbn [sd_marshal] in H. unfold tq_marshal in H. destruct (tq_is_valid t); [reflexivity|discriminate]. }
    assert (Ha : forall a, syncAccuracy t = Some a -> (0 < a)%Z).
    { intros a Ea. destruct (Z.ltb_spec 0 a) as [Hl|Hl]; [exact Hl|]. exfalso. assert (Hp : sd_marshal uni (SDTimeQuality t) = Panic) by (apply C67_encoding_panics_iff; eauto). congruence. }
    split; [exact Hc|]. split; [exact Ha|]. rewrite C66_encoding in H by assumption. congruence.
  - intros (Hc & Ha & ->). apply C66_encoding; assumption.
Qed.

(** TestValid against the time quality: passes exactly when the text says the object, the object can be
    encoded, and the third argument is its encoding. *)
Theorem C96_valid_timequality_iff : forall uni deq spare orig obj enc,
  passes uni deq spare (TValid orig obj enc) (OfId IdTimeQuality) <->
  exists t, obj = Some (SDTimeQuality t) /\ says_tq orig t /\ tq_consistent t /\ (forall a, syncAccuracy t = Some a -> (0 < a)%Z) /\ enc = tq_text t.
Proof.
  intros uni deq spare orig obj enc. rewrite valid_inv. cbn [foundable_found sdid_found]. split.
  - intros (o & x & Hf & -> & Hd & Hm). destruct (C66_decoded_valid _ _ _ Hf) as (t & -> & Hc). destruct x; try discriminate. apply tq_eqb_eq in Hd. subst t0.
    apply tq_marshal_inv in Hm as (_ & Ha & ->). apply C66_decodes_iff in Hf as (l & H1 & H2 & H3 & H4 & H5). exists t. split; [reflexivity|]. split; [exists l; auto|auto].
  - intros (t & -> & (l & H1 & H2 & H3 & H4) & Hc & Ha & ->). exists (SDTimeQuality t), (SDTimeQuality t). split; [apply C66_decodes_iff; exists l; auto|]. split; [reflexivity|].
    split; [apply tq_eqb_eq; reflexivity|]. apply tq_marshal_inv. auto.
Qed.
Print Assumptions C96_valid_timequality_iff.

(** In particular it passes on the encoding of every valid object with a positive accuracy. *)
Theorem C96_valid_round_trip : forall uni deq spare t, tq_consistent t -> (forall a, syncAccuracy t = Some a -> (0 < a < 2 ^ 63)%Z) ->
  passes uni deq spare (TValid (tq_text t) (Some (SDTimeQuality t)) (tq_text t)) (OfId IdTimeQuality).
Proof.
  intros uni deq spare t Hc Ha. destruct (proj1 (C66_round_trip uni t spare Ha) Hc) as (enc & Hm & Hf). apply tq_marshal_inv in Hm as (_ & Hp & ->).
  apply valid_inv. exists (SDTimeQuality t), (SDTimeQuality t). split; [exact Hf|]. split; [reflexivity|]. split; [apply tq_eqb_eq; reflexivity|]. apply tq_marshal_inv. auto.
Qed.
Print Assumptions C96_valid_round_trip.

(** TestInvalidUnmarshal against the time quality: passes exactly when the text says no valid time
    quality, and is long enough to be looked at. *)
Theorem C96_invalid_unmarshal_timequality_iff : forall uni deq spare orig,
  passes uni deq spare (TInvalidUnmarshal orig) (OfId IdTimeQuality) <->
  (forall t, tq_consistent t -> ~ says_tq orig t) /\ orig <> [] /\ (forall inner, orig = bs "[" ++ inner ++ bs "]" -> (11 <= length inner + 1 + length spare)%nat).
Proof.
  intros uni deq spare orig. unfold passes, do_test. cbn [foundable_found].
  pose proof (C68_timequality_panics_iff orig spare) as Hp. pose proof (C66_decoded_valid orig spare) as Hv. cbn [sdid_found] in *.
  destruct (tq_found orig spare) as [[o|]| |] eqn:E; cbn [bind].
  - split; [discriminate|]. intros (Hn & _). exfalso. destruct (Hv o eq_refl) as (t & -> & Hc). apply C66_decodes_iff in E as (l & H1 & H2 & H3 & H4 & H5). apply (Hn t Hc). exists l. auto.
  - split; [intros _|reflexivity]. split; [|split].
    + intros t Hc (l & H1 & H2 & H3 & H4). assert (Hf : tq_found orig spare = Val (Some (SDTimeQuality t))) by (apply C66_decodes_iff; exists l; auto). congruence.
    + intros ->. assert (Hx : Val None = @Panic (option sdval)) by (apply Hp; auto). discriminate.
    + intros inner Hi. destruct (Nat.le_gt_cases 11 (length inner + 1 + length spare)) as [H|H]; [exact H|]. exfalso.
      assert (Hx : Val None = @Panic (option sdval)) by (apply Hp; right; exists inner; split; [exact Hi|lia]). discriminate.
  - split; [discriminate|]. intros (_ & Hne & Hl). exfalso. destruct (proj1 Hp eq_refl) as [->|(inner & Hi & Hlt)]; [congruence|]. specialize (Hl inner Hi). lia.
  - exfalso. revert E. unfold tq_found. destruct orig as [|c d]; [discriminate|]. destruct (bracketed_cases (c :: d)) as [(inner & E' & Hb)|(Hn & Hb)]; [discriminate| |]; rewrite Hb; cbn [bind]; [|discriminate].
    unfold go_slice_cap. change (0 <=? 11)%nat with true. cbn [andb]. destruct (_ <=? _)%nat; [|discriminate]. cbn [bind]. destruct (bytes_eqb _ _); cbn [negb]; [|discriminate].
    unfold go_from. destruct (_ <=? _)%nat; [|discriminate]. cbn [bind]. destruct (skipn 11 inner) as [|x data]; [discriminate|].
    destruct (tq_loop_total (length (x :: data)) tq_zero (x :: data) (Nat.le_refl _)) as [o Ho]. rewrite Ho. cbn [bind]. destruct o as [t|]; [destruct (tq_is_valid t)|]; discriminate.
Qed.
Print Assumptions C96_invalid_unmarshal_timequality_iff.

(** TestInvalidMarshal on a time quality, whatever the Foundable *)
Theorem C96_invalid_marshal_timequality_iff : forall uni deq spare t err f,
  passes uni deq spare (TInvalidMarshal (Some (SDTimeQuality t)) err) f <->
  (~ tq_consistent t /\ err = Some EInvalidTimeQuality) \/ (tq_consistent t /\ (forall a, syncAccuracy t = Some a -> (0 < a)%Z) /\ err = None).
Proof.
  intros uni deq spare t err f. unfold passes, do_test.
  assert (Hd : tq_consistent t \/ ~ tq_consistent t) by (rewrite <- tq_valid_iff; destruct (tq_is_valid t); [left; reflexivity|right; discriminate]).
  destruct Hd as [Hc|Hc].
  - assert (Ha : (forall a, syncAccuracy t = Some a -> (0 < a)%Z) \/ exists a, syncAccuracy t = Some a /\ (a <= 0)%Z).
    { destruct (syncAccuracy t) as [a|]; [|left; discriminate]. destruct (Z.ltb_spec 0 a); [left; intros b Hb; injection Hb as <-; assumption|right; exists a; split; [reflexivity|assumption]]. }
    destruct Ha as [Ha|Ha].
    + rewrite (C66_encoding uni t Ha Hc). cbn [bind same_error]. destruct err as [e|]; cbn [negb].
      * split; [discriminate|]. intros [[H _]|(_ & _ & H)]; [destruct (H Hc)|discriminate].
      * split; [intros _; right; auto|reflexivity].
    + assert (Hm : sd_marshal uni (SDTimeQuality t) = Panic) by (apply C67_encoding_panics_iff; auto). rewrite Hm. cbn [bind]. split; [discriminate|].
      intros [[H _]|(_ & H & _)]; [destruct (H Hc)|]. destruct Ha as (a & Ea & Hl). specialize (H a Ea). lia.
  - assert (Hm : sd_marshal uni (SDTimeQuality t) = Val (inl EInvalidTimeQuality)).
    { cbn [sd_marshal]. unfold tq_marshal. destruct (tq_is_valid t) eqn:E; [destruct (Hc (proj1 (tq_valid_iff t) E))|reflexivity]. }
    rewrite Hm. cbn [bind same_error]. destruct err as [[]|]; cbn [negb]; try (split; [discriminate|]; intros [[_ H]|(H & _)]; [discriminate|destruct (Hc H)]).
    split; [intros _; left; auto|reflexivity].
Qed.
Print Assumptions C96_invalid_marshal_timequality_iff.

(** ** generic structured data cannot be tested *)
(** TestValid never passes for the identifier of a generic structured data: what is found has no value,
    which cannot be encoded. *)
Theorem C96_generic_never_valid : forall uni deq spare orig obj enc id, ~ passes uni deq spare (TValid orig obj enc) (OfId (IdGeneric id)).
Proof.
  intros uni deq spare orig obj enc id H. apply valid_inv in H as (o & x & Hf & _ & _ & Hm). cbn [foundable_found sdid_found] in Hf. unfold generic_found in Hf.
  destruct (bracketed orig) as [[inner|]| |]; cbn [bind] in Hf; try discriminate. destruct (go_slice_cap inner (RBR :: spare) 0 (length id)) as [h| |]; cbn [bind] in Hf; try discriminate.
  destruct (bytes_eqb h id); cbn [negb] in Hf; [|discriminate]. destruct (go_from inner (length id)) as [[|c d]| |]; cbn [bind] in Hf; try discriminate. injection Hf as <-. discriminate.
Qed.
Print Assumptions C96_generic_never_valid.
(** Which failure: when the identifier finds an element, the objects differ unless the expected one is the
    valueless element of the same identifier (and DeepEqual says so); then the encoding fails. *)
Theorem C96_generic_outcome : forall uni deq spare orig obj enc f i, foundable_found f orig spare = Val (Some (SDGenericNil i)) ->
  let same := obj = Some (SDGenericNil i) /\ deq (SDGenericNil i) (SDGenericNil i) = true in
  (do_test uni deq spare (TValid orig obj enc) f = Val (Some ObjectsDiffer) <-> ~ same) /\
  (do_test uni deq spare (TValid orig obj enc) f = Val (Some (MarshalFails EValueError)) <-> same).
Proof.
  intros uni deq spare orig obj enc f i Hf. cbv zeta. cbn [do_test]. rewrite Hf. cbn [bind].
  assert (K : match obj with None => false | Some x => deep_equal deq (SDGenericNil i) x end = true <-> obj = Some (SDGenericNil i) /\ deq (SDGenericNil i) (SDGenericNil i) = true).
  { destruct obj as [x|]; [|split; [discriminate|intros [E _]; discriminate E]]. destruct x; cbn [deep_equal]; try (split; [discriminate|intros [E _]; discriminate E]).
    rewrite andb_true_iff, bytes_eqb_eq. split; [intros [<- H]; split; [reflexivity|exact H]|]. intros [E H]. injection E as ->. split; [reflexivity|exact H]. }
  destruct (match obj with None => false | Some x => deep_equal deq (SDGenericNil i) x end).
  - assert (S := proj1 K eq_refl). cbn. split; split; intros H; try tauto; discriminate H.
  - cbn. assert (S : ~ (obj = Some (SDGenericNil i) /\ deq (SDGenericNil i) (SDGenericNil i) = true)) by (intros H; apply K in H; discriminate H). split; split; intros H; try tauto; try reflexivity; try discriminate H.
Qed.
Print Assumptions C96_generic_outcome.

(** TestGeneric, whose only check is the encoding: passes exactly when the object encodes to the text. *)
Theorem C96_test_generic_iff : forall uni deq spare orig obj f,
  passes uni deq spare (TGeneric orig obj) f <-> exists x, obj = Some x /\ sd_marshal uni x = Val (inr orig).
Proof.
  intros uni deq spare orig obj f. unfold passes, do_test. destruct obj as [x|]; [|split; [discriminate|intros (x & E & _); discriminate E]].
  destruct (sd_marshal uni x) as [[e|d]| |] eqn:E; cbn [bind]; try (split; [discriminate|intros (y & Ey & H); injection Ey as <-; congruence]).
  destruct (bytes_eqb d orig) eqn:Eb; cbn [negb].
  - apply bytes_eqb_eq in Eb. subst d. split; [eauto|reflexivity].
  - split; [discriminate|]. intros (y & Ey & H). injection Ey as <-. rewrite E in H. injection H as ->. rewrite (proj2 (bytes_eqb_eq _ _) eq_refl) in Eb. discriminate Eb.
Qed.
Print Assumptions C96_test_generic_iff.
(** ... for a time quality, when it is valid with a positive accuracy and the text is the canonical one *)
Theorem C96_test_generic_timequality_iff : forall uni deq spare orig t f,
  passes uni deq spare (TGeneric orig (Some (SDTimeQuality t))) f <->
  tq_consistent t /\ (forall a, syncAccuracy t = Some a -> (0 < a)%Z) /\ orig = tq_text t.
Proof.
  intros uni deq spare orig t f. rewrite C96_test_generic_iff, <- tq_marshal_inv. split; [intros (x & E & H); injection E as <-; exact H|eauto].
Qed.
Print Assumptions C96_test_generic_timequality_iff.

(** a StructuredData somewhere in a value has a Marshal5424 that panics with the error [e] *)
Inductive raises (e : sderr) : gval -> Prop :=
| RS_here : forall em ni, raises e (VMar em false ni (MPanicErr e))
| RS_ptr : forall v, raises e v -> raises e (VPtr (Some v))
| RS_slice : forall ei v vs, In v vs -> raises e v -> raises e (VSlice ei (Some vs))
| RS_map : forall ks ei es k v, In (k, v) es -> raises e v -> raises e (VMap ks ei (Some es))
| RS_struct : forall fs sf v, In (sf, v) fs -> raises e v -> raises e (VStruct fs).

(** an error made by the encoder: a pointer to a new value; or an error some StructuredData panicked with *)
Definition fresh (P : sderr -> Prop) (r : eres) : Prop := match r with Val (inl e) => (e <> EInvalidTimeQuality /\ forall n, e <> EForeign n) \/ P e | _ => True end.
Lemma fresh_new P e : e <> EInvalidTimeQuality -> (forall n, e <> EForeign n) -> fresh P (efail e).
Proof. left. auto. Qed.
Lemma fresh_impl (P Q : sderr -> Prop) r : (forall e, P e -> Q e) -> fresh P r -> fresh Q r.
Proof. intros H. unfold fresh. destruct r as [[e|b]| |]; auto. intros [?|?]; auto. Qed.
Lemma fresh_seq P a b : fresh P a -> fresh P b -> fresh P (eseq a b).
Proof. unfold eseq. destruct a as [[?|?]| |]; auto. destruct b as [[?|?]| |]; cbn; auto. Qed.
Lemma fresh_value : forall v ro prefix, fresh (fun e => raises e v) (enc_value v ro prefix).
Proof.
  fix IH 1. intros v ro prefix. destruct v; cbn [enc_value]; try exact I; try (apply fresh_new; [discriminate|intros n; discriminate]).
  - destruct ro; exact I.
  - destruct target as [t|]; [|exact I]. eapply fresh_impl; [|apply (IH t)]. intros e H. constructor. exact H.
  - destruct elems as [es|]; [|exact I]. destruct elem_iface; [exact I|].
    assert (K : fresh (fun e => exists v, In v es /\ raises e v) ((fix list_loop (es : list gval) : eres := match es with [] => emit [] | x :: r => eseq (enc_value x ro prefix) (list_loop r) end) es)).
    { induction es as [|x es IHes]; [exact I|]. apply fresh_seq.
      - eapply fresh_impl; [|apply (IH x)]. intros e H. exists x. split; [left; reflexivity|exact H].
      - eapply fresh_impl; [|exact IHes]. intros e (v & Hv & H). exists v. split; [right; exact Hv|exact H]. }
    eapply fresh_impl; [|exact K]. intros e (v & Hv & H). exact (RS_slice e _ v es Hv H).
  - destruct nil_ptr; [exact I|]. destruct ro; [exact I|]. destruct nil_iface; [exact I|].
    destruct result as [[e|b]|e|]; [apply fresh_new; [discriminate|intros n; discriminate]|exact I|right; constructor|exact I].
Qed.
Lemma fresh_entries l : fresh (fun e => exists k v, In (k, v) l /\ raises e v) (enc_entries l).
Proof.
  induction l as [|[k v] l IH]; [exact I|]. cbn [enc_entries]. apply fresh_seq.
  - eapply fresh_impl; [|apply fresh_value]. intros e H. exists k, v. split; [left; reflexivity|exact H].
  - eapply fresh_impl; [|exact IH]. intros e (k' & v' & Hi & H). exists k', v'. split; [right; exact Hi|exact H].
Qed.
Lemma fresh_fields uni l : fresh (fun e => exists sf v, In (sf, v) l /\ raises e v) (enc_fields uni l).
Proof.
  induction l as [|[sf f] l IH]; [exact I|]. cbn [enc_fields]. destruct (get_name uni sf) as [name mandatory].
  assert (IH' : fresh (fun e => exists sf' v, In (sf', v) ((sf, f) :: l) /\ raises e v) (enc_fields uni l)).
  { eapply fresh_impl; [|exact IH]. intros e (k' & v' & Hi & H). exists k', v'. split; [right; exact Hi|exact H]. }
  destruct (_ || _); [destruct mandatory; [exact I|exact IH']|].
  apply fresh_seq; [|exact IH']. eapply fresh_impl; [|apply fresh_value]. intros e H. exists sf, f. split; [left; reflexivity|exact H].
Qed.
Lemma fresh_root uni header pm v : fresh (fun e => raises e v) (enc_root uni header pm v).
Proof.
  destruct v; cbn [enc_root]; try (destruct pm; [exact I|apply fresh_new; [discriminate|intros n; discriminate]]); try (apply fresh_new; [discriminate|intros n; discriminate]).
  - unfold enc_map. destruct key_is_string; cbn [negb]; [|apply fresh_new; [discriminate|intros n; discriminate]]. destruct elem_iface; [exact I|]. destruct entries as [es|]; [|exact I].
    apply fresh_seq; [exact I|]. apply fresh_seq; [|exact I]. eapply fresh_impl; [|apply fresh_entries]. intros e (k & v & Hi & H).
    eapply RS_map; [|exact H]. eapply Permutation.Permutation_in; [apply sort_perm|exact Hi].
  - unfold enc_struct. apply fresh_seq; [exact I|]. apply fresh_seq; [|exact I]. eapply fresh_impl; [|apply fresh_fields]. intros e (k & v & Hi & H). eapply RS_struct; eauto.
  - destruct nil_ptr; [exact I|]. destruct nil_iface; [exact I|].
    destruct result as [[e|b]|e|]; [apply fresh_new; [discriminate|intros n; discriminate]|exact I|right; constructor|exact I].
Qed.

(** TestInvalidMarshal on a generic structured data passes when no error is expected and there is none;
    otherwise only with an error that a StructuredData inside the value panicked with: the errors the
    encoder makes are not equal to any the caller can name. *)
Theorem C96_generic_invalid_marshal_iff : forall uni deq spare id pm v err f,
  passes uni deq spare (TInvalidMarshal (Some (SDGeneric id pm v)) err) f <->
  (err = None /\ exists enc, sd_marshal uni (SDGeneric id pm v) = Val (inr enc)) \/
  (exists e, err = Some e /\ sd_marshal uni (SDGeneric id pm v) = Val (inl e) /\ raises e v /\ (e = EInvalidTimeQuality \/ exists n, e = EForeign n)).
Proof.
  intros uni deq spare id pm v err f. unfold passes, do_test. cbn [sd_marshal]. pose proof (fresh_root uni (Some id) pm v) as Hf.
  destruct (enc_root uni (Some id) pm v) as [[e|b]| |]; cbn [bind]; try (split; [discriminate|intros [[_ [enc H]]|(e & _ & H & _)]; discriminate]).
  - destruct (same_error (Some e) err) eqn:Es; cbn [negb].
    + split; [|reflexivity]. intros _. right.
      assert (K : err = Some e /\ (e = EInvalidTimeQuality \/ exists n, e = EForeign n)).
      { destruct e, err as [[]|]; try discriminate Es; [auto|]. cbn in Es. apply N.eqb_eq in Es. subst. eauto. }
      destruct K as [-> K]. exists e. split; [reflexivity|]. split; [reflexivity|]. split; [|exact K].
      destruct Hf as [[H1 H2]|Hf]; [|exact Hf]. destruct K as [K|[n K]]; [destruct (H1 K)|destruct (H2 n K)].
    + split; [discriminate|]. intros [[_ [enc H]]|(e' & -> & H & _ & K)]; [discriminate|]. injection H as ->.
      destruct K as [-> | [n ->]]; cbn in Es; [discriminate|]. rewrite N.eqb_refl in Es. discriminate.
  - destruct err; cbn; [split; [discriminate|intros [[H _]|(e & _ & H & _)]; discriminate]|]. split; [intros _; left; eauto|reflexivity].
Qed.
Print Assumptions C96_generic_invalid_marshal_iff.

(** ** the registry *)
(** TestValid against the registry, where no registered identifier accepts the text: exactly the unknown
    structured data with their canonical encoding *)
Theorem C96_valid_unknown_iff : forall uni deq spare orig obj enc order, (forall s, In s order -> sdid_found s orig spare = Val None) ->
  passes uni deq spare (TValid orig obj enc) (OfRegistry order) <->
  exists name ps, obj = Some (SDUnknown name ps) /\ unknown_found orig = Val (Some (SDUnknown name ps)) /\
    enc = bs "[" ++ name ++ concat (map (fun x => param_text (1%nat, fst x, snd x)) ps) ++ bs "]".
Proof.
  intros uni deq spare orig obj enc order Ho. rewrite valid_inv. cbn [foundable_found].
  assert (Hr : registry_found order orig spare = unknown_found orig).
  { clear -Ho. induction order as [|s order IH]; [reflexivity|]. cbn [registry_found]. rewrite (Ho s (or_introl eq_refl)). cbn [bind]. apply IH. intros x Hx. apply Ho. right. exact Hx. }
  rewrite Hr. split.
  - intros (o & x & Hf & -> & Hd & Hm).
    assert (Hu : exists name ps, o = SDUnknown name ps).
    { unfold unknown_found in Hf. destruct (bracketed orig) as [[inner|]| |]; cbn [bind] in Hf; try discriminate. destruct (next_header inner) as [[h d]|]; [|discriminate].
      destruct (params_loop _ d) as [[ps|]| |]; cbn [bind option_map] in Hf; try discriminate. injection Hf as <-. eauto. }
    destruct Hu as (name & ps & ->). destruct x; try discriminate. cbn [deep_equal] in Hd. apply Bool.andb_true_iff in Hd as [H1 H2]. apply bytes_eqb_eq in H1. apply pairs_eqb_eq in H2. subst name0 params.
    exists name, ps. split; [reflexivity|]. split; [exact Hf|]. destruct (C61_unknown_stable _ _ _ Hf) as [(sp & _ & _ & _ & Hs) _]. rewrite (Hs uni) in Hm. congruence.
  - intros (name & ps & -> & Hf & ->). exists (SDUnknown name ps), (SDUnknown name ps). split; [exact Hf|]. split; [reflexivity|]. split; [cbn; rewrite (proj2 (bytes_eqb_eq _ _) eq_refl), (proj2 (pairs_eqb_eq _ _) eq_refl); reflexivity|].
    destruct (C61_unknown_stable _ _ _ Hf) as [(sp & _ & _ & _ & Hs) _]. apply Hs.
Qed.
Print Assumptions C96_valid_unknown_iff.

(** a test on an empty text panics for every Foundable of the package *)
Theorem C96_empty_text_panics : forall uni deq spare obj enc f,
  match f with OfId (IdForeign _ _) => False | OfRegistry order => Forall (fun s => match s with IdForeign _ _ => False | _ => True end) order | _ => True end ->
  do_test uni deq spare (TValid [] obj enc) f = Panic /\ do_test uni deq spare (TInvalidUnmarshal []) f = Panic.
Proof.
  intros uni deq spare obj enc f Hf. assert (H : foundable_found f [] spare = Panic); [|unfold do_test; rewrite H; auto].
  destruct f as [[| |]|order]; try reflexivity; [contradiction|]. destruct order as [|s order]; [reflexivity|]. inversion Hf; subst. destruct s; try reflexivity. contradiction.
Qed.
Print Assumptions C96_empty_text_panics.

Example C96_nonvacuous :
  let t := {| tzKnown := true; isSynced := true; syncAccuracy := Some 5%Z |} in
  passes (fun _ => false) (fun _ _ => false) [] (TValid (bs "[timeQuality  isSynced=""1"" tzKnown=""1"" syncAccuracy=""5""]") (Some (SDTimeQuality t)) (bs "[timeQuality tzKnown=""1"" isSynced=""1"" syncAccuracy=""5""]")) (OfId IdTimeQuality) /\
  passes (fun _ => false) (fun _ _ => false) [] (TInvalidUnmarshal (bs "[timeQuality isSynced=""1""]")) (OfId IdTimeQuality) /\
  passes (fun _ => false) (fun _ _ => false) [] (TInvalidMarshal (Some (SDTimeQuality {| tzKnown := false; isSynced := true; syncAccuracy := None |})) (Some EInvalidTimeQuality)) (OfId IdTimeQuality) /\
  passes (fun _ => false) (fun _ _ => false) (bs "       ") (TValid (bs "[x@1   a=""1""]") (Some (SDUnknown (bs "x@1") [(bs "a", bs "1")])) (bs "[x@1 a=""1""]")) (OfRegistry [IdTimeQuality]) /\
  passes (fun _ => false) (fun _ _ => false) [] (TGeneric (bs "[timeQuality tzKnown=""1"" isSynced=""1"" syncAccuracy=""5""]") (Some (SDTimeQuality t))) (OfId IdTimeQuality) /\
  do_test (fun _ => false) (fun _ _ => false) [] (TGeneric (bs "[timeQuality tzKnown=""1"" isSynced=""1""]") (Some (SDTimeQuality t))) (OfId IdTimeQuality) = Val (Some TextsDiffer) /\
  do_test (fun _ => false) (fun _ _ => true) [] (TValid (bs "[y@2]") (Some (SDGenericNil (bs "y@2"))) (bs "[y@2]")) (OfId (IdGeneric (bs "y@2"))) = Val (Some (MarshalFails EValueError)).
Proof. repeat split; vm_compute; reflexivity. Qed.
Print Assumptions C96_nonvacuous.
