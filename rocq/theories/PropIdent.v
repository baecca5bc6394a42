(** PropIdent.v -- property C105: the identifier a structured data element reports, and the one it
    carries on the wire. *)
From Verif Require Import Base BaseFacts Spec MPriority MHelpers MText MTime MSData MMessage MTransport MParse MIdent.
From Verif Require Import LPriority LText LAtoi LTime LSData PropSData PropSData2 PropSData3 MAux PropAux.
From Coq Require Import Permutation.

(** An element (its bytes) carries the identifier [id]: the bracket, the identifier, then a space or
    the closing bracket *)
Definition carries_id (id b : bytes) : Prop := exists c rest, b = LBR :: id ++ c :: rest /\ (c = SP \/ c = RBR).

(** ** what the encoders write *)
(** A TimeQuality, and a struct given to GenericSD, carry exactly the text of their identifier. *)
Theorem C105_encoded_timequality : forall uni t b, sd_marshal uni (SDTimeQuality t) = Val (inr b) ->
  carries_id (ident_text NTimeQuality) b.
Proof.
  intros uni t b H. cbn [sd_marshal] in H. unfold tq_marshal in H. destruct (negb (tq_is_valid t)); [discriminate|].
  unfold carries_id. cbn [ident_text].
  destruct (syncAccuracy t) as [a|].
  - destruct (a <=? 0)%Z; [discriminate|]. injection H as <-.
    destruct (tzKnown t), (isSynced t); cbn; eexists _, _; (split; [reflexivity|left; reflexivity]).
  - injection H as <-. destruct (tzKnown t), (isSynced t); cbn; eexists _, _; (split; [reflexivity|tauto]).
Qed.
Print Assumptions C105_encoded_timequality.


Theorem C105_encoded_generic : forall uni id iana pen pm v b, sd_marshal uni (SDGeneric id pm v) = Val (inr b) ->
  (exists fs, v = VStruct fs) \/ (exists es, v = VMap true false (Some es) /\ Forall (fun p => fst p <> []) es) ->
  exists i, sd_ident iana pen (SDGeneric id pm v) = Some i /\ carries_id (ident_text i) b.
Proof.
  intros uni id iana pen pm v b H Hv. exists (NGeneric id iana pen). split; [reflexivity|]. cbn [ident_text ident_string].
  assert (HH : forall x, (forall b, x = Val (inr b) -> spaced b) -> eseq (emit (header_write (Some id))) (eseq x (emit [RBR])) = Val (inr b) -> carries_id id b).
  { intros x Hx E. unfold eseq, emit in E. destruct x as [[e|y]| |]; try discriminate E.
    assert (Eb : b = LBR :: id ++ y ++ [RBR]) by (cbn [header_write app] in E; congruence). rewrite Eb.
    destruct (Hx y eq_refl) as [->|[r ->]]; unfold carries_id; cbn [app]; eexists _, _; (split; [reflexivity|tauto]). }
  cbn [sd_marshal] in H. destruct Hv as [[fs ->]|(es & -> & Hes)]; cbn [enc_root] in H.
  - unfold enc_struct in H. exact (HH _ (fields_spaced uni fs) H).
  - unfold enc_map in H. cbn [negb] in H. refine (HH _ (entries_spaced (sort_entries es) _) H).
    rewrite Forall_forall in *. intros p Hp. apply Hes. apply (Permutation_in _ (sort_perm es)). exact Hp.
Qed.
Print Assumptions C105_encoded_generic.

(** ** what the decoders report *)
Lemma generic_found_inv id d spare s : generic_found id d spare = Val (Some s) -> d = LBR :: id ++ [RBR] /\ s = SDGenericNil id.
Proof.
  intros H. unfold generic_found in H. destruct d as [|c d]; [discriminate|].
  destruct (bracketed_cases (c :: d)) as [(inner & E & Hb)|(_ & Hb)]; [discriminate| |rewrite Hb in H; discriminate].
  rewrite Hb in H. cbn [bind] in H. unfold go_slice_cap in H. change (0 <=? length id)%nat with true in H. cbn [andb] in H.
  destruct (length id <=? length inner + length (RBR :: spare))%nat; [|discriminate]. cbn [bind] in H. rewrite Nat.sub_0_r in H. cbn [skipn] in H.
  destruct (bytes_eqb (firstn (length id) (inner ++ RBR :: spare)) id) eqn:Eh; cbn [negb] in H; [|discriminate]. apply bytes_eqb_eq in Eh.
  unfold go_from in H. destruct (Nat.leb_spec (length id) (length inner)) as [Hl|Hl]; [|discriminate]. cbn [bind] in H.
  destruct (skipn (length id) inner) as [|x r] eqn:Ek; [|discriminate]. injection H as <-. split; [|reflexivity].
  assert (Hlen : length inner = length id) by (pose proof (f_equal (@length N) Ek) as Hk; rewrite skipn_length in Hk; cbn [length] in Hk; lia).
  rewrite firstn_app, Hlen, Nat.sub_diag, <- Hlen, firstn_all in Eh. cbn [firstn] in Eh. rewrite app_nil_r in Eh. subst inner. exact E.
Qed.

(** An element decoded through an identifier reports that identifier, and carries its text on the wire;
    except the ones decoded as unknown, which carry their own. *)
Theorem C105_decoded : forall i d spare s, ident_found i d spare = Val (Some s) ->
  sd_ident (ident_is_iana i) (ident_pen i) s = Some i /\
  (i <> NUnknown -> carries_id (ident_text i) d) /\
  (i = NUnknown -> exists name ps, s = SDUnknown name ps /\ carries_id name d).
Proof.
  intros i d spare s H. destruct i as [| |name iana pen]; cbn [ident_found] in H.
  - assert (Hs : exists name ps, s = SDUnknown name ps).
    { unfold unknown_found in H. destruct (bracketed d) as [[inner|]| |]; try discriminate H. cbn [bind] in H.
      destruct (next_header inner) as [[h r]|]; [|discriminate H]. destruct (params_loop (length r) r) as [[ps|]| |]; try discriminate H. cbn in H. injection H as <-. eauto. }
    destruct Hs as (name & ps & ->). split; [reflexivity|]. split; [congruence|]. intros _. exists name, ps. split; [reflexivity|].
    apply unknown_found_inv in H as (l & Hd & _ & (_ & _ & _ & Hl & _)). rewrite Hd. unfold carries_id.
    destruct l as [|[[n k] v] l]; [exists RBR, []; split; [reflexivity|tauto]|].
    inversion Hl as [|? ? Hn _]; subst. cbn [fst] in Hn. destruct n as [|n]; [lia|]. eexists SP, _. split; [|left; reflexivity]. unfold text_of. cbn [map concat]. unfold param_text. cbn [repeat app]. reflexivity.
  - destruct (C66_decoded_valid d spare s H) as (t & -> & _). split; [reflexivity|]. split; [|discriminate]. intros _.
    apply C66_decodes_iff in H as (l & Hd & Hl & _). rewrite Hd. unfold carries_id. cbn [ident_text].
    destruct l as [|[[n k] v] l]; [exists RBR, []; split; [reflexivity|tauto]|].
    inversion Hl as [|? ? Hn _]; subst. cbn [fst] in Hn. destruct n as [|n]; [lia|]. eexists SP, _. split; [|left; reflexivity].
    cbn [map concat]. unfold param_text. cbn [repeat app]. reflexivity.
  - apply generic_found_inv in H as [-> ->]. split; [reflexivity|]. split; [|discriminate]. intros _. exists RBR, []. split; [reflexivity|tauto].
Qed.
Print Assumptions C105_decoded.

(** So the identifier an unknown element reports is not its own: whatever the element, it is the same. *)
Theorem C105_unknown_refuted : exists d s i, ident_found NUnknown d [] = Val (Some s) /\ sd_ident false 0 s = Some i /\
  carries_id (bs "origin") d /\ ident_text i = bs "unknown@32473" /\ ident_text i <> bs "origin" /\ In SP (ident_string i).
Proof.
  exists (bs "[origin ip=""10.0.0.1""]"). eexists _, _. split; [vm_compute; reflexivity|]. split; [reflexivity|].
  split; [exists SP, (bs "ip=""10.0.0.1""]"); split; [reflexivity|tauto]|]. split; [reflexivity|]. split; [discriminate|]. vm_compute. tauto.
Qed.
Print Assumptions C105_unknown_refuted.

(** Default is what the shortest element decodes to (but not for the unknown decoder) *)
Theorem C105_default : forall i spare, i <> NUnknown ->
  ident_found i (LBR :: ident_text i ++ [RBR]) spare = Val (Some (ident_default i)) /\
  sd_ident (ident_is_iana i) (ident_pen i) (ident_default i) = Some i.
Proof.
  intros [| |name iana pen] spare Hi; [congruence| |]; (split; [|reflexivity]); cbn [ident_found ident_text ident_string ident_default].
  - apply C66_decodes_iff. exists []. split; [reflexivity|]. split; [constructor|]. split; [constructor|]. split; [split; [|split]; reflexivity|]. vm_compute. intuition (try discriminate).
  - unfold generic_found. rewrite bracketed_ok. cbn [bind]. unfold go_slice_cap. change (0 <=? length name)%nat with true. cbn [andb].
    destruct (Nat.leb_spec (length name) (length name + length (RBR :: spare))) as [_|]; [|lia]. cbn [bind]. rewrite Nat.sub_0_r. cbn [skipn].
    rewrite firstn_app_exact. rewrite (proj2 (bytes_eqb_eq name name) eq_refl). cbn [negb]. unfold go_from. rewrite Nat.leb_refl. cbn [bind]. rewrite skipn_all. reflexivity.
Qed.
Print Assumptions C105_default.

(** ** names and the registry *)
(** The two identifiers of the packages are IANA exactly when they have no enterprise number, that is
    when their text has no at sign. *)
Theorem C105_iana : forall i, (forall name iana pen, i <> NGeneric name iana pen) ->
  (ident_is_iana i = true <-> ident_pen i = 0%N) /\ (ident_is_iana i = true <-> ~ In 64%N (ident_text i)).
Proof.
  intros [| |name iana pen] H; [| |destruct (H name iana pen eq_refl)]; cbn; (split; split); try discriminate; try reflexivity; intros X.
  - exfalso. apply X. tauto.
  - intros Y. repeat (destruct Y as [Y|Y]; [discriminate Y|]). exact Y.
Qed.
Print Assumptions C105_iana.

(** A text with an enterprise number ends with an at sign and the number in decimal, and that number is
    the one reported (here 32473, that of the examples of RFC 5612). *)
Theorem C105_enterprise : forall i, (forall name iana pen, i <> NGeneric name iana pen) -> ident_is_iana i = false ->
  exists name, ident_text i = name ++ 64%N :: itoa (Z.of_N (ident_pen i)) /\ ~ In 64%N name /\ ident_pen i = 32473%N.
Proof.
  intros [| |name iana pen] H Hi; [|discriminate Hi|destruct (H name iana pen eq_refl)]. exists (bs "unknown"). split; [vm_compute; reflexivity|]. split; [|reflexivity].
  vm_compute. intuition discriminate.
Qed.
Print Assumptions C105_enterprise.

(** What GenericSD was given answers for itself, whatever it says. *)
Theorem C105_generic_identity : forall name iana pen, ident_string (NGeneric name iana pen) = name /\ ident_text (NGeneric name iana pen) = name /\
  ident_is_iana (NGeneric name iana pen) = iana /\ ident_pen (NGeneric name iana pen) = pen /\ exists s, ident_decoder (NGeneric name iana pen) = Some s /\ sdid_string s = name.
Proof. intros name iana pen. repeat (split; [reflexivity|]). eexists. split; reflexivity. Qed.
Print Assumptions C105_generic_identity.

(** Options are accepted and ignored. *)
Theorem C105_options : forall i o, ident_set_options i o = i /\ ident_options (ident_set_options i o) = [].
Proof. intros i o. split; reflexivity. Qed.
Print Assumptions C105_options.

(** Every identifier but that of unknown elements can be registered. *)
Theorem C105_registrable : forall i, ident_decoder i = None <-> i = NUnknown.
Proof. intros [| |name iana pen]; split; intros H; try reflexivity; discriminate H. Qed.
Print Assumptions C105_registrable.

(** A registered identifier is filed under its String, and looking an element up is asking its Found: an
    element that only this identifier recognises decodes to an element that reports it. *)
Theorem C105_registered : forall i s r, ident_decoder i = Some s -> reg_lookup r (ident_string i) = None ->
  reg_lookup (fst (register r s)) (ident_string i) = Some s /\
  forall order d spare x, In s order -> (forall s', In s' order -> s' = s \/ sdid_found s' d spare = Val None) -> ident_found i d spare = Val (Some x) ->
    registry_found order d spare = Val (Some x) /\ sd_ident (ident_is_iana i) (ident_pen i) x = Some i.
Proof.
  intros i s r Hi Hr. assert (Hk : sdid_string s = ident_string i /\ forall d spare, sdid_found s d spare = ident_found i d spare).
  { destruct i; cbn [ident_decoder] in Hi; try discriminate; injection Hi as <-; split; reflexivity. }
  destruct Hk as [Hk Hf]. split.
  - destruct (C69_register r s (ident_string i)) as [_ ->]. rewrite Hr, Hk, (proj2 (bytes_eqb_eq _ _) eq_refl). reflexivity.
  - intros order d spare x Hin Ho Hx. split; [|exact (proj1 (C105_decoded _ _ _ _ Hx))]. rewrite <- Hf in Hx.
    induction order as [|y order IH]; [destruct Hin|]. cbn [registry_found].
    destruct (Ho y (or_introl eq_refl)) as [->|Hy]; [rewrite Hx; reflexivity|]. destruct Hin as [->|Hin]; [congruence|].
    rewrite Hy. cbn [bind]. apply IH; [exact Hin|]. intros s' H. apply Ho. right. exact H.
Qed.
Print Assumptions C105_registered.

(** The registry files identifiers under String, which for TimeQuality is not the text on the wire: an
    identifier of GenericSD named timeQuality does not clash with it, both are registered, and what the
    element [timeQuality] decodes to then depends on the order in which Go visits the map; with one of
    the two orders it can no longer be encoded. *)
Theorem C105_registry_ambiguity : forall uni,
  exists r, r = register_group [] [IdTimeQuality; IdGeneric (bs "timeQuality")] /\
  let el := bs "[timeQuality]" in
  Permutation (map snd r) [IdTimeQuality; IdGeneric (bs "timeQuality")] /\
  (exists s, registry_found [IdTimeQuality; IdGeneric (bs "timeQuality")] el [] = Val (Some s) /\ sd_marshal uni s = Val (inr el)) /\
  (exists s e, registry_found [IdGeneric (bs "timeQuality"); IdTimeQuality] el [] = Val (Some s) /\ sd_marshal uni s = Val (inl e)).
Proof.
  intros uni. eexists. split; [reflexivity|]. cbv zeta. split; [|split].
  - vm_compute. apply perm_swap.
  - eexists. split; vm_compute; reflexivity.
  - eexists _, _. split; vm_compute; reflexivity.
Qed.
Print Assumptions C105_registry_ambiguity.

Example C105_nonvacuous :
  sd_marshal (fun _ => true) (SDGeneric (bs "x@1") false (VStruct [(fld "A" "", VBasic false (bs "1"))])) = Val (inr (bs "[x@1 A=""1""]")) /\
  (exists s, ident_found NTimeQuality (bs "[timeQuality  tzKnown=""1""]") [] = Val (Some s)) /\
  ident_found (NGeneric (bs "x@1") false 1) (bs "[x@1]") [] = Val (Some (SDGenericNil (bs "x@1"))).
Proof. split; [vm_compute; reflexivity|]. split; [eexists; vm_compute; reflexivity|vm_compute; reflexivity]. Qed.
