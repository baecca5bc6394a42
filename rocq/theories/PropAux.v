(** PropAux.v -- C89: MarshalSD, List.String and UnmarshalSD against the encoders they wrap. *)
From Verif Require Import Base BaseFacts Spec MPriority MHelpers MText MTime MSData MMessage MTransport MParse MAux.
From Verif Require Import LSData PropSData PropSData2.
From Coq Require Import Lia.

(** MarshalSD of a value with a String method is its GenericSD encoding; nothing tells an error from an
    empty encoding *)
Theorem C89_marshal_sd : forall uni id pm v out,
  marshal_sd uni (Some (Some id, pm, v)) = Val out <->
  sd_marshal uni (SDGeneric id pm v) = Val (inr out) \/ (out = [] /\ exists e, sd_marshal uni (SDGeneric id pm v) = Val (inl e)).
Proof.
  intros uni id pm v out. cbn [marshal_sd sd_marshal]. destruct (enc_root uni (Some id) pm v) as [[e|b]| |]; split.
  - intros H. injection H as <-. right. eauto.
  - intros [H|[-> _]]; [discriminate H|reflexivity].
  - intros H. left. congruence.
  - intros [H|[_ [e H]]]; [congruence|discriminate H].
  - discriminate.
  - intros [H|[_ [e H]]]; discriminate H.
  - discriminate.
  - intros [H|[_ [e H]]]; discriminate H.
Qed.
Print Assumptions C89_marshal_sd.

(** List.String is the encoding, and empty exactly when there is none or it is empty *)
Theorem C89_list_string : forall uni l out, list_string uni l = Val out <->
  (l = [] /\ out = bs "-") \/
  (l <> [] /\ exists es, Forall2 (fun s e => sd_marshal uni s = Val (inr e)) l es /\ out = concat es) \/
  (out = [] /\ exists pre s post e, l = pre ++ s :: post /\ Forall (fun x => exists b, sd_marshal uni x = Val (inr b)) pre /\ sd_marshal uni s = Val (inl e)).
Proof.
  intros uni l out. destruct (C70_list_encoding uni l) as (H0 & H1 & H2). unfold list_string. split.
  - destruct (list_marshal uni l) as [[e|b]| |] eqn:E; try discriminate; intros H; injection H as <-.
    + right. right. split; [reflexivity|]. destruct (proj1 (H2 e) eq_refl) as (pre & s & post & H). exists pre, s, post, e. exact H.
    + destruct l as [|s l]; [left; split; [reflexivity|]; congruence|]. right. left. split; [discriminate|]. apply (H1 ltac:(discriminate)). reflexivity.
  - intros [(-> & ->)|[(Hne & H)|(-> & pre & s & post & e & H)]].
    + reflexivity.
    + apply (H1 Hne) in H. rewrite H. reflexivity.
    + assert (E : list_marshal uni l = Val (inl e)) by (apply H2; eauto). rewrite E. reflexivity.
Qed.
Print Assumptions C89_list_string.

(** *** values without a String method *)
Definition spaced (b : bytes) : Prop := b = [] \/ exists r, b = SP :: r.
Lemma spaced_app a b : spaced a -> spaced b -> spaced (a ++ b).
Proof. intros [->|[r ->]] H; [exact H|right; eexists; reflexivity]. Qed.

Lemma enc_spaced_n n : forall v ro name out, (gval_size v <= n)%nat -> name <> [] -> enc_value v ro name = Val (inr out) -> spaced out.
Proof.
  induction n as [|n IH]; intros v ro name out Hn Hne H; [pose proof (size_pos v); lia|].
  assert (Hp : forall d, spaced (prefixed_write name d)).
  { intros d. right. unfold prefixed_write. destruct name; [congruence|]. eexists; reflexivity. }
  destruct v as [e pr|[t|]|ei [es|]|es|ks ei es|fs|nl| |e np ni r]; cbn [enc_value] in H; try discriminate H.
  - destruct ro; [discriminate H|]. unfold emit in H. assert (out = prefixed_write name pr) as -> by congruence. apply Hp.
  - apply (IH t ro name out); [cbn [gval_size] in Hn; lia|exact Hne|exact H].
  - left. unfold emit in H. congruence.
  - destruct ei; [discriminate H|]. fold (enc_list ro name) in H.
    assert (Hs : (sizes es <= n)%nat) by (cbn [gval_size] in Hn; unfold sizes; lia). clear Hn. revert out H.
    induction es as [|x es IHe]; intros out H.
    + left. unfold enc_list, emit in H. congruence.
    + assert (Hx : (gval_size x <= n)%nat /\ (sizes es <= n)%nat) by (cbn in Hs; fold (sizes es) in Hs; lia). destruct Hx as [Hx Hes].
      cbn [enc_list] in H. fold (enc_list ro name) in H. unfold eseq in H. destruct (enc_value x ro name) as [[?|a]| |] eqn:E1; try discriminate H.
      destruct (enc_list ro name es) as [[?|b]| |]; try discriminate H. assert (out = a ++ b) as -> by congruence. apply spaced_app; [exact (IH _ _ _ _ Hx Hne E1)|exact (IHe Hes _ eq_refl)].
  - left. unfold emit in H. congruence.
  - destruct np; [left; unfold emit in H; congruence|]. destruct ro; [discriminate H|]. destruct ni; [discriminate H|]. destruct r as [[er|b]|er|]; try discriminate H.
    unfold emit in H. assert (out = prefixed_write name b) as -> by congruence. apply Hp.
Qed.

Lemma fields_spaced uni fs : forall out, enc_fields uni fs = Val (inr out) -> spaced out.
Proof.
  induction fs as [|[sf v] fs IH]; intros out H; cbn [enc_fields] in H; [left; unfold emit in H; congruence|].
  destruct (get_name uni sf) as [name m]. destruct (is_empty_value v); cbn [orb] in H; [destruct m; [discriminate H|exact (IH _ H)]|].
  destruct name as [|c name]; cbn [length Nat.eqb] in H; [destruct m; [discriminate H|exact (IH _ H)]|].
  unfold eseq in H. destruct (enc_value v (negb (f_exported sf)) (c :: name)) as [[?|a]| |] eqn:E1; try discriminate H.
  destruct (enc_fields uni fs) as [[?|b]| |]; try discriminate H. assert (out = a ++ b) as -> by congruence.
  apply spaced_app; [|exact (IH _ eq_refl)]. apply (enc_spaced_n (gval_size v) v (negb (f_exported sf)) (c :: name)); [lia|discriminate|exact E1].
Qed.
Lemma entries_spaced es : Forall (fun p => fst p <> []) es -> forall out, enc_entries es = Val (inr out) -> spaced out.
Proof.
  induction 1 as [|[k v] es Hk Hes IH]; intros out H; cbn [enc_entries] in H; [left; unfold emit in H; congruence|].
  unfold eseq in H. destruct (enc_value v false k) as [[?|a]| |] eqn:E1; try discriminate H.
  destruct (enc_entries es) as [[?|b]| |]; try discriminate H. assert (out = a ++ b) as -> by congruence.
  apply spaced_app; [|exact (IH _ eq_refl)]. apply (enc_spaced_n (gval_size v) v false k); [lia|exact Hk|exact E1].
Qed.

Lemma spaced_not_element body : spaced body -> ~ sd_element (bs "[" ++ body ++ bs "]").
Proof.
  intros Hb (name & ps & E & Hne & Hn & Hps & Hf). destruct name as [|c name]; [congruence|]. apply app_inv_head in E. cbn [app] in E.
  assert (Hc : In c (c :: name)) by (left; reflexivity). apply Hn in Hc.
  destruct Hb as [->|[r ->]]; cbn [app] in E; assert (Ec : c = RBR \/ c = SP) by (injection E; intros; subst; auto); destruct Ec as [->| ->]; vm_compute in Hc; intuition (try discriminate).
Qed.

(** MarshalSD of a struct, or of a map without an empty key, whose type has no String method: never an
    element a receiver would accept, only "[", the parameters, "]" *)
Theorem C89_nameless : forall uni pm v out, marshal_sd uni (Some (None, pm, v)) = Val out ->
  ((exists fs, v = VStruct fs) \/ exists es, v = VMap true false (Some es) /\ Forall (fun p => fst p <> []) es) ->
  ~ sd_element out /\ (out = [] \/ exists body, out = bs "[" ++ body ++ bs "]").
Proof.
  intros uni pm v out H Hv.
  assert (HH : forall x, (forall b, x = Val (inr b) -> spaced b) ->
    (match eseq (emit (header_write None)) (eseq x (emit [RBR])) with Val (inr b) => Val b | Val (inl _) => Val [] | Panic => Panic | NoFuel => NoFuel end) = Val out ->
    ~ sd_element out /\ (out = [] \/ exists body, out = bs "[" ++ body ++ bs "]")).
  { intros x Hx E. unfold eseq, emit in E. destruct x as [[e|b]| |]; try discriminate E.
    - assert (out = []) as -> by congruence. split; [|left; reflexivity]. intros (name & ps & X & _). discriminate X.
    - assert (Eo : out = bs "[" ++ b ++ bs "]") by (cbn [app] in E; change (bs "[") with [LBR]; change (bs "]") with [RBR]; cbn [header_write app] in *; congruence). rewrite Eo.
      split; [|right; eauto]. apply spaced_not_element. apply Hx. reflexivity. }
  destruct Hv as [[fs ->]|(es & -> & Hes)]; cbn [marshal_sd enc_root] in H.
  - unfold enc_struct in H. apply (HH _ (fields_spaced uni fs) H).
  - unfold enc_map in H. cbn [negb] in H. refine (HH _ (entries_spaced (sort_entries es) _) H).
    rewrite Forall_forall in *. intros p Hp. apply Hes. apply (Permutation.Permutation_in _ (sort_perm es)). exact Hp.
Qed.
Print Assumptions C89_nameless.

(** UnmarshalSD: an error exactly when the argument is not a non-nil pointer; the data is never read *)
Theorem C89_unmarshal : forall (X : Type) data data' (v : target X),
  unmarshal_sd data v = unmarshal_sd data' v /\ snd (unmarshal_sd data v) = v /\ (fst (unmarshal_sd data v) = false <-> exists x, v = TPtr x).
Proof.
  intros X data data' v. split; [reflexivity|]. destruct v as [| |x|x]; (split; [reflexivity|]); cbn; split.
  1,3,7: discriminate. 1,2,5: intros [x' H]; discriminate H. - eauto. - reflexivity.
Qed.
Print Assumptions C89_unmarshal.

(** so decoding what MarshalSD wrote gives nothing back, without an error *)
Theorem C89_round_trip_refuted : exists v b,
  marshal_sd (fun _ => true) (Some (Some (bs "x@1"), false, v)) = Val b /\ b = bs "[x@1 A=""1""]" /\
  unmarshal_sd b (TPtr (VStruct [(fld "A" "", VBasic true [])])) = (false, TPtr (VStruct [(fld "A" "", VBasic true [])])).
Proof. exists (VStruct [(fld "A" "", VBasic false (bs "1"))]). eexists. split; [vm_compute; reflexivity|]. split; [vm_compute; reflexivity|reflexivity]. Qed.
Print Assumptions C89_round_trip_refuted.

Example C89_nonvacuous :
  marshal_sd (fun _ => true) (Some (None, false, VStruct [(fld "A" "", VBasic false (bs "1"))])) = Val (bs "[ A=""1""]") /\
  marshal_sd (fun _ => true) (Some (None, false, VMap true false (Some [([], VBasic false (bs "x@1")); (bs "A", VBasic false (bs "1"))]))) = Val (bs "[x@1 A=""1""]") /\
  marshal_sd (fun _ => true) (Some (Some (bs "x@1"), false, VStruct [(fld "A" "", VArray [VBasic false (bs "1")])])) = Val [] /\
  marshal_sd (fun _ => true) None = Val [] /\
  list_string (fun _ => true) [SDForeign (MRet (inl (EForeign 3)))] = Val [] /\ list_string (fun _ => true) [] = Val (bs "-").
Proof. repeat split; vm_compute; reflexivity. Qed.
