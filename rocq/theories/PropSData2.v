(** PropSData2.v -- structured data: totality of the encoder, time quality, decoders, registry,
    lists and struct tags (C65-C70, C72). *)
From Verif Require Import Base BaseFacts Spec MText MSData MMessage MTransport MParse LText LAtoi LSData LParse LRound PropMessage PropParse PropSData.
From Coq Require Import Permutation Sorted.

(** ** C70: lists *)
Lemma marshal_all_iff uni l : forall ts, marshal_all uni l = Val (inr ts) <-> Forall2 (fun s e => sd_marshal uni s = Val (inr e)) l ts.
Proof.
  induction l as [|s l IH]; intros ts.
  - cbn. split; [intros H; injection H as <-; constructor|intros H; inversion H; reflexivity].
  - cbn [marshal_all]. split.
    + destruct (sd_marshal uni s) as [[e|t]| |] eqn:Es; try discriminate.
      destruct (marshal_all uni l) as [[e|us]| |] eqn:El; try discriminate. intros H. injection H as <-.
      constructor; [exact Es|]. apply IH. reflexivity.
    + intros H. inversion H as [|? t ? us Hs Hl]; subst. rewrite Hs. apply IH in Hl. rewrite Hl. reflexivity.
Qed.

Lemma marshal_all_err uni l : forall e, marshal_all uni l = Val (inl e) <->
  exists pre s post, l = pre ++ s :: post /\ Forall (fun x => exists b, sd_marshal uni x = Val (inr b)) pre /\ sd_marshal uni s = Val (inl e).
Proof.
  induction l as [|s l IH]; intros e.
  - cbn. split; [discriminate|]. intros ([|? ?] & ? & ? & H & _); discriminate.
  - cbn [marshal_all]. split.
    + destruct (sd_marshal uni s) as [[e'|t]| |] eqn:Es; try discriminate.
      * intros H. injection H as <-. exists [], s, l. split; [reflexivity|]. split; [constructor|exact Es].
      * destruct (marshal_all uni l) as [[e'|us]| |] eqn:El; try discriminate. intros H. injection H as <-.
        destruct (proj1 (IH e') eq_refl) as (pre & x & post & -> & Hp & Hx). exists (s :: pre), x, post.
        split; [reflexivity|]. split; [constructor; [eauto|exact Hp]|exact Hx].
    + intros (pre & x & post & E & Hp & Hx). destruct pre as [|p pre].
      * cbn in E. injection E as <- <-. rewrite Hx. reflexivity.
      * cbn in E. injection E as <- ->. inversion Hp as [|? ? [b Hb] Hp']; subst. rewrite Hb.
        rewrite (proj2 (IH e)); [reflexivity|]. exists pre, x, post. auto.
Qed.

Theorem C70_list_encoding : forall uni (l : list sdval),
  list_marshal uni [] = Val (inr (bs "-")) /\
  (l <> [] -> forall out, list_marshal uni l = Val (inr out) <->
     exists es, Forall2 (fun s e => sd_marshal uni s = Val (inr e)) l es /\ out = concat es) /\
  (forall e, list_marshal uni l = Val (inl e) <->
     exists pre s post, l = pre ++ s :: post /\ Forall (fun x => exists b, sd_marshal uni x = Val (inr b)) pre /\ sd_marshal uni s = Val (inl e)).
Proof.
  intros uni l. split; [reflexivity|]. split.
  - intros Hne out. destruct l as [|s l]; [congruence|]. unfold list_marshal. split.
    + destruct (marshal_all uni (s :: l)) as [[e|ts]| |] eqn:E; try discriminate. unfold emit. intros H. injection H as <-.
      exists ts. split; [apply marshal_all_iff; exact E|reflexivity].
    + intros (es & H & ->). apply marshal_all_iff in H. rewrite H. reflexivity.
  - intros e. destruct l as [|s l].
    { split; [discriminate|]. intros ([|? ?] & ? & ? & H & _); discriminate. }
    rewrite <- marshal_all_err. unfold list_marshal. destruct (marshal_all uni (s :: l)) as [[e'|ts]| |]; unfold efail, emit; split; intros H; try discriminate; injection H as ->; reflexivity.
Qed.
Print Assumptions C70_list_encoding.

Example C70_nonvacuous :
  list_marshal (fun _ => true) [SDTimeQuality tq_zero; SDUnknown (bs "x@1") [(bs "k", bs "v")]] = Val (inr (bs "[timeQuality][x@1 k=""v""]")) /\
  list_marshal (fun _ => true) [SDTimeQuality tq_zero; SDForeign (MRet (inl (EForeign 3))); SDForeign (MRet (inl (EForeign 4)))] = Val (inl (EForeign 3)).
Proof. split; vm_compute; reflexivity. Qed.

(** ** C65: when encoding a Go value panics, and the shape of what it returns *)

(** values that are written without error; [ro]: reached through an unexported struct field *)
Inductive clean (ro : bool) : gval -> Prop :=
| CL_basic : forall e printed, ro = false -> clean ro (VBasic e printed)
| CL_nil_ptr : clean ro (VPtr None)
| CL_ptr : forall v, clean ro v -> clean ro (VPtr (Some v))
| CL_nil_slice : forall ei, clean ro (VSlice ei None)
| CL_slice : forall vs, Forall (clean ro) vs -> clean ro (VSlice false (Some vs))
| CL_nil_mar : forall e ni r, clean ro (VMar e true ni r)
| CL_mar : forall e b, ro = false -> clean ro (VMar e false false (MRet (inr b))).

(** values on which the encoder panics *)
Inductive crash (ro : bool) : gval -> Prop :=
| CR_iface : forall n, crash ro (VIface n)                                   (* an interface-typed value *)
| CR_iface_slice : forall vs, crash ro (VSlice true (Some vs))               (* a slice of interfaces *)
| CR_nil_iface : forall e r, crash ro (VMar e false true r)                  (* a nil StructuredData *)
| CR_mar_panics : forall e ni, crash ro (VMar e false ni MPanic)            (* its Marshal5424 panics, not with an error *)
| CR_hidden_basic : forall e p, ro = true -> crash ro (VBasic e p)           (* an unexported field *)
| CR_hidden_mar : forall e ni r, ro = true -> crash ro (VMar e false ni r)
| CR_ptr : forall v, crash ro v -> crash ro (VPtr (Some v))
| CR_slice : forall pre v post, Forall (clean ro) pre -> crash ro v -> crash ro (VSlice false (Some (pre ++ v :: post))).

Definition oks (r : eres) : Prop := exists out, r = Val (inr out).
Definition enc_list' (ro : bool) (prefix : bytes) : list gval -> eres := enc_list ro prefix.

(** lists: success iff all succeed, panic iff the first non-success panics *)
Lemma list_ok ro prefix es : oks (enc_list ro prefix es) <-> Forall (fun v => oks (enc_value v ro prefix)) es.
Proof.
  induction es as [|x es IH].
  - cbn. split; [constructor|intros _; exists []; reflexivity].
  - cbn [enc_list]. fold (enc_list ro prefix). unfold oks, eseq in *. split.
    + intros [out H]. destruct (enc_value x ro prefix) as [[e|t]| |] eqn:Ex; try discriminate.
      destruct (enc_list ro prefix es) as [[e|u]| |] eqn:El; try discriminate. constructor; [eauto|]. apply IH. eauto.
    + intros H. inversion H as [|? ? [t Ht] Hes]; subst. apply IH in Hes as [u Hu]. rewrite Ht, Hu. eauto.
Qed.
Lemma list_panic ro prefix es : enc_list ro prefix es = Panic <->
  exists pre v post, es = pre ++ v :: post /\ Forall (fun v => oks (enc_value v ro prefix)) pre /\ enc_value v ro prefix = Panic.
Proof.
  induction es as [|x es IH].
  - cbn. split; [discriminate|]. intros ([|? ?] & ? & ? & H & _); discriminate.
  - cbn [enc_list]. fold (enc_list ro prefix). unfold eseq. split.
    + destruct (enc_value x ro prefix) as [[e|t]| |] eqn:Ex; try discriminate.
      * destruct (enc_list ro prefix es) as [[e|u]| |] eqn:El; try discriminate. intros _.
        destruct (proj1 IH eq_refl) as (pre & v & post & -> & Hp & Hv). exists (x :: pre), v, post. split; [reflexivity|]. split; [|exact Hv]. constructor; [exists t; exact Ex|exact Hp].
      * intros _. exists [], x, es. split; [reflexivity|]. split; [constructor|exact Ex].
    + intros (pre & v & post & E & Hp & Hv). destruct pre as [|p pre]; cbn in E.
      * injection E as -> ->. rewrite Hv. reflexivity.
      * injection E as <- ->. inversion Hp as [|? ? [t Ht] Hp']; subst. rewrite Ht. rewrite (proj2 IH); [reflexivity|]. exists pre, v, post. auto.
Qed.

Lemma clean_crash_n n : forall v ro prefix, (gval_size v <= n)%nat ->
  (oks (enc_value v ro prefix) <-> clean ro v) /\ (enc_value v ro prefix = Panic <-> crash ro v).
Proof.
  induction n as [|n IH]; intros v ro prefix Hn; [pose proof (size_pos v); lia|].
  assert (HL : forall es, (sizes es <= n)%nat -> Forall (fun v => (gval_size v <= n)%nat) es).
  { induction es as [|x es IHe]; intros H; [constructor|]. cbn in H. fold (sizes es) in H. constructor; [lia|]. apply IHe. lia. }
  destruct v as [e pr|[t|]|ei [es|]|es|ks ei es|fs|nl| |e np ni r].
  - cbn [enc_value]. unfold oks, emit. destruct ro.
    + split; split; intros H; [destruct H as [? H]; discriminate H|inversion H; discriminate|constructor; reflexivity|reflexivity].
    + split; split; intros H; [constructor; reflexivity|eauto|discriminate H|inversion H; discriminate].
  - cbn [enc_value gval_size] in *. destruct (IH t ro prefix ltac:(lia)) as [H1 H2]. rewrite H1, H2.
    split; split; intros H; try (constructor; exact H); inversion H; assumption.
  - cbn. unfold oks, emit. split; split; intros H; [constructor|eauto|discriminate H|inversion H].
  - destruct ei.
    { cbn. unfold oks. split; split; intros H; [destruct H as [? H]; discriminate H|inversion H|constructor|reflexivity]. }
    rewrite enc_slice. assert (Hs : (sizes es <= n)%nat) by (cbn [gval_size] in Hn; unfold sizes; lia). clear Hn.
    pose proof (HL es Hs) as Hall. rewrite list_ok, list_panic. split.
    + split.
      * intros H. constructor. rewrite Forall_forall in *. intros x Hx. apply (IH x ro prefix); auto.
      * intros H. inversion H as [| | | |? Hf| |]; subst. rewrite Forall_forall in *. intros x Hx. apply (IH x ro prefix); auto.
    + split.
      * intros (pre & v & post & -> & Hp & Hv). apply Forall_app in Hall as [Hall1 Hall2]. inversion Hall2; subst.
        apply CR_slice; [|apply (IH v ro prefix); assumption]. rewrite Forall_forall in *. intros x Hx. apply (IH x ro prefix); auto.
      * intros H. inversion H as [| | | | | | |pre v post Hp Hv E]; subst. exists pre, v, post. split; [reflexivity|].
        apply Forall_app in Hall as [Hall1 Hall2]. inversion Hall2; subst. split; [|apply (IH v ro prefix); assumption].
        rewrite Forall_forall in *. intros x Hx. apply (IH x ro prefix); auto.
  - cbn. unfold oks, emit. split; split; intros H; [constructor|eauto|discriminate H|inversion H].
  - cbn. unfold oks, efail. split; split; intros H; [destruct H as [? H]; discriminate H|inversion H|discriminate H|inversion H].
  - cbn. unfold oks, efail. split; split; intros H; [destruct H as [? H]; discriminate H|inversion H|discriminate H|inversion H].
  - cbn. unfold oks, efail. split; split; intros H; [destruct H as [? H]; discriminate H|inversion H|discriminate H|inversion H].
  - cbn. unfold oks, efail. split; split; intros H; [destruct H as [? H]; discriminate H|inversion H|constructor|reflexivity].
  - cbn. unfold oks, efail. split; split; intros H; [destruct H as [? H]; discriminate H|inversion H|discriminate H|inversion H].
  - cbn [enc_value]. unfold oks, emit, efail. destruct np, ro, ni, r as [[er|b]|er|]; split; split; intros H;
      first [discriminate H|destruct H as [? H]; discriminate H|(constructor; reflexivity)|constructor|(inversion H; fail)|(inversion H; discriminate)|eauto|idtac].
Qed.
Lemma clean_iff v ro prefix : oks (enc_value v ro prefix) <-> clean ro v.
Proof. apply (clean_crash_n (gval_size v)). lia. Qed.
Lemma crash_iff v ro prefix : enc_value v ro prefix = Panic <-> crash ro v.
Proof. apply (clean_crash_n (gval_size v)). lia. Qed.

(** struct fields: what is skipped, what is written *)
Definition skipped (uni : N -> bool) (p : sfield * gval) : Prop :=
  empty_value (snd p) \/ field_named uni (fst p) [].
Definition field_fine (uni : N -> bool) (p : sfield * gval) : Prop :=
  (skipped uni p /\ ~ mandatory (fst p)) \/ (~ skipped uni p /\ clean (negb (f_exported (fst p))) (snd p)).
Definition field_crash (uni : N -> bool) (p : sfield * gval) : Prop :=
  (skipped uni p /\ mandatory (fst p)) \/ (~ skipped uni p /\ crash (negb (f_exported (fst p))) (snd p)).

Lemma skipped_dec uni sf v : (is_empty_value v || (length (fst (get_name uni sf)) =? 0)%nat) = true <-> skipped uni (sf, v).
Proof.
  unfold skipped. cbn [fst snd]. rewrite orb_true_iff. destruct (get_name_spec uni sf) as [Hn _]. destruct (get_name uni sf) as [name m]. cbn [fst] in *.
  rewrite empty_iff. split; (intros [H|H]; [left; exact H|right]).
  - destruct name; [exact Hn|discriminate].
  - rewrite (field_named_fun _ _ _ _ Hn H). reflexivity.
Qed.

Lemma fields_panic uni fs : enc_fields uni fs = Panic <->
  exists pre p post, fs = pre ++ p :: post /\ Forall (field_fine uni) pre /\ field_crash uni p.
Proof.
  assert (Hok : forall fs, oks (enc_fields uni fs) -> Forall (field_fine uni) fs).
  { induction fs0 as [|[sf v] fs0 IH]; intros [out H]; [constructor|]. cbn [enc_fields] in H.
    pose proof (skipped_dec uni sf v) as Hs. destruct (get_name_spec uni sf) as [_ Hm]. destruct (get_name uni sf) as [name m]. cbn [fst snd] in *.
    destruct (is_empty_value v || (length name =? 0)%nat).
    - destruct m; [discriminate|]. constructor; [|apply IH; exists out; exact H]. left. split; [apply Hs; reflexivity|]. cbn. intros Hx. apply Hm in Hx. discriminate.
    - unfold eseq in H. destruct (enc_value v (negb (f_exported sf)) name) as [[e|t]| |] eqn:Ev; try discriminate.
      destruct (enc_fields uni fs0) as [[e|u]| |] eqn:Ef; try discriminate. constructor; [|apply IH; exists u; reflexivity].
      right. split; [intros Hx; apply Hs in Hx; discriminate|]. cbn. apply (clean_iff _ _ name). exists t. exact Ev. }
  induction fs as [|[sf v] fs IH].
  - cbn. split; [discriminate|]. intros ([|? ?] & ? & ? & H & _); discriminate.
  - cbn [enc_fields]. pose proof (skipped_dec uni sf v) as Hs. destruct (get_name_spec uni sf) as [_ Hm]. destruct (get_name uni sf) as [name m]. cbn [fst snd] in *.
    destruct (is_empty_value v || (length name =? 0)%nat).
    + assert (Hsk : skipped uni (sf, v)) by (apply Hs; reflexivity). destruct m.
      * split; [|reflexivity]. intros _. exists [], (sf, v), fs. split; [reflexivity|]. split; [constructor|]. left. split; [exact Hsk|apply Hm; reflexivity].
      * assert (Hnm : ~ mandatory sf) by (intros Hx; apply Hm in Hx; discriminate). rewrite IH. split.
        -- intros (pre & p & post & -> & Hp & Hc). exists ((sf, v) :: pre), p, post. split; [reflexivity|]. split; [|exact Hc]. constructor; [left; auto|exact Hp].
        -- intros ([|q pre] & p & post & E & Hp & Hc); cbn in E; injection E; clear E.
           ++ intros -> <-. exfalso. destruct Hc as [[_ Hc]|[Hc _]]; [exact (Hnm Hc)|exact (Hc Hsk)].
           ++ intros -> <-. inversion Hp; subst. exists pre, p, post. auto.
    + assert (Hsk : ~ skipped uni (sf, v)) by (intros Hx; apply Hs in Hx; discriminate). unfold eseq. split.
      * destruct (enc_value v (negb (f_exported sf)) name) as [[e|t]| |] eqn:Ev; try discriminate.
        -- destruct (enc_fields uni fs) as [[e|u]| |] eqn:Ef; try discriminate. intros _. destruct (proj1 IH eq_refl) as (pre & p & post & -> & Hp & Hc).
           exists ((sf, v) :: pre), p, post. split; [reflexivity|]. split; [|exact Hc]. constructor; [|exact Hp]. right. split; [exact Hsk|]. apply (clean_iff _ _ name). exists t. exact Ev.
        -- intros _. exists [], (sf, v), fs. split; [reflexivity|]. split; [constructor|]. right. split; [exact Hsk|]. apply (crash_iff _ _ name). exact Ev.
      * intros ([|q pre] & p & post & E & Hp & Hc); cbn in E; injection E; clear E.
        -- intros -> <-. destruct Hc as [[Hc _]|[_ Hc]]; [destruct (Hsk Hc)|]. cbn in Hc. apply (crash_iff _ _ name) in Hc. rewrite Hc. reflexivity.
        -- intros -> <-. inversion Hp as [|? ? Hq Hp']; subst. destruct Hq as [[Hq _]|[_ Hq]]; [destruct (Hsk Hq)|]. cbn in Hq. apply (clean_iff _ _ name) in Hq as [t Ht]. rewrite Ht.
           rewrite (proj2 IH); [reflexivity|]. exists pre, p, post. auto.
Qed.

Lemma entries_panic es : enc_entries es = Panic <->
  exists pre k v post, es = pre ++ (k, v) :: post /\ Forall (fun p => clean false (snd p)) pre /\ crash false v.
Proof.
  induction es as [|[k v] es IH].
  - cbn. split; [discriminate|]. intros ([|? ?] & ? & ? & ? & H & _); discriminate.
  - cbn [enc_entries]. unfold eseq. split.
    + destruct (enc_value v false k) as [[e|t]| |] eqn:Ex; try discriminate.
      * destruct (enc_entries es) as [[e|u]| |] eqn:El; try discriminate. intros _.
        destruct (proj1 IH eq_refl) as (pre & k' & v' & post & -> & Hp & Hv). exists ((k, v) :: pre), k', v', post. split; [reflexivity|]. split; [|exact Hv]. constructor; [apply (clean_iff _ _ k); exists t; exact Ex|exact Hp].
      * intros _. exists [], k, v, es. split; [reflexivity|]. split; [constructor|apply (crash_iff _ _ k); exact Ex].
    + intros (pre & k' & v' & post & E & Hp & Hv). destruct pre as [|p pre]; cbn in E.
      * injection E as -> -> ->. apply (crash_iff _ _ k') in Hv. rewrite Hv. reflexivity.
      * injection E as <- ->. inversion Hp as [|? ? Hc Hp']; subst. cbn in Hc. apply (clean_iff _ _ k) in Hc as [t Ht]. rewrite Ht. rewrite (proj2 IH); [reflexivity|]. exists pre, k', v', post. auto.
Qed.

(** when GenericSD(x).Marshal5424() panics *)
Inductive root_crash (uni : N -> bool) (ptr_mar : bool) : gval -> Prop :=
| RC_nil_iface : forall e r, root_crash uni ptr_mar (VMar e false true r)
| RC_mar_panics : forall e, root_crash uni ptr_mar (VMar e false false MPanic)
| RC_field : forall pre p post, Forall (field_fine uni) pre -> field_crash uni p -> root_crash uni ptr_mar (VStruct (pre ++ p :: post))
| RC_iface_map : forall es, root_crash uni ptr_mar (VMap true true es)                     (* map[string]interface{} *)
| RC_entry : forall es s pre k v post, Permutation s es -> StronglySorted (fun a b => bytes_lt (fst a) (fst b)) s ->
    s = pre ++ (k, v) :: post -> Forall (fun p => clean false (snd p)) pre -> crash false v -> root_crash uni ptr_mar (VMap true false (Some es))
| RC_ptr_mar : forall v, ptr_mar = true -> (forall fs, v <> VStruct fs) -> (forall a b c, v <> VMap a b c) -> (forall t, v <> VPtr t) ->
    (forall e a b r, v <> VMar e a b r) -> root_crash uni ptr_mar v.

(** the entries of a Go map have distinct keys *)
Definition go_value (v : gval) : Prop := match v with VMap _ _ (Some es) => NoDup (map fst es) | _ => True end.

Lemma lt_leb a b : bytes_lt a b -> bytes_leb a b = true.
Proof.
  induction 1 as [c b|x y a b H|x a b H IH]; cbn; [reflexivity| |].
  - apply N.ltb_lt in H. rewrite H. reflexivity.
  - rewrite N.eqb_refl, IH. apply orb_true_r.
Qed.

Theorem C65_panics_iff : forall uni id pm v, go_value v ->
  (sd_marshal uni (SDGeneric id pm v) = Panic <-> root_crash uni pm v).
Proof.
  intros uni id pm v Hg. cbn [sd_marshal].
  assert (Hbr : forall x, eseq (emit (header_write (Some id))) (eseq x (emit [RBR])) = Panic <-> x = Panic).
  { intros [[e|b]| |]; cbn; split; try discriminate; reflexivity. }
  assert (Hother : forall v, (forall fs, v <> VStruct fs) -> (forall a b c, v <> VMap a b c) -> (forall t, v <> VPtr t) -> (forall e a b r, v <> VMar e a b r) ->
     ((if pm then Panic else efail EUnsupportedType) = Panic <-> root_crash uni pm v)).
  { intros w H1 H2 H3 H4. destruct pm; split; intros H; try discriminate H; try reflexivity.
    - apply RC_ptr_mar; auto.
    - inversion H; subst; exfalso; try discriminate; first [eapply H1; reflexivity|eapply H2; reflexivity|eapply H4; reflexivity]. }
  destruct v as [e pr|t|ei es|es|ks ei es|fs|nl| |e np ni r]; cbn [enc_root]; try (apply Hother; intros; discriminate).
  - split; [discriminate|]. intros H. inversion H as [| | | | |? _ _ _ H3]; subst. exfalso. eapply H3. reflexivity.
  - unfold enc_map. destruct ks; cbn [negb].
    + destruct ei.
      * split; [intros _; constructor|reflexivity].
      * destruct es as [es|].
        -- rewrite Hbr, entries_panic. cbn in Hg. split.
           ++ intros (pre & k & v & post & E & Hp & Hc). eapply (RC_entry _ _ es (sort_entries es)); [apply sort_perm| |exact E|exact Hp|exact Hc].
              apply sorted_strict; [|apply sort_sorted]. eapply Permutation_NoDup; [apply Permutation_map, Permutation_sym, sort_perm|exact Hg].
           ++ intros H. inversion H as [| | | |? s pre k v post Hpm Hs E Hp Hc|? _ _ H3 _]; subst; [|exfalso; eapply H3; reflexivity].
              exists pre, k, v, post. split; [|auto]. apply sorted_unique; [apply sort_sorted| | |].
              ** clear -Hs. induction Hs as [|x l Hs IH Hf]; constructor; [exact IH|]. eapply Forall_impl; [|exact Hf]. intros a. apply lt_leb.
              ** eapply Permutation_NoDup; [apply Permutation_map, Permutation_sym, sort_perm|exact Hg].
              ** rewrite sort_perm. symmetry. exact Hpm.
        -- unfold emit. split; [discriminate|]. intros H. inversion H as [| | | | |? _ _ H3 _]; subst. exfalso. eapply H3; reflexivity.
    + split; [discriminate|]. intros H. inversion H as [| | | | |? _ _ H3 _]; subst. exfalso. eapply H3; reflexivity.
  - unfold enc_struct. rewrite Hbr, fields_panic. split.
    + intros (pre & p & post & -> & Hp & Hc). apply RC_field; assumption.
    + intros H. inversion H as [| |pre p post Hp Hc E| | |? _ H3]; subst; [|exfalso; eapply H3; reflexivity]. eauto 6.
  - destruct np, ni, r as [[er|b]|er|]; unfold emit, efail; split; intros H; try discriminate H; try reflexivity; try constructor;
      (inversion H as [| | | | |? _ _ _ _ H3]; exfalso; eapply H3; reflexivity).
Qed.
Print Assumptions C65_panics_iff.

(** what it returns when it returns bytes: nothing at all for a nil map (or a nil pointer that is
    itself a StructuredData), the bytes of its own Marshal5424 for a StructuredData, a bracketed
    element otherwise *)
Theorem C65_output_shape : forall uni id pm v out, sd_marshal uni (SDGeneric id pm v) = Val (inr out) ->
  (out = [] /\ (v = VMap true false None \/ exists e ni r, v = VMar e true ni r)) \/
  (exists e, v = VMar e false false (MRet (inr out))) \/
  (exists body, out = bs "[" ++ id ++ body ++ bs "]" /\ ((exists fs, v = VStruct fs) \/ exists es, v = VMap true false (Some es))).
Proof.
  intros uni id pm v out H. cbn [sd_marshal] in H.
  assert (Hbr : forall x, eseq (emit (header_write (Some id))) (eseq x (emit [RBR])) = Val (inr out) -> exists body, out = bs "[" ++ id ++ body ++ bs "]").
  { intros [[e|b]| |]; cbn; try discriminate. intros E. injection E as <-. exists b. reflexivity. }
  destruct v as [e pr|t|ei es|es|ks ei es|fs|nl| |e np ni r]; cbn [enc_root] in H; try (destruct pm; discriminate H); try discriminate H.
  - unfold enc_map in H. destruct ks; [|discriminate]. destruct ei; [discriminate|]. cbn [negb] in H. destruct es as [es|].
    + right. right. destruct (Hbr _ H) as [body ->]. eauto 7.
    + left. unfold emit in H. injection H as <-. auto.
  - right. right. unfold enc_struct in H. destruct (Hbr _ H) as [body ->]. eauto 7.
  - destruct np; [left; unfold emit in H; injection H as <-; eauto 7|]. destruct ni; [discriminate|]. destruct r as [[er|b]|er|]; [discriminate| |discriminate|discriminate].
    right. left. unfold emit in H. injection H as <-. eauto.
Qed.
Print Assumptions C65_output_shape.

(** the unconditional claim is false: values every user can pass *)
Theorem C65_total_refuted :
  sd_marshal (fun _ => true) (SDGeneric (bs "x@1") false (VMap true false None)) = Val (inr []) /\
  sd_marshal (fun _ => true) (SDGeneric (bs "x@1") false (VMap true true (Some [(bs "k", VBasic false (bs "v"))]))) = Panic /\
  sd_marshal (fun _ => true) (SDGeneric (bs "x@1") false (VStruct [(fld "A" "a,mandatory", VBasic true [])])) = Panic /\
  sd_marshal (fun _ => true) (SDGeneric (bs "x@1") false (VStruct [(fld "A" "", VBasic false (bs "1")); ({| f_name := bs "b"; f_tag := []; f_exported := false |}, VBasic false (bs "2"))])) = Panic.
Proof. repeat split; vm_compute; reflexivity. Qed.
Print Assumptions C65_total_refuted.

Example C65_nonvacuous : ~ root_crash (fun _ => true) false (VStruct [(fld "A" "", VBasic false (bs "1")); (fld "B" "b", VPtr None)]).
Proof. intros H. apply (C65_panics_iff (fun _ => true) (bs "x@1") false) in H; [vm_compute in H; discriminate H|exact I]. Qed.

(** ** C66: time quality elements *)

(** the value of the last parameter of a given name *)
Fixpoint last_value (name : bytes) (ps : list (bytes * bytes)) : option bytes :=
  match ps with
  | [] => None
  | (k, v) :: r => match last_value name r with
                   | Some v' => Some v'
                   | None => if bytes_eqb k name then Some v else None
                   end
  end.

(** a parameter a timeQuality element may carry *)
Definition tq_pair (p : bytes * bytes) : Prop :=
  ((fst p = bs "tzKnown" \/ fst p = bs "isSynced") /\ (snd p = bs "0" \/ snd p = bs "1")) \/
  (fst p = bs "syncAccuracy" /\ exists a, int64_text (snd p) a).

(** RFC 5424 7.1: synchronised implies the time zone is known, an accuracy implies synchronised *)
Definition tq_consistent (t : tq) : Prop :=
  (isSynced t = true -> tzKnown t = true) /\ (syncAccuracy t <> None -> isSynced t = true).

(** [t] is what the parameters [ps] say, starting from [t0] *)
Definition says (t0 : tq) (ps : list (bytes * bytes)) (t : tq) : Prop :=
  tzKnown t = match last_value (bs "tzKnown") ps with Some v => bytes_eqb v (bs "1") | None => tzKnown t0 end /\
  isSynced t = match last_value (bs "isSynced") ps with Some v => bytes_eqb v (bs "1") | None => isSynced t0 end /\
  match last_value (bs "syncAccuracy") ps with
  | Some v => exists a, int64_text v a /\ syncAccuracy t = Some a
  | None => syncAccuracy t = syncAccuracy t0
  end.

Lemma tq_valid_iff t : tq_is_valid t = true <-> tq_consistent t.
Proof.
  unfold tq_is_valid, tq_consistent. destruct t as [k s [a|]], k, s; cbn; split; intros H; try discriminate; try reflexivity; try (split; congruence);
    destruct H as [H1 H2]; try (specialize (H1 eq_refl)); try (specialize (H2 ltac:(discriminate))); discriminate.
Qed.

Lemma tq_ext t t' : tzKnown t = tzKnown t' -> isSynced t = isSynced t' -> syncAccuracy t = syncAccuracy t' -> t = t'.
Proof. destruct t, t'; cbn; congruence. Qed.

Lemma tq_param_iff t k v t' : tq_param t k v = Some t' <-> tq_pair (k, v) /\ says t [(k, v)] t'.
Proof.
  unfold tq_param, tq_pair, says, last_value. cbn [fst snd].
  destruct (bytes_eqb k (bs "tzKnown")) eqn:E1.
  { apply bytes_eqb_eq in E1 as ->. change (bytes_eqb (bs "tzKnown") (bs "isSynced")) with false. change (bytes_eqb (bs "tzKnown") (bs "syncAccuracy")) with false. cbv iota.
    destruct (bytes_eqb v (bs "0")) eqn:E0.
    { apply bytes_eqb_eq in E0 as ->. change (bytes_eqb (bs "0") (bs "1")) with false. split.
      - intros H. injection H as <-. cbn. auto 8.
      - intros (_ & A & B & C). f_equal. apply tq_ext; cbn; congruence. }
    destruct (bytes_eqb v (bs "1")) eqn:E3.
    { apply bytes_eqb_eq in E3 as ->. split.
      - intros H. injection H as <-. cbn. auto 8.
      - intros (_ & A & B & C). f_equal. apply tq_ext; cbn; congruence. }
    split; [discriminate|]. intros ([(_ & [->| ->])|(Hx & _)] & _); [discriminate E0|discriminate E3|discriminate Hx]. }
  destruct (bytes_eqb k (bs "isSynced")) eqn:E2.
  { apply bytes_eqb_eq in E2 as ->. change (bytes_eqb (bs "isSynced") (bs "syncAccuracy")) with false. cbv iota.
    destruct (bytes_eqb v (bs "0")) eqn:E0.
    { apply bytes_eqb_eq in E0 as ->. change (bytes_eqb (bs "0") (bs "1")) with false. split.
      - intros H. injection H as <-. cbn. auto 8.
      - intros (_ & A & B & C). f_equal. apply tq_ext; cbn; congruence. }
    destruct (bytes_eqb v (bs "1")) eqn:E3.
    { apply bytes_eqb_eq in E3 as ->. split.
      - intros H. injection H as <-. cbn. auto 8.
      - intros (_ & A & B & C). f_equal. apply tq_ext; cbn; congruence. }
    split; [discriminate|]. intros ([(_ & [->| ->])|(Hx & _)] & _); [discriminate E0|discriminate E3|discriminate Hx]. }
  destruct (bytes_eqb k (bs "syncAccuracy")) eqn:E3.
  { apply bytes_eqb_eq in E3 as ->. destruct (atoi v) as [a|] eqn:Ea.
    - pose proof Ea as Ha. apply atoi_iff in Ha. split.
      + intros H. injection H as <-. cbn. split; [right; eauto|]. eauto.
      + intros (_ & A & B & a' & Ha' & C). apply atoi_iff in Ha'. rewrite Ea in Ha'. injection Ha' as <-. f_equal. apply tq_ext; cbn; congruence.
    - split; [discriminate|]. intros (_ & _ & _ & a & Ha & _). apply atoi_iff in Ha. congruence. }
  split; [discriminate|]. intros ([([->| ->] & _)|(-> & _)] & _); [discriminate E1|discriminate E2|discriminate E3].
Qed.

Lemma says_cons t k v t1 ps t' : tq_pair (k, v) -> says t [(k, v)] t1 -> (says t1 ps t' <-> says t ((k, v) :: ps) t').
Proof.
  intros Hk (A & B & C). unfold says in *. cbn [last_value] in *. rewrite A, B.
  destruct (last_value (bs "tzKnown") ps), (last_value (bs "isSynced") ps), (last_value (bs "syncAccuracy") ps); 
    destruct (bytes_eqb k (bs "tzKnown")), (bytes_eqb k (bs "isSynced")), (bytes_eqb k (bs "syncAccuracy")); try tauto;
    try (destruct C as (a & Ha & C); rewrite C; split; [intros (H1 & H2 & H3); eauto 6|]; intros (H1 & H2 & a' & Ha' & H3); split; [exact H1|]; split; [exact H2|];
         apply atoi_iff in Ha, Ha'; congruence);
    rewrite C; tauto.
Qed.

Lemma tq_loop_total fuel : forall t d, (length d <= fuel)%nat -> exists o, tq_loop fuel t d = Val o.
Proof.
  induction fuel as [|fuel IH]; intros t d Hd.
  - destruct d; [|cbn in Hd; lia]. eexists; reflexivity.
  - destruct d as [|c d]; [eexists; reflexivity|]. cbn [tq_loop].
    destruct (next_param (c :: d)) as [[[k v] r]|] eqn:En; [|eexists; reflexivity].
    apply next_param_inv in En as (n & Hn & He & _ & _). destruct (tq_param t k v) as [t'|]; [|eexists; reflexivity].
    apply IH. apply (f_equal (@length N)) in He. rewrite app_length, param_text_length in He. lia.
Qed.

Lemma digit_well v a : int64_text v a -> well_escaped v.
Proof.
  intros (ds & _ & Hd & _ & H).
  assert (Hw : well_escaped ds).
  { clear -Hd. induction ds as [|c ds IH]; [constructor|]. apply all_digits_cons in Hd as [Hc Hd]. apply WE_plain; [lia..|apply IH; exact Hd]. }
  destruct H as [([->| ->] & _)|(-> & _)]; [exact Hw| |]; cbn; (apply WE_plain; [lia..|exact Hw]).
Qed.

Lemma tq_pair_ok p : tq_pair p -> param_ok p /\ fst p <> [].
Proof.
  assert (Hn : forall n, forallb (fun c => (32 <? c)%N && (c <? 127)%N && negb (N.eqb c RBR) && negb (N.eqb c QUO) && negb (N.eqb c EQS)) n = true -> sd_name n).
  { intros n H c Hc. rewrite forallb_forall in H. specialize (H c Hc). rewrite !andb_true_iff, !negb_true_iff, !N.eqb_neq in H. unfold sd_name_byte. lia. }
  assert (Hv : well_escaped (bs "0") /\ well_escaped (bs "1")) by (split; cbn; (apply WE_plain; [lia..|constructor])).
  destruct p as [k v]. unfold tq_pair, param_ok. cbn [fst snd]. intros [[[->| ->] [->| ->]]|[-> [a Ha]]];
    (split; [split; [apply Hn; reflexivity|try apply Hv]|discriminate]). exact (digit_well v a Ha).
Qed.

Lemma tq_loop_iff fuel : forall t0 d t, (length d <= fuel)%nat ->
  (tq_loop fuel t0 d = Val (Some t) <->
   exists l, d = text_of l /\ Forall (fun p => (1 <= fst (fst p))%nat) l /\ Forall tq_pair (strip l) /\ says t0 (strip l) t).
Proof.
  assert (Hnil : forall t0 t, Val (Some t0) = Val (Some t) <->
     exists l, @nil N = text_of l /\ Forall (fun p => (1 <= fst (fst p))%nat) l /\ Forall tq_pair (strip l) /\ says t0 (strip l) t).
  { intros t0 t. split.
    - intros H. injection H as ->. exists []. split; [reflexivity|]. split; [constructor|]. split; [constructor|]. cbn. unfold says. cbn. auto.
    - intros (l & E & Hl & _ & Hs). destruct l as [|[[n k] v] l].
      + destruct Hs as (A & B & C). cbn in A, B, C. f_equal. f_equal. apply tq_ext; congruence.
      + apply (f_equal (@length N)) in E. unfold text_of in E. cbn [map concat] in E. rewrite app_length, param_text_length in E. cbn in E. lia. }
  induction fuel as [|fuel IH]; intros t0 d t Hd.
  { destruct d; [|cbn in Hd; lia]. cbn [tq_loop]. apply Hnil. }
  destruct d as [|c d]; [cbn [tq_loop]; apply Hnil|]. cbn [tq_loop]. split.
  - destruct (next_param (c :: d)) as [[[k v] r]|] eqn:En; [|discriminate].
    apply next_param_inv in En as (n & Hn & He & _ & _). destruct (tq_param t0 k v) as [t1|] eqn:Et; [|discriminate]. intros H.
    apply IH in H; [|apply (f_equal (@length N)) in He; rewrite app_length, param_text_length in He; lia].
    destruct H as (l & -> & Hl & Hp & Hs). apply tq_param_iff in Et as [Hk Hs1].
    exists ((n, k, v) :: l). split; [exact He|]. split; [constructor; assumption|]. cbn [strip map fst snd]. split; [constructor; assumption|].
    apply (says_cons _ _ _ t1); assumption.
  - intros (l & E & Hl & Hp & Hs). destruct l as [|[[n k] v] l]; [discriminate|]. cbn [strip map fst snd] in *. fold (strip l) in *.
    inversion Hl as [|? ? Hn Hl']; inversion Hp as [|? ? Hk Hp']; subst. cbn [fst] in Hn. destruct (tq_pair_ok _ Hk) as [Hok Hkn]. cbn [fst] in Hkn.
    rewrite E. unfold text_of. cbn [map concat]. fold (text_of l).
    rewrite next_param_ok; [|exact Hn|exact Hok|destruct k; [congruence|cbn; lia]].
    assert (Hx : exists t1, says t0 [(k, v)] t1).
    { destruct Hk as [[[Hk|Hk] _]|[Hk [a Ha]]]; cbn [fst snd] in *; subst k; unfold says; cbn [last_value].
      - exists {| tzKnown := bytes_eqb v (bs "1"); isSynced := isSynced t0; syncAccuracy := syncAccuracy t0 |}. cbn. auto.
      - exists {| tzKnown := tzKnown t0; isSynced := bytes_eqb v (bs "1"); syncAccuracy := syncAccuracy t0 |}. cbn. auto.
      - exists {| tzKnown := tzKnown t0; isSynced := isSynced t0; syncAccuracy := Some a |}. cbn. eauto. }
    destruct Hx as [t1 Hs1]. rewrite (proj2 (tq_param_iff t0 k v t1)) by (split; assumption).
    apply IH.
    + apply (f_equal (@length N)) in E. unfold text_of in E. cbn [map concat] in E. fold (text_of l) in E. rewrite app_length, param_text_length in E. cbn [length] in *. lia.
    + exists l. split; [reflexivity|]. split; [exact Hl'|]. split; [exact Hp'|]. apply (says_cons t0 k v t1); assumption.
Qed.

(** the elements decoded as a time quality, exactly *)
Theorem C66_decodes_iff : forall d spare t,
  tq_found d spare = Val (Some (SDTimeQuality t)) <->
  exists l, d = bs "[timeQuality" ++ concat (map param_text l) ++ bs "]" /\ Forall (fun p => (1 <= fst (fst p))%nat) l /\
    Forall tq_pair (map (fun p => (snd (fst p), snd p)) l) /\ says tq_zero (map (fun p => (snd (fst p), snd p)) l) t /\ tq_consistent t.
Proof.
  intros d spare t. fold text_of.
  assert (Hin : forall inner, tq_found (LBR :: inner ++ [RBR]) spare = Val (Some (SDTimeQuality t)) <->
     exists data, inner = bs "timeQuality" ++ data /\ tq_loop (length data) tq_zero data = Val (Some t) /\ tq_is_valid t = true).
  { intros inner. unfold tq_found. rewrite bracketed_ok. cbn [bind]. unfold go_slice_cap. change (0 <=? 11)%nat with true. cbn [andb].
    destruct (Nat.leb_spec 11 (length inner + length (RBR :: spare))) as [Hle|Hgt].
    2: { split; [discriminate|]. intros (data & -> & _). rewrite app_length in Hgt. cbn in Hgt. lia. }
    cbn [bind]. change (11 - 0)%nat with 11%nat. cbn [skipn].
    destruct (bytes_eqb (firstn 11 (inner ++ RBR :: spare)) (bs "timeQuality")) eqn:E; cbn [negb].
    2: { split; [discriminate|]. intros (data & -> & _). rewrite <- app_assoc in E. change 11%nat with (length (bs "timeQuality")) in E. rewrite firstn_app_exact in E.
         rewrite (proj2 (bytes_eqb_eq _ _) eq_refl) in E. discriminate. }
    apply bytes_eqb_eq in E.
    assert (Hpre : exists data, inner = bs "timeQuality" ++ data).
    { destruct (Nat.le_gt_cases 11 (length inner)) as [Hl|Hl].
      - exists (skipn 11 inner). rewrite <- E. rewrite firstn_app. replace (11 - length inner)%nat with 0%nat by lia. rewrite firstn_O, app_nil_r. symmetry. apply firstn_skipn.
      - exfalso. assert (Hr : In RBR (bs "timeQuality")).
        { rewrite <- E. rewrite firstn_app. apply in_or_app. right. replace (11 - length inner)%nat with (S (10 - length inner)) by lia. left. reflexivity. }
        cbn in Hr. repeat (destruct Hr as [Hr|Hr]; [discriminate|]). destruct Hr. }
    destruct Hpre as [data ->]. change 11%nat with (length (bs "timeQuality")). rewrite go_from_val by (rewrite app_length; lia). rewrite skipn_app_exact. cbn [bind].
    destruct data as [|c data'] eqn:Ed.
    - split.
      + intros H. injection H as <-. exists []. split; [reflexivity|]. split; reflexivity.
      + intros (data2 & Ed' & H1 & _). apply app_inv_head in Ed' as <-. cbn in H1. injection H1 as <-. reflexivity.
    - rewrite <- Ed in *. destruct (tq_loop_total (length data) tq_zero data (Nat.le_refl _)) as [o Ho]. rewrite Ho. cbn [bind]. split.
      + intros H. exists data. split; [reflexivity|]. destruct o as [t'|]; [|discriminate]. destruct (tq_is_valid t') eqn:Ev; [|discriminate]. injection H as <-. auto.
      + intros (data2 & Ed' & H1 & H2). apply app_inv_head in Ed'. subst data2. rewrite Ho in H1. injection H1 as ->. rewrite H2. reflexivity. }
  split.
  - intros H. destruct d as [|c d]; [discriminate|].
    destruct (bracketed_cases (c :: d)) as [(inner & E & _)|(_ & Hb)]; [discriminate| |unfold tq_found in H; rewrite Hb in H; discriminate].
    rewrite E in *. apply Hin in H as (data & -> & Hl & Hv). apply tq_loop_iff in Hl as (l & -> & H1 & H2 & H3); [|lia].
    exists l. split; [cbn; rewrite <- ?app_assoc; reflexivity|]. split; [exact H1|]. split; [exact H2|]. split; [exact H3|]. apply tq_valid_iff, Hv.
  - intros (l & -> & H1 & H2 & H3 & H4).
    change (bs "[timeQuality" ++ concat (map param_text l) ++ bs "]") with (LBR :: (bs "timeQuality" ++ text_of l) ++ [RBR]).
    apply Hin. exists (text_of l). split; [reflexivity|]. split; [|apply tq_valid_iff; exact H4]. apply tq_loop_iff; [lia|]. exists l. auto.
Qed.
Print Assumptions C66_decodes_iff.

(** what is decoded is always consistent (and always a time quality) *)
Theorem C66_decoded_valid : forall d spare s, tq_found d spare = Val (Some s) -> exists t, s = SDTimeQuality t /\ tq_consistent t.
Proof.
  intros d spare s H. assert (Ht : exists t, s = SDTimeQuality t).
  { unfold tq_found in H. destruct (bracketed d) as [[inner|]| |]; cbn [bind] in H; try discriminate.
    destruct (go_slice_cap inner (RBR :: spare) 0 11) as [h| |]; cbn [bind] in H; try discriminate. destruct (negb _); [discriminate|].
    destruct (go_from inner 11) as [data| |]; cbn [bind] in H; try discriminate. destruct data as [|c data]; [injection H as <-; eauto|].
    destruct (tq_loop _ _ _) as [[t|]| |]; cbn [bind] in H; try discriminate. destruct (tq_is_valid t); [|discriminate]. injection H as <-. eauto. }
  destruct Ht as [t ->]. exists t. split; [reflexivity|]. apply C66_decodes_iff in H as (l & _ & _ & _ & _ & H). exact H.
Qed.
Print Assumptions C66_decoded_valid.

Lemma int64_itoa a : (0 < a < 2 ^ 63)%Z -> int64_text (itoa a) a.
Proof.
  intros Ha. apply atoi_iff, atoi_itoa. lia.
Qed.

(** encoding: an error iff inconsistent, and decoding gives the value back *)
(** the text of a time quality: the flags that are set, then the accuracy if there is one *)
Definition tq_text (t : tq) : bytes :=
  bs "[timeQuality" ++ (if tzKnown t then bs " tzKnown=""1""" else []) ++ (if isSynced t then bs " isSynced=""1""" else []) ++
  match syncAccuracy t with Some a => bs " syncAccuracy=""" ++ decimal (Z.to_N a) ++ bs """" | None => [] end ++ bs "]".

Theorem C66_encoding : forall uni t, (forall a, syncAccuracy t = Some a -> (0 < a)%Z) -> tq_consistent t ->
  sd_marshal uni (SDTimeQuality t) = Val (inr (tq_text t)).
Proof.
  intros uni t Ha Hc. cbn [sd_marshal]. unfold tq_marshal, tq_text. rewrite (proj2 (tq_valid_iff t) Hc). cbn [negb].
  destruct (syncAccuracy t) as [a|]; [|reflexivity]. specialize (Ha a eq_refl). destruct (Z.leb_spec a 0); [lia|].
  unfold emit, itoa. destruct (Z.ltb_spec a 0); [lia|]. rewrite <- ?app_assoc. reflexivity.
Qed.
Print Assumptions C66_encoding.

Theorem C66_round_trip : forall uni t spare, (forall a, syncAccuracy t = Some a -> (0 < a < 2 ^ 63)%Z) ->
  (tq_consistent t -> exists enc, sd_marshal uni (SDTimeQuality t) = Val (inr enc) /\ tq_found enc spare = Val (Some (SDTimeQuality t))) /\
  (~ tq_consistent t -> sd_marshal uni (SDTimeQuality t) = Val (inl EInvalidTimeQuality)).
Proof.
  intros uni t spare Ha. cbn [sd_marshal]. unfold tq_marshal. split.
  - intros Hc. pose proof (proj2 (tq_valid_iff t) Hc) as Hv. rewrite Hv. cbn [negb]. destruct t as [k s acc]. cbn [tzKnown isSynced syncAccuracy] in *.
    set (l := (if k then [(1%nat, bs "tzKnown", bs "1")] else []) ++ (if s then [(1%nat, bs "isSynced", bs "1")] else []) ++
              match acc with Some a => [(1%nat, bs "syncAccuracy", itoa a)] | None => [] end).
    assert (Hl : forall a, acc = Some a -> int64_text (itoa a) a) by (intros a E; apply int64_itoa, Ha, E).
    assert (Hd : forall enc, enc = bs "[timeQuality" ++ concat (map param_text l) ++ bs "]" -> tq_found enc spare = Val (Some (SDTimeQuality {| tzKnown := k; isSynced := s; syncAccuracy := acc |}))).
    { intros enc ->. apply C66_decodes_iff. exists l. split; [reflexivity|]. split; [|split; [|split; [|exact Hc]]].
      - unfold l. destruct k, s, acc; repeat constructor.
      - assert (Hp : (k = true -> tq_pair (bs "tzKnown", bs "1")) /\ (s = true -> tq_pair (bs "isSynced", bs "1")) /\ forall a, acc = Some a -> tq_pair (bs "syncAccuracy", itoa a)).
        { unfold tq_pair. cbn [fst snd]. split; [intros _; left; auto|]. split; [intros _; left; auto|]. intros a E. right. split; [reflexivity|]. exists a. exact (Hl a E). }
        destruct Hp as (P1 & P2 & P3). unfold l. rewrite !map_app. apply Forall_app. split; [|apply Forall_app; split].
        + destruct k; constructor; [exact (P1 eq_refl)|constructor].
        + destruct s; constructor; [exact (P2 eq_refl)|constructor].
        + destruct acc as [a|]; constructor; [exact (P3 a eq_refl)|constructor].
      - unfold says, l. destruct k, s, acc as [a|]; (split; [reflexivity|]; split; [reflexivity|]); cbn [app map fst snd]; try reflexivity; exists a; (split; [apply Hl; reflexivity|reflexivity]). }
    destruct acc as [a|].
    + specialize (Ha a eq_refl). destruct (Z.leb_spec a 0); [lia|]. unfold emit. eexists. split; [reflexivity|]. apply Hd. unfold l. destruct k, s; cbn; rewrite <- ?app_assoc; reflexivity.
    + unfold emit. eexists. split; [reflexivity|]. apply Hd. unfold l. destruct k, s; cbn; reflexivity.
  - intros Hc. assert (Hv : tq_is_valid t = false) by (destruct (tq_is_valid t) eqn:E; [destruct (Hc (proj1 (tq_valid_iff t) E))|reflexivity]). rewrite Hv. reflexivity.
Qed.
Print Assumptions C66_round_trip.

Example C66_nonvacuous :
  sd_marshal (fun _ => true) (SDTimeQuality {| tzKnown := true; isSynced := true; syncAccuracy := Some 60000000%Z |}) = Val (inr (bs "[timeQuality tzKnown=""1"" isSynced=""1"" syncAccuracy=""60000000""]")) /\
  tq_found (bs "[timeQuality  isSynced=""0"" tzKnown=""1"" isSynced=""1""]") [] = Val (Some (SDTimeQuality {| tzKnown := true; isSynced := true; syncAccuracy := None |})) /\
  tq_found (bs "[timeQuality isSynced=""1""]") [] = Val None.
Proof. repeat split; vm_compute; reflexivity. Qed.

(** ** C67 *)
Theorem C67_encoding_panics_iff : forall uni t, sd_marshal uni (SDTimeQuality t) = Panic <->
  tq_consistent t /\ exists a, syncAccuracy t = Some a /\ (a <= 0)%Z.
Proof.
  intros uni t. cbn [sd_marshal]. unfold tq_marshal. rewrite <- tq_valid_iff. destruct (tq_is_valid t); cbn [negb].
  2: { split; [discriminate|]. intros [H _]. discriminate. }
  destruct (syncAccuracy t) as [a|].
  - destruct (Z.leb_spec a 0) as [H|H].
    + split; [intros _; eauto|reflexivity].
    + split; [discriminate|]. intros (_ & b & E & Hb). injection E as <-. lia.
  - split; [discriminate|]. intros (_ & b & E & _). discriminate.
Qed.
Print Assumptions C67_encoding_panics_iff.

(** such a value can come from the network: relaying the message panics *)
Theorem C67_relay_refuted : exists p t,
  parse (bs "<14>1 - h a p m [timeQuality tzKnown=""1"" isSynced=""1"" syncAccuracy=""0""]") None true = Val (p, None, None) /\
  imm_structured_data (fun _ => [IdTimeQuality]) [] p = Val [SDTimeQuality t] /\
  exists m, imm_writable (fun _ => [IdTimeQuality]) [] p = Val m /\ message_marshal (fun _ => true) m = Panic.
Proof. eexists. eexists. split; [vm_compute; reflexivity|]. split; [vm_compute; reflexivity|]. eexists. split; [vm_compute; reflexivity|]. vm_compute. reflexivity. Qed.
Print Assumptions C67_relay_refuted.
