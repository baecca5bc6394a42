(** PropTokErr.v -- property C117: the Buffer of an error received from a Receiver. *)
From Verif Require Import Base BaseFacts Spec MPriority MHelpers MText MTime MSData MMessage MTransport MParse MTokenize MTokMem MTokErr MErrors.
From Verif Require Import LPriority LText LAtoi LTime LSData LParse LTransport LRound LResult PropParse PropTransport LTokenize PropTokMem PropErrors.
From Coq Require Import ZifyBool ZifyNat ZifyN.

(** [x]: a pair and the slice Parse was working on, in the arrays [h]; [piece]: the part of the stream
    it comes from.  With RFC 5425 the slice is the payload of the frame. *)
Definition frame_at (t : transport) (h : heap) (piece : bytes) (x : pair_t * loc) : Prop :=
  match t with
  | TRFC5425 => exists hdr, piece = hdr ++ contents h (snd x) /\ length_header hdr /\
      parse (contents h (snd x)) None true = Val (fst (fst x), None, snd (fst x))
  | _ => snd (fst x) = None
  end.

Lemma frame_at_heap t h h' piece x : contents h' (snd x) = contents h (snd x) -> frame_at t h piece x -> frame_at t h' piece x.
Proof. unfold frame_at. intros ->. auto. Qed.

Lemma rfc_prefix data eof m r e : parse data (Some TRFC5425) eof = Val (m, Some r, e) ->
  exists hdr d, prefix_strip TRFC5425 data eof = Val (Some d, Some r, None) /\ data = hdr ++ d ++ r /\ length_header hdr /\ parse d None true = Val (m, None, e).
Proof.
  intros H. unfold parse in H. cbn [prefix_strip] in H |- *.
  assert (Hz : forall er, parse_body (Some TRFC5425) eof [] None (Some er) = Val (zero_immutable, None, Some er)) by reflexivity.
  destruct (rfc_strip_cases data eof) as [(_ & Hs)|(_ & [(Hs & _)|(h & q & Hd & Hh & Hnh & Hx)])].
  - rewrite Hs in H. discriminate.
  - rewrite Hs in H. cbn [bind] in H. rewrite Hz in H. discriminate.
  - destruct Hx as [(_ & Hs)|(n & Ha & Hx)]; [rewrite Hs in H; cbn [bind] in H; rewrite Hz in H; discriminate|].
    cbv zeta in Hx. destruct Hx as [(_ & Hs)|[(_ & Hs)|(_ & d & q' & Hq & _ & Hs)]]; rewrite Hs in H.
    + destruct eof; [|discriminate]. cbn [bind] in H. exfalso.
      destruct (parse_body_result _ _ _ _ _ _ _ _ H) as [(_ & E & _)|(m0 & _ & Hr)]; [discriminate|]. unfold parse_return in Hr.
      destruct (go_from_z q (i_text m0)) as [tl| |]; try discriminate. cbn [bind] in Hr. unfold suffix_strip in Hr.
      destruct (length tl =? 0)%nat; discriminate.
    + discriminate.
    + cbn [bind] in H. destruct (parse_none_spec d eof) as (m0 & e0 & H0 & _). rewrite (parse_body_rest TRFC5425 eof d q' m0 e0 H0) in H. injection H as <- <- <-.
      exists (h ++ bs " "), d. split; [exact Hs|]. split; [rewrite Hd, Hq, <- app_assoc; reflexivity|].
      split; [|rewrite (parse_none_eof d true eof); exact H0]. exists h. split; [reflexivity|]. split; [exact Hh|]. split; [exact Hnh|]. exists n. apply atoi_iff, Ha.
Qed.

(** one pair *)
Lemma buffer_loc_ok h t a start len eof m r e : (start + len <= length (array h a))%nat ->
  parse (contents h {| l_arr := a; l_off := start; l_len := len |}) (Some t) eof = Val (m, Some r, e) ->
  exists piece, contents h {| l_arr := a; l_off := start; l_len := len |} = piece ++ r /\
    frame_at t h piece ((m, e), buffer_loc t eof h a start len) /\
    (t = TRFC5425 -> l_arr (buffer_loc t eof h a start len) = a /\
      (l_off (buffer_loc t eof h a start len) + l_len (buffer_loc t eof h a start len) <= start + (len - length r))%nat).
Proof.
  intros Hlen Hp.
  pose proof (contents_length h {| l_arr := a; l_off := start; l_len := len |} Hlen) as Hl. cbn [l_len] in Hl.
  destruct t.
  1,2: destruct (parse_carries _ _ _ _ _ _ Hp) as (piece & Hd & _ & Hc); exists piece; split; [exact Hd|]; split; [exact (proj1 (proj2 Hc))|discriminate].
  destruct (rfc_prefix _ _ _ _ _ Hp) as (hdr & d & Hs & Hd & Hh & Hpar). exists (hdr ++ d). split; [rewrite Hd, <- app_assoc; reflexivity|].
  unfold buffer_loc. rewrite Hs. rewrite Hd, !app_length in Hl.
  assert (Hc : contents h {| l_arr := a; l_off := start + len - length r - length d; l_len := length d |} = d).
  { replace (start + len - length r - length d)%nat with (start + length hdr)%nat by lia.
    destruct (contents_sub h a start len hdr (d ++ r) Hd Hlen) as [_ H2].
    refine (proj1 (contents_sub h a (start + length hdr) (length (d ++ r)) d r H2 _)). rewrite app_length. lia. }
  split; [|intros _; cbn [l_arr l_off l_len]; split; [reflexivity|lia]].
  exists hdr. cbn [fst snd]. rewrite Hc. split; [reflexivity|]. split; [exact Hh|exact Hpar].
Qed.

Definition within (t : transport) (a n : nat) (x : pair_t * loc) : Prop :=
  t = TRFC5425 -> l_arr (snd x) = a /\ (l_off (snd x) + l_len (snd x) <= n)%nat.

(** the inner loop *)
Lemma buffers_inner_ok fuel : forall t eof h a start len, (start + len <= length (array h a))%nat ->
  map fst (buffers_inner fuel t eof h a start len) = map fst (fst (mem_inner fuel t eof h a start len)) /\
  exists pieces tail, contents h {| l_arr := a; l_off := start; l_len := len |} = concat pieces ++ tail /\
    Forall2 (frame_at t h) pieces (buffers_inner fuel t eof h a start len) /\
    Forall (within t a (start + (len - length tail))) (buffers_inner fuel t eof h a start len) /\
    (forall done, snd (mem_inner fuel t eof h a start len) = Val done -> (done <= len)%nat /\ tail = contents h {| l_arr := a; l_off := start + (len - done); l_len := done |}).
Proof.
  induction fuel as [|f IH]; intros t eof h a start len Hlen.
  { cbn [mem_inner buffers_inner]. split; [reflexivity|]. exists [], (contents h {| l_arr := a; l_off := start; l_len := len |}).
    split; [reflexivity|]. split; [constructor|]. split; [constructor|]. discriminate. }
  cbn [mem_inner buffers_inner].
  pose proof (contents_length h {| l_arr := a; l_off := start; l_len := len |} Hlen) as Hl. cbn [l_len] in Hl.
  destruct (parse (contents h {| l_arr := a; l_off := start; l_len := len |}) (Some t) eof) as [[[m [r|]] e]| |] eqn:Ep.
  2,3,4: split; [reflexivity|]; exists [], (contents h {| l_arr := a; l_off := start; l_len := len |});
    split; [reflexivity|]; split; [constructor|]; split; [constructor|]; cbn [snd]; intros done E; try discriminate.
  2:{ injection E as <-. split; [lia|]. rewrite Nat.sub_diag, Nat.add_0_r. reflexivity. }
  destruct (buffer_loc_ok h t a start len eof m r e Hlen Ep) as (piece & Hd & Hf & Hw).
  destruct (Nat.eqb_spec (length r) 0) as [E0|E0].
  - apply length_zero_iff_nil in E0 as ->. split; [reflexivity|]. exists [piece], []. cbn [concat]. rewrite app_nil_r. rewrite app_nil_r in Hd |- *.
    split; [exact Hd|]. split; [constructor; [exact Hf|constructor]|]. split; [constructor; [exact Hw|constructor]|].
    cbn [snd]. intros done E. injection E as <-. split; [lia|]. rewrite Nat.sub_0_r. unfold contents. cbn [l_len firstn]. reflexivity.
  - assert (Hlr : (length r <= len)%nat) by (rewrite <- Hl, Hd, app_length; lia).
    assert (Hr : contents h {| l_arr := a; l_off := start + (len - length r); l_len := length r |} = r).
    { replace (len - length r)%nat with (length piece) by (rewrite <- Hl, Hd, app_length; lia). exact (proj2 (contents_sub h a start len piece r Hd Hlen)). }
    specialize (IH t eof h a (start + (len - length r))%nat (length r) ltac:(lia)).
    destruct (mem_inner f t eof h a (start + (len - length r)) (length r)) as [more q]. cbn [fst snd] in IH |- *.
    destruct IH as (Hm & pieces & tail & Hc & Hf2 & Hw2 & Hv). rewrite Hr in Hc. split; [cbn [map fst]; rewrite Hm; reflexivity|].
    assert (Hlt : (length tail <= length r)%nat) by (rewrite Hc, app_length; lia).
    exists (piece :: pieces), tail. cbn [concat]. rewrite <- app_assoc, <- Hc. split; [exact Hd|]. split; [constructor; assumption|]. split.
    + constructor.
      * intros Ht. destruct (Hw Ht) as [A B]. cbn [snd]. split; [exact A|lia].
      * eapply Forall_impl; [|exact Hw2]. intros x Hx Ht. destruct (Hx Ht) as [A B]. split; [exact A|lia].
    + intros done E. destruct (Hv done E) as [A B]. split; [lia|]. rewrite B. f_equal. f_equal. lia.
Qed.

(** one turn *)
Lemma buffers_step_ok t ms ts chunk err : related ms ts -> log_ok ms -> (Z.of_nat (length chunk) <= tok_room ts)%Z ->
  let '(ms', nx) := mem_step t ms chunk err in
  map fst (buffers_step t ms chunk err) = o_sent (tok_step t ts chunk err) /\
  exists pieces tail, t_pending ts ++ chunk = concat pieces ++ tail /\
    Forall2 (frame_at t (s_heap ms')) pieces (buffers_step t ms chunk err) /\
    (forall ts', o_next (tok_step t ts chunk err) = TCont ts' -> t_pending ts' = tail) /\
    (nx = MCont -> t = TRFC5425 -> Forall (fun x => frozen ms' (snd x)) (buffers_step t ms chunk err)).
Proof.
  intros Hrel Hlog Hroom. pose proof (related_done _ _ Hrel) as Hdone.
  pose proof (mem_step_ok t ms ts chunk err Hrel Hlog Hroom) as Hs.
  pose proof Hrel as (Hh & Ha & Ho & Hc & Hb). unfold mem_step, buffers_step in *. fold (is_eof err) in *.
  destruct (list_eq_dec N.eq_dec chunk []) as [->|Hne].
  { cbn [length Nat.eqb andb] in *. rewrite step_empty in *. cbn [o_sent o_next] in *.
    destruct (is_eof err); (split; [reflexivity|]); exists [], (t_pending ts); rewrite app_nil_r; (split; [reflexivity|]); (split; [constructor|]); (split; [|constructor]).
    - discriminate.
    - intros ts' E. injection E as <-. reflexivity. }
  assert (Hnz : (length chunk =? 0)%nat = false) by (destruct chunk; [congruence|reflexivity]). rewrite Hnz in *. cbn [andb] in *.
  unfold tok_room in Hroom. rewrite Hb, <- Hdone in Hroom.
  assert (Hfit : (s_off ms + s_done ms + length chunk <= Z.to_nat read_buffer)%nat) by lia.
  set (arr := array (s_heap ms) (s_arr ms)) in *. set (arr' := put arr (s_off ms + s_done ms) chunk) in *.
  set (h := set_array (s_heap ms) (s_arr ms) arr') in *.
  assert (Hh' : length h = S (s_arr ms)) by (unfold h; rewrite set_array_length; exact Hh).
  assert (Harr : array h (s_arr ms) = arr') by (unfold h; rewrite array_set by lia; rewrite Nat.eqb_refl; reflexivity).
  assert (Hla : length arr' = Z.to_nat read_buffer) by (unfold arr'; rewrite put_length by lia; exact Ha).
  assert (Hdata : contents h {| l_arr := s_arr ms; l_off := s_off ms; l_len := length chunk + s_done ms |} = t_pending ts ++ chunk).
  { rewrite <- Hc. unfold contents. cbn [l_arr l_off l_len]. rewrite Harr. fold arr. unfold arr'. rewrite (Nat.add_comm (length chunk)). apply sub_put; lia. }
  set (n := (length chunk + s_done ms)%nat) in *.
  destruct (buffers_inner_ok (S n) t (is_eof err) h (s_arr ms) (s_off ms) n ltac:(rewrite Harr, Hla; lia)) as (Hm & pieces & tail & Hp & Hf & Hw & Hv).
  rewrite Hdata in Hp.
  destruct (mem_inner (S n) t (is_eof err) h (s_arr ms) (s_off ms) n) as [sent r]. cbn [fst snd] in Hm, Hv.
  assert (Hsent : map fst (s_log ms ++ sent) = map fst (s_log ms) ++ o_sent (tok_step t ts chunk err) -> map fst sent = o_sent (tok_step t ts chunk err)).
  { intros E. rewrite map_app in E. apply app_inv_head in E. exact E. }
  destruct r as [done| |].
  2,3: destruct Hs as (Hs & _ & _ & _ & Hx); split; [rewrite Hm; exact (Hsent Hs)|]; exists pieces, tail; split; [exact Hp|]; split; [exact Hf|]; split;
    [intros ts' E; rewrite E in Hx; contradiction|discriminate].
  destruct (Hv done eq_refl) as [Hle Htail].
  assert (Htl : length tail = done).
  { rewrite Htail. apply contents_length. cbn [l_arr l_off l_len]. rewrite Harr, Hla. lia. }
  rewrite Htl in Hw. destruct (Nat.ltb_spec (length (array h (s_arr ms)) - (s_off ms + (n - done))) 500) as [Hlt|Hge]; cbn [l_len] in *.
  - destruct (Nat.ltb_spec (length (array h (s_arr ms)) - (s_off ms + (n - done))) 500) as [_|]; [|lia].
    destruct Hs as (Hs & _ & _ & _ & Hx). split; [rewrite Hm; exact (Hsent Hs)|]. exists pieces, tail. split; [exact Hp|]. split.
    + cbn [s_heap].
      revert Hf Hw. generalize (buffers_inner (S n) t (is_eof err) h (s_arr ms) (s_off ms) n). clear - Hh'. intros l Hf. induction Hf as [|p x ps xs Hx Hf IH]; intros Hw; constructor.
      * inversion Hw as [|? ? Hw1 _]; subst. destruct t; [exact Hx..|]. apply (frame_at_heap _ h); [|exact Hx]. apply contents_other, array_app_l. destruct (Hw1 eq_refl) as [-> _]. lia.
      * apply IH. inversion Hw; assumption.
    + split.
      * intros ts' E. rewrite E in Hx. destruct (is_eof err); [contradiction|]. destruct Hx as (_ & _ & _ & Hx & _). rewrite <- Hx. cbn [s_heap s_arr s_off s_done].
        rewrite Htail. unfold contents at 1. cbn [l_arr l_off l_len].
        set (fresh := put _ 0 _). unfold array. rewrite app_nth2, Nat.sub_diag by lia. cbn [nth skipn]. unfold fresh, put. cbn [firstn app].
        set (old := {| l_arr := s_arr ms; l_off := _; l_len := _ |}).
        assert (Hcl : length (contents h old) = (Z.to_nat read_buffer - (s_off ms + (n - done)))%nat).
        { rewrite contents_length; unfold old; cbn [l_arr l_off l_len]; rewrite Harr, Hla; lia. }
        rewrite firstn_app. replace (done - length (contents h old))%nat with 0%nat by lia. cbn [firstn]. rewrite app_nil_r.
        unfold contents, old. cbn [l_arr l_off l_len]. rewrite firstn_firstn, Nat.min_l by (rewrite Harr, Hla; lia). reflexivity.
      * intros _ ->. eapply Forall_impl; [|exact Hw]. intros x Hx'. destruct (Hx' eq_refl) as [A B]. left. cbn [s_arr]. lia.
  - destruct (Nat.ltb_spec (length (array h (s_arr ms)) - (s_off ms + (n - done))) 500) as [|_]; [lia|].
    destruct Hs as (Hs & _ & _ & _ & Hx). split; [rewrite Hm; exact (Hsent Hs)|]. exists pieces, tail. split; [exact Hp|]. split; [exact Hf|]. split.
    + intros ts' E. rewrite E in Hx. destruct (is_eof err); [contradiction|]. destruct Hx as (_ & _ & _ & Hx & _). rewrite <- Hx. cbn [s_heap s_arr s_off s_done]. symmetry. exact Htail.
    + intros _ ->. eapply Forall_impl; [|exact Hw]. intros x Hx'. destruct (Hx' eq_refl) as [A B]. right. cbn [s_arr s_off]. auto.
Qed.

(** what no further read changes *)
Lemma run_frozen t reads : forall ms ts, related ms ts -> log_ok ms -> reads_ok t ts reads ->
  forall l, frozen ms l -> contents (s_heap (fst (mem_run t ms reads))) l = contents (s_heap ms) l /\ frozen (fst (mem_run t ms reads)) l.
Proof.
  induction reads as [|[chunk err] more IH]; intros ms ts Hrel Hlog Hok l Hl; cbn [mem_run]; [auto|].
  cbn [reads_ok] in Hok. destruct Hok as [Hroom Hok]. pose proof (mem_step_ok t ms ts chunk err Hrel Hlog Hroom) as Hs.
  destruct (mem_step t ms chunk err) as [ms1 nx]. cbv zeta in Hs. destruct Hs as (_ & (_ & Hlg) & _ & Hfz & Hx). destruct (Hfz l Hl) as [E1 F1].
  destruct nx; cbn [fst]; [|auto..].
  destruct (o_next (tok_step t ts chunk err)) as [ts'| |]; try contradiction.
  destruct (IH ms1 ts' Hx (Hlg ltac:(discriminate)) Hok l F1) as [E2 F2]. rewrite E2. auto.
Qed.

Lemma buffers_run_ok t reads : forall ms ts, related ms ts -> log_ok ms -> reads_ok t ts reads ->
  map fst (buffers_run t ms reads) = o_sent (tok_run t ts reads) /\
  (exists pieces tail, t_pending ts ++ stream reads = concat pieces ++ tail /\
    Forall2 (frame_at t (s_heap (fst (mem_run t ms reads)))) pieces (buffers_run t ms reads)) /\
  (snd (mem_run t ms reads) = MCont -> t = TRFC5425 -> Forall (fun x => frozen (fst (mem_run t ms reads)) (snd x)) (buffers_run t ms reads)).
Proof.
  induction reads as [|[chunk err] more IH]; intros ms ts Hrel Hlog Hok; cbn [mem_run tok_run buffers_run].
  { cbn [o_sent map fst snd]. split; [reflexivity|]. split; [|constructor]. exists [], (t_pending ts). split; [cbn; rewrite app_nil_r; reflexivity|constructor]. }
  cbn [reads_ok] in Hok. destruct Hok as [Hroom Hok]. pose proof (mem_step_ok t ms ts chunk err Hrel Hlog Hroom) as Hs.
  pose proof (buffers_step_ok t ms ts chunk err Hrel Hlog Hroom) as Hbs.
  destruct (mem_step t ms chunk err) as [ms1 nx]. cbv zeta in Hs, Hbs. destruct Hs as (_ & (_ & Hlg) & _ & _ & Hx).
  destruct Hbs as (Hm & pieces & tail & Hp & Hf & Ht & Hfr).
  assert (Hst : stream ((chunk, err) :: more) = chunk ++ stream more) by reflexivity. rewrite Hst.
  destruct nx.
  2,3: rewrite app_nil_r; cbn [fst snd]; destruct (o_next (tok_step t ts chunk err)) eqn:En; try contradiction; rewrite ?En; (split; [exact Hm|]); (split; [|discriminate]);
    exists pieces, (tail ++ stream more); split; [rewrite app_assoc, Hp, <- app_assoc; reflexivity|exact Hf].
  destruct (o_next (tok_step t ts chunk err)) as [ts'| |] eqn:En; try contradiction.
  specialize (Ht ts' eq_refl). specialize (Hlg ltac:(discriminate)).
  destruct (IH ms1 ts' Hx Hlg Hok) as (Hm2 & (pieces2 & tail2 & Hp2 & Hf2) & Hfr2).
  pose proof (run_frozen t more ms1 ts' Hx Hlg Hok) as Hrf.
  split; [cbn [o_sent]; rewrite map_app, Hm, Hm2; reflexivity|]. split.
  - exists (pieces ++ pieces2), tail2. split; [rewrite concat_app, <- app_assoc, <- Hp2, Ht, !app_assoc, Hp; reflexivity|].
    apply Forall2_app; [|exact Hf2]. destruct t; [exact Hf..|]. specialize (Hfr eq_refl eq_refl).
    revert Hf Hfr. generalize (buffers_step TRFC5425 ms chunk err). clear - Hrf. intros l Hf. induction Hf as [|p x ps xs Hx Hf IH]; intros Hfr; constructor.
    + apply (frame_at_heap _ (s_heap ms1)); [|exact Hx]. apply Hrf. inversion Hfr; assumption.
    + apply IH. inversion Hfr; assumption.
  - intros Hc ->. apply Forall_app. split; [|exact (Hfr2 Hc eq_refl)]. eapply Forall_impl; [|exact (Hfr eq_refl eq_refl)]. intros x Hx'. apply Hrf, Hx'.
Qed.

(** Each pair sent has its entry *)
Theorem C117_entries : forall t reads, reads_ok t tok_init reads ->
  map fst (buffers_run t mem_init reads) = o_sent (tok_run t tok_init reads).
Proof. intros t reads Hok. destruct init_related as [Hr Hl]. exact (proj1 (buffers_run_ok t reads mem_init tok_init Hr Hl Hok)). Qed.
Print Assumptions C117_entries.

(** A ParseError is received over RFC 5425 framing only; its Buffer is the payload of one frame of the
    stream, and decoding that payload gives the error.  The bytes of the slice are these at the moment the
    pair is sent, and after any further reads [r2]. *)
Theorem C117_buffer : forall t r1 r2 m pos why b, reads_ok t tok_init (r1 ++ r2) ->
  In ((m, Some (ErrParse pos why)), b) (buffers_run t mem_init r1) ->
  t = TRFC5425 /\
  exists before hdr payload after, stream r1 = before ++ (hdr ++ payload) ++ after /\ length_header hdr /\
    parse payload None true = Val (zero_immutable, None, Some (ErrParse pos why)) /\
    contents (s_heap (fst (mem_run t mem_init r1))) b = payload /\
    contents (s_heap (fst (mem_run t mem_init (r1 ++ r2)))) b = payload.
Proof.
  intros t r1 r2 m pos why b Hok Hin. destruct init_related as [Hr Hl].
  destruct (buffers_run_ok t r1 mem_init tok_init Hr Hl (reads_ok_app _ _ _ _ Hok)) as (_ & (pieces & tail & Hp & Hf) & Hfr).
  assert (Hx : exists a piece c, pieces = a ++ piece :: c /\ frame_at t (s_heap (fst (mem_run t mem_init r1))) piece ((m, Some (ErrParse pos why)), b)).
  { revert Hin. clear - Hf. induction Hf as [|p x ps xs Hx Hf IH]; intros Hin; [contradiction|]. destruct Hin as [->|Hin].
    - exists [], p, ps. auto.
    - destruct (IH Hin) as (a & q & c & -> & H). exists (p :: a), q, c. auto. }
  destruct Hx as (a & piece & c & -> & Hx). assert (Ht : t = TRFC5425) by (destruct t; [discriminate Hx..|reflexivity]). split; [exact Ht|].
  subst t. destruct Hx as (hdr & Hpc & Hh & Hpar). cbn [fst snd] in Hpc, Hpar.
  exists (concat a), hdr, (contents (s_heap (fst (mem_run TRFC5425 mem_init r1))) b), (concat c ++ tail).
  split; [cbn [t_pending tok_init app] in Hp; rewrite Hp, concat_app; cbn [concat]; rewrite Hpc, <- !app_assoc; reflexivity|]. split; [exact Hh|].
  destruct (parse_none_spec (contents (s_heap (fst (mem_run TRFC5425 mem_init r1))) b) true) as (m0 & e0 & H0 & Hs). rewrite Hpar in H0. injection H0 as <- <-. cbn in Hs. subst m.
  split; [exact Hpar|]. split; [reflexivity|].
  pose proof (mem_run_ok TRFC5425 r1 mem_init tok_init Hr Hl (reads_ok_app _ _ _ _ Hok)) as H1. rewrite mem_run_app.
  destruct (mem_run TRFC5425 mem_init r1) as [ms nx]. cbn [fst snd] in *. destruct H1 as (_ & _ & _ & Hag).
  destruct nx; [|reflexivity..].
  unfold agree in Hag. destruct (o_next (tok_run TRFC5425 tok_init r1)) as [ts| |] eqn:En; try contradiction. destruct Hag as [Hr2 Hl2].
  assert (Hok2 : reads_ok TRFC5425 ts r2).
  { clear -Hok En. revert Hok En. generalize tok_init. induction r1 as [|[chunk err] r1 IH]; intros s Hok En; cbn [app reads_ok tok_run] in *.
    - cbn in En. injection En as ->. exact Hok.
    - destruct Hok as [_ Hok]. destruct (o_next (tok_step TRFC5425 s chunk err)) as [s'| |] eqn:E; [exact (IH s' Hok En)|rewrite E in En; discriminate..]. }
  apply (run_frozen TRFC5425 r2 ms ts Hr2 Hl2 Hok2). exact (proj1 (Forall_forall _ _) (Hfr eq_refl eq_refl) _ Hin).
Qed.
Print Assumptions C117_buffer.

(** So the text of the error tells the payload received, whenever it is asked for *)
Theorem C117_text : forall pr t r1 r2 m pos why b, reads_ok t tok_init (r1 ++ r2) ->
  In ((m, Some (ErrParse pos why)), b) (buffers_run t mem_init r1) ->
  exists before hdr payload after, stream r1 = before ++ (hdr ++ payload) ++ after /\ length_header hdr /\
    error_text pr (contents (s_heap (fst (mem_run t mem_init (r1 ++ r2)))) b) (ErrParse pos why) = error_text pr payload (ErrParse pos why) /\
    forall other e, Forall is_byte payload -> Forall is_byte other -> error_text pr other e = error_text pr payload (ErrParse pos why) -> other = payload.
Proof.
  intros pr t r1 r2 m pos why b Hok Hin. destruct (C117_buffer t r1 r2 m pos why b Hok Hin) as (_ & before & hdr & payload & after & H1 & H2 & _ & _ & H5).
  exists before, hdr, payload, after. split; [exact H1|]. split; [exact H2|]. split; [rewrite H5; reflexivity|].
  intros other e Hb1 Hb2 E. symmetry in E. destruct (C100_tells_apart pr payload (ErrParse pos why) other e Hb1 Hb2 E) as [_ Hd]. symmetry. exact (Hd pos why eq_refl).
Qed.
Print Assumptions C117_text.

(** A non-trivial case: a frame whose structured data is missing, then good and bad frames cut by the reads *)
Definition ex_err_reads : list (bytes * option read_err) :=
  [(bs "20 <1>1 2 host app p m ", None); (bs "23 <1>1 - h a p m - hello!!", None); (bs "21 <1>1 - h a p m [", None); (bs "x] t", None); (bs "20 <1>1 - h a p m - one", None)].
Lemma ex_err_ok : reads_ok TRFC5425 tok_init ex_err_reads.
Proof.
  unfold ex_err_reads. cbn [reads_ok].
  repeat (split; [vm_compute; discriminate|]; match goal with |- context [o_next ?x] => let v := eval vm_compute in (o_next x) in replace (o_next x) with v by (vm_compute; reflexivity) end; cbn iota).
  exact I.
Qed.
Example C117_nonvacuous : reads_ok TRFC5425 tok_init ex_err_reads /\
  exists m pos why b, In ((m, Some (ErrParse pos why)), b) (buffers_run TRFC5425 mem_init (firstn 3 ex_err_reads)).
Proof.
  split; [exact ex_err_ok|].
  pose proof (C117_entries TRFC5425 (firstn 3 ex_err_reads) (reads_ok_app _ (firstn 3 ex_err_reads) _ (skipn 3 ex_err_reads) ex_err_ok)) as H.
  assert (E : exists m pos why more, o_sent (tok_run TRFC5425 tok_init (firstn 3 ex_err_reads)) = (m, Some (ErrParse pos why)) :: more)
    by (eexists _, _, _, _; vm_compute; reflexivity).
  destruct E as (m & pos & why & more & E). rewrite E in H. clear E. revert H.
  generalize (buffers_run TRFC5425 mem_init (firstn 3 ex_err_reads)). intros l H. exists m, pos, why.
  destruct l as [|[x b] l]; [discriminate|]. cbn [map fst] in H. exists b. left. f_equal. congruence.
Qed.

(** ** the messages that come with an error *)
Definition parsed (t : transport) (p : pair_t) : Prop := exists data eof r, parse data (Some t) eof = Val (fst p, Some r, snd p).

Lemma inner_parsed fuel : forall t eof data, Forall (parsed t) (fst (tok_inner fuel t eof data)).
Proof.
  induction fuel as [|f IH]; intros t eof data; cbn [tok_inner]; [constructor|].
  destruct (parse data (Some t) eof) as [[[m [r|]] e]| |] eqn:Ep; try constructor.
  assert (H : parsed t (m, e)) by (exists data, eof, r; exact Ep).
  destruct (length r =? 0)%nat; [constructor; [exact H|constructor]|].
  specialize (IH t eof r). destruct (tok_inner f t eof r) as [more x]. constructor; [exact H|exact IH].
Qed.

Lemma step_parsed t st chunk err : Forall (parsed t) (o_sent (tok_step t st chunk err)).
Proof.
  destruct chunk as [|c chunk]; [rewrite step_empty; constructor|].
  pose proof (inner_parsed (S (length (t_pending st ++ c :: chunk))) t (is_eof err) (t_pending st ++ c :: chunk)) as H.
  destruct (tok_inner (S (length (t_pending st ++ c :: chunk))) t (is_eof err) (t_pending st ++ c :: chunk)) as [sent r] eqn:E.
  destruct (step_nonempty t st (c :: chunk) err sent r ltac:(discriminate) E) as [-> _]. exact H.
Qed.

Lemma run_parsed t reads : forall st, Forall (parsed t) (o_sent (tok_run t st reads)).
Proof.
  induction reads as [|[chunk err] more IH]; intros st; cbn [tok_run]; [constructor|].
  pose proof (step_parsed t st chunk err) as H. destruct (o_next (tok_step t st chunk err)) as [st'| |]; [|exact H..].
  cbn [o_sent]. apply Forall_app. split; [exact H|apply IH].
Qed.

(** What a user may call after Receive: with a nil error, every accessor; with an error the message is the
    zero one, whose accessors panic (C18_zero_message), and the transport is RFC 5425. *)
Theorem C18_received : forall t reads m e, In (m, e) (o_sent (tok_run t tok_init reads)) ->
  (e = None -> imm_string m <> [] /\ exists pr ts h a i g tx, imm_priority m = Val pr /\ imm_timestamp m = Val ts /\ imm_hostname m = Val h /\ imm_appname m = Val a /\
    imm_procid m = Val i /\ imm_msgid m = Val g /\ imm_text m = Val tx) /\
  (e <> None -> t = TRFC5425 /\ m = zero_immutable).
Proof.
  intros t reads m e Hin. pose proof (proj1 (Forall_forall _ _) (run_parsed t reads tok_init) _ Hin) as (data & eof & r & Hp). cbn [fst snd] in Hp.
  destruct (parse_carries _ _ _ _ _ _ Hp) as (piece & _ & _ & Hc).
  assert (Hdel : forall c, delimiter t = Some c -> imm_string m <> [] /\ e = None).
  { intros c Ec. unfold carries in Hc. rewrite Ec in Hc. destruct Hc as (A & B & _). auto. }
  assert (Hrfc : delimiter t = None -> t = TRFC5425 /\ match e with None => imm_string m <> [] | Some _ => m = zero_immutable end).
  { intros Ec. unfold carries in Hc. rewrite Ec in Hc. split; [destruct t; [discriminate..|reflexivity]|]. destruct Hc as (hdr & d & _ & _ & Hd). cbn [fst snd] in Hd.
    destruct (parse_none_spec d true) as (m0 & e0 & H0 & Hs). rewrite Hd in H0. injection H0 as <- <-. destruct e; [exact Hs|].
    unfold imm_string. rewrite (proj1 (accepted_text_range _ _ Hs)). intros ->. cbn in Hd. discriminate. }
  split.
  - intros ->. assert (Hne : imm_string m <> []).
    { destruct (delimiter t) as [c|] eqn:Ec; [exact (proj1 (Hdel c eq_refl))|exact (proj2 (Hrfc eq_refl))]. }
    split; [exact Hne|]. exact (C18_accessors_never_panic _ _ _ _ _ _ Hp Hne).
  - intros He. destruct (delimiter t) as [c|] eqn:Ec; [exfalso; exact (He (proj2 (Hdel c eq_refl)))|].
    destruct (Hrfc eq_refl) as [A B]. split; [exact A|]. destruct e; [exact B|congruence].
Qed.
Print Assumptions C18_received.

Theorem C18_zero_fields : imm_appname zero_immutable = Panic /\ imm_procid zero_immutable = Panic /\ imm_msgid zero_immutable = Panic.
Proof. repeat split; reflexivity. Qed.
Print Assumptions C18_zero_fields.
