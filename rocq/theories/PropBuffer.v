(** PropBuffer.v -- property C104: the memory of a connection.  Statements about MTokMem.v, the loop of
    listener.go tokenize with its arrays. *)
From Verif Require Import Base BaseFacts Spec MPriority MHelpers MText MTime MSData MMessage MTransport MParse MTokenize MTokMem.
From Verif Require Import LPriority LText LAtoi LTime LSData LParse LTransport LRound LResult PropParse PropTransport LTokenize PropTokMem.
From Coq Require Import ZifyBool ZifyNat ZifyN.

(** One slice lies wholly before another one: in an array allocated earlier, or in the same array and
    ending where the other one starts or before *)
Definition before (l l' : loc) : Prop :=
  (l_arr l < l_arr l')%nat \/ (l_arr l = l_arr l' /\ (l_off l + l_len l <= l_off l')%nat).

(** bytes received by a sequence of reads *)
Definition received (reads : list (bytes * option read_err)) : nat := list_sum (map (fun r => length (fst r)) reads).

(** ** where the slices of one round are *)
Lemma message_loc_start h t a start len eof m r e : (start + len <= length (array h a))%nat ->
  parse (contents h {| l_arr := a; l_off := start; l_len := len |}) (Some t) eof = Val (m, Some r, e) ->
  (start <= l_off (message_loc t a start len r m))%nat.
Proof.
  intros Hlen Hp. destruct (parse_carries _ _ _ _ _ _ Hp) as (piece & Hd & Hne & Hc).
  pose proof (contents_length h {| l_arr := a; l_off := start; l_len := len |} Hlen) as Hl. cbn [l_len] in Hl. rewrite Hd, app_length in Hl.
  destruct t; try (cbn [message_loc l_off]; lia). unfold carries in Hc. cbn [fst snd delimiter] in Hc.
  destruct Hc as (hdr & d & Ep & _ & Hpar). cbn [message_loc l_off].
  assert (Hb : i_buf m = d \/ i_buf m = []).
  { destruct (parse_none_spec d true) as (m' & e' & H & Hs). rewrite H in Hpar. injection Hpar as -> ->. destruct e as [e|]; [subst m; right; reflexivity|].
    left. exact (proj1 (accepted_text_range _ _ Hs)). }
  rewrite Ep, app_length in Hl. destruct Hb as [->| ->]; cbn [length]; lia.
Qed.

Lemma mem_inner_order fuel : forall t eof h a start len, (start + len <= length (array h a))%nat ->
  let '(sent, r) := mem_inner fuel t eof h a start len in
  Forall (fun x => l_arr (snd x) = a /\ (start <= l_off (snd x))%nat) sent /\
  ForallOrdPairs (fun x y : pair_t * loc => before (snd x) (snd y)) sent.
Proof.
  induction fuel as [|f IH]; intros t eof h a start len Hlen; cbn [mem_inner]; [split; constructor|].
  destruct (parse _ (Some t) eof) as [[[m [r|]] e]| |] eqn:Ep; try (split; constructor).
  destruct (message_loc_ok h t a start len eof m r e Hlen Ep) as (k & Hk & Hk0 & Hr & Hloc). cbv zeta in Hloc. destruct Hloc as (_ & Ha & Hle).
  pose proof (message_loc_start h t a start len eof m r e Hlen Ep) as Hs.
  destruct (Nat.eqb_spec (length r) 0) as [E0|E0]; [split; repeat constructor; auto|].
  replace (len - length r)%nat with k by lia.
  specialize (IH t eof h a (start + k)%nat (length r) ltac:(lia)). destruct (mem_inner f t eof h a (start + k) (length r)) as [more q].
  destruct IH as [H1 H2]. split.
  - constructor; [auto|]. eapply Forall_impl; [|exact H1]. intros x [A B]. split; [exact A|lia].
  - constructor; [|exact H2]. eapply Forall_impl; [|exact H1]. intros x [A B]. right. cbn [snd]. rewrite A, Ha. split; [reflexivity|lia].
Qed.

Lemma size_of_array : Z.of_nat (Z.to_nat read_buffer) = 65536%Z.
Proof. rewrite Z2Nat.id; [reflexivity|discriminate]. Qed.

(** ** the invariant *)
Definition mem_ok (ms : mstate) (n : nat) : Prop :=
  length (s_heap ms) = S (s_arr ms) /\ Forall (fun a => Z.of_nat (length a) = 65536%Z) (s_heap ms) /\
  (Z.of_nat (s_off ms) <= 65036)%Z /\ (Z.of_nat (s_off ms + s_done ms) <= 65536)%Z /\
  (65037 * Z.of_nat (s_arr ms) + Z.of_nat (s_off ms + s_done ms) <= Z.of_nat n)%Z /\
  Forall (fun x => (Z.of_nat (l_off (snd x) + l_len (snd x)) <= 65536)%Z /\ before (snd x) {| l_arr := s_arr ms; l_off := s_off ms; l_len := 0 |}) (s_log ms) /\
  ForallOrdPairs (fun x y : pair_t * loc => before (snd x) (snd y)) (s_log ms).

(** what remains true in the state in which the goroutine panicked *)
Definition mem_end (ms : mstate) (n : nat) : Prop :=
  Forall (fun a => Z.of_nat (length a) = 65536%Z) (s_heap ms) /\ (Z.of_nat (s_done ms) <= 65536)%Z /\
  (65037 * Z.of_nat (length (s_heap ms) - 1) <= Z.of_nat n)%Z /\ (1 <= length (s_heap ms))%nat /\
  Forall (fun x => (l_arr (snd x) < length (s_heap ms))%nat /\ (Z.of_nat (l_off (snd x) + l_len (snd x)) <= 65536)%Z) (s_log ms) /\
  ForallOrdPairs (fun x y : pair_t * loc => before (snd x) (snd y)) (s_log ms).

Lemma ok_end ms n : mem_ok ms n -> mem_end ms n.
Proof.
  intros (H1 & H2 & H3 & H4 & H5 & H6 & H7). unfold mem_end. split; [exact H2|]. split; [lia|]. split; [lia|]. split; [lia|]. split; [|exact H7].
  eapply Forall_impl; [|exact H6]. intros x [A B]. split; [|exact A]. unfold before in B. cbn [l_arr] in B. lia.
Qed.

Lemma set_array_forall (P : bytes -> Prop) h i a : Forall P h -> P a -> Forall P (set_array h i a).
Proof. intros Hh Ha. revert i. induction Hh as [|x h Hx Hh IH]; intros [|i]; cbn; constructor; auto. Qed.

Lemma before_trans a b c : before a b -> before b c -> before a c.
Proof. unfold before. lia. Qed.

Lemma ordpairs_app {A} (R : A -> A -> Prop) l1 l2 : ForallOrdPairs R l1 -> ForallOrdPairs R l2 -> (forall x y, In x l1 -> In y l2 -> R x y) ->
  ForallOrdPairs R (l1 ++ l2).
Proof.
  intros H1 H2 H. induction H1 as [|x l1 Hx H1 IH]; [exact H2|]. cbn [app]. constructor.
  - apply Forall_app. split; [exact Hx|]. apply Forall_forall. intros y Hy. apply H; [left; reflexivity|exact Hy].
  - apply IH. intros; apply H; [right|]; assumption.
Qed.

Lemma fresh_array d cap : Z.of_nat cap = 65536%Z -> (length d <= cap)%nat -> Z.of_nat (length (put (repeat 0%N cap) 0 d)) = 65536%Z.
Proof. intros H Hd. rewrite put_length; rewrite repeat_length; [exact H|exact Hd]. Qed.

Lemma mem_step_mem t ms n chunk err : mem_ok ms n -> (Z.of_nat (s_off ms + s_done ms + length chunk) <= 65536)%Z ->
  let '(ms', nx) := mem_step t ms chunk err in
  mem_end ms' (n + length chunk) /\ (nx = MCont -> mem_ok ms' (n + length chunk)).
Proof.
  intros Hok Hfit. pose proof size_of_array as Hcap. pose proof Hok as (Hh & Hall & Hoff & Hod & Hn & Hlog & Hord).
  assert (Hskip : mem_ok ms (n + length chunk)) by (unfold mem_ok; repeat (split; [assumption||lia|]); assumption).
  unfold mem_step. set (cap := Z.to_nat read_buffer) in *. clearbody cap. set (eof := match err with Some REOF => true | _ => false end).
  destruct ((length chunk =? 0)%nat && eof); [split; [apply ok_end; exact Hskip|discriminate]|].
  destruct (length chunk =? 0)%nat; [split; [apply ok_end|intros _]; exact Hskip|].
  assert (Harr0 : length (array (s_heap ms) (s_arr ms)) = cap).
  { apply Nat2Z.inj. rewrite Hcap. unfold array. apply (proj1 (Forall_forall _ _) Hall). apply nth_In. lia. }
  set (arr' := put (array (s_heap ms) (s_arr ms)) (s_off ms + s_done ms) chunk).
  assert (Hla : length arr' = cap) by (unfold arr'; rewrite put_length by lia; exact Harr0).
  set (h := set_array (s_heap ms) (s_arr ms) arr').
  assert (Hh' : length h = S (s_arr ms)) by (unfold h; rewrite set_array_length; exact Hh).
  assert (Hall' : Forall (fun a => Z.of_nat (length a) = 65536%Z) h) by (apply set_array_forall; [assumption|rewrite Hla; exact Hcap]).
  assert (Harr : array h (s_arr ms) = arr') by (unfold h; rewrite array_set by lia; rewrite Nat.eqb_refl; reflexivity).
  assert (Hin : (s_off ms + (length chunk + s_done ms) <= length (array h (s_arr ms)))%nat) by (rewrite Harr, Hla; lia).
  pose proof (mem_inner_ok (S (length chunk + s_done ms)) t eof h (s_arr ms) (s_off ms) (length chunk + s_done ms) Hin) as Hi.
  pose proof (mem_inner_order (S (length chunk + s_done ms)) t eof h (s_arr ms) (s_off ms) (length chunk + s_done ms) Hin) as Ho.
  destruct (mem_inner (S (length chunk + s_done ms)) t eof h (s_arr ms) (s_off ms) (length chunk + s_done ms)) as [sent r].
  destruct Hi as (r' & _ & k & Hk & Hf & Hr). destruct Ho as [Ho1 Ho2].
  assert (Hord' : ForallOrdPairs (fun x y : pair_t * loc => before (snd x) (snd y)) (s_log ms ++ sent)).
  { apply ordpairs_app; [exact Hord|exact Ho2|]. intros x y Hx Hy.
    pose proof (proj1 (Forall_forall _ _) Hlog _ Hx) as [_ Hb]. pose proof (proj1 (Forall_forall _ _) Ho1 _ Hy) as [Hy1 Hy2].
    unfold before in *. cbn [l_arr l_off] in Hb. lia. }
  assert (Hcrash : mem_end {| s_heap := h; s_arr := s_arr ms; s_off := s_off ms; s_done := s_done ms; s_log := s_log ms ++ sent |} (n + length chunk)).
  { unfold mem_end. cbn [s_heap s_done s_log]. split; [exact Hall'|]. split; [lia|]. split; [lia|]. split; [lia|]. split; [|exact Hord'].
    apply Forall_app. split.
    - eapply Forall_impl; [|exact Hlog]. intros x [A B]. split; [|exact A]. unfold before in B. cbn [l_arr] in B. lia.
    - eapply Forall_impl; [|exact Hf]. intros x (_ & A & B). split; [lia|]. lia. }
  destruct r as [done| |]; [|split; [exact Hcrash|discriminate]..].
  destruct Hr as [Hkd _]. cbn [l_len].
  set (off := (s_off ms + (length chunk + s_done ms - done))%nat). assert (Hoffk : off = (s_off ms + k)%nat) by (unfold off; lia).
  rewrite Harr, Hla.
  assert (Hlogn : Forall (fun x : pair_t * loc => (Z.of_nat (l_off (snd x) + l_len (snd x)) <= 65536)%Z /\
      ((l_arr (snd x) < s_arr ms)%nat \/ (l_arr (snd x) = s_arr ms /\ (l_off (snd x) + l_len (snd x) <= off)%nat))) (s_log ms ++ sent)).
  { apply Forall_app. split.
    - eapply Forall_impl; [|exact Hlog]. intros x [A B]. split; [exact A|]. unfold before in B. cbn [l_arr l_off] in B. lia.
    - eapply Forall_impl; [|exact Hf]. intros x (_ & A & B). split; lia. }
  assert (Hdl : forall l, (length (contents h l) <= l_len l)%nat) by (intros l; unfold contents; rewrite firstn_length; lia).
  destruct (Nat.ltb_spec (cap - off) 500) as [Hlt|Hge].
  - assert (Hres : mem_ok {| s_heap := h ++ [put (repeat 0%N (cap)) 0 (contents h {| l_arr := s_arr ms; l_off := off; l_len := cap - off |})];
        s_arr := length h; s_off := 0; s_done := done; s_log := s_log ms ++ sent |} (n + length chunk)).
    { unfold mem_ok. cbn [s_heap s_arr s_off s_done s_log]. rewrite app_length. cbn [length]. split; [lia|]. split.
      - apply Forall_app. split; [exact Hall'|]. constructor; [|constructor]. apply fresh_array; [exact Hcap|].
        eapply Nat.le_trans; [apply Hdl|]. cbn [l_len]. lia.
      - split; [lia|]. split; [lia|]. split; [lia|]. split; [|exact Hord'].
        eapply Forall_impl; [|exact Hlogn]. intros x [A B]. split; [exact A|]. unfold before. cbn [l_arr l_off]. lia. }
    destruct eof; (split; [apply ok_end; exact Hres|]); [discriminate|intros _; exact Hres].
  - assert (Hres : mem_ok {| s_heap := h; s_arr := s_arr ms; s_off := off; s_done := done; s_log := s_log ms ++ sent |} (n + length chunk)).
    { unfold mem_ok. cbn [s_heap s_arr s_off s_done s_log]. split; [exact Hh'|]. split; [exact Hall'|]. split; [lia|]. split; [lia|]. split; [lia|].
      split; [|exact Hord']. eapply Forall_impl; [|exact Hlogn]. intros x [A B]. split; [exact A|]. unfold before. cbn [l_arr l_off]. lia. }
    destruct eof; (split; [apply ok_end; exact Hres|]); [discriminate|intros _; exact Hres].
Qed.

Lemma end_mono ms n m : (n <= m)%nat -> mem_end ms n -> mem_end ms m.
Proof. intros H (H1 & H2 & H3 & H4). split; [exact H1|]. split; [exact H2|]. split; [lia|]. exact H4. Qed.

Lemma mem_run_mem t reads : forall ms ts n, related ms ts -> log_ok ms -> mem_ok ms n -> reads_ok t ts reads ->
  mem_end (fst (mem_run t ms reads)) (n + received reads).
Proof.
  induction reads as [|[chunk err] more IH]; intros ms ts n Hrel Hlog Hok Hr; cbn [mem_run].
  { cbn [fst]. apply ok_end. unfold received. cbn. rewrite Nat.add_0_r. exact Hok. }
  cbn [reads_ok] in Hr. destruct Hr as [Hroom Hr]. pose proof (mem_step_ok t ms ts chunk err Hrel Hlog Hroom) as Hs.
  assert (Hfit : (Z.of_nat (s_off ms + s_done ms + length chunk) <= 65536)%Z).
  { pose proof (related_done _ _ Hrel) as Hd. destruct Hrel as (_ & _ & Ho & _ & Hb). unfold tok_room in Hroom. rewrite Hb, <- Hd in Hroom.
    change read_buffer with 65536%Z in Hroom. lia. }
  pose proof (mem_step_mem t ms n chunk err Hok Hfit) as Hm.
  assert (Erec : received ((chunk, err) :: more) = (length chunk + received more)%nat) by reflexivity.
  destruct (mem_step t ms chunk err) as [ms1 nx]. cbv zeta in Hs. destruct Hs as (_ & (_ & Hl) & _ & _ & Hx). destruct Hm as [Hm1 Hm2].
  destruct nx; cbn [fst]; try (eapply end_mono; [|exact Hm1]; lia).
  destruct (o_next (tok_step t ts chunk err)) as [ts'| |]; try contradiction.
  rewrite Erec, Nat.add_assoc. exact (IH ms1 ts' _ Hx (Hl ltac:(discriminate)) (Hm2 eq_refl) Hr).
Qed.

Lemma init_mem_ok : mem_ok mem_init 0.
Proof.
  unfold mem_ok, mem_init. cbn [s_heap s_arr s_off s_done s_log length]. split; [reflexivity|]. split; [constructor; [rewrite repeat_length; exact size_of_array|constructor]|].
  split; [lia|]. split; [lia|]. split; [lia|]. split; constructor.
Qed.

Lemma run_mem t reads : reads_ok t tok_init reads -> mem_end (fst (mem_run t mem_init reads)) (received reads).
Proof. intros H. destruct init_related as [Hr Hl]. exact (mem_run_mem t reads mem_init tok_init 0 Hr Hl init_mem_ok H). Qed.

(** ** C104 *)
(** Whatever a peer sends, in whatever pieces, the arrays allocated for its connection have 65536 bytes
    each, and one more than the first is allocated only after another 65037 bytes have been received;
    what is kept unread for the next round fits in one of them. *)
Theorem C104_memory : forall t reads, reads_ok t tok_init reads ->
  let st := fst (mem_run t mem_init reads) in
  Forall (fun a => Z.of_nat (length a) = 65536%Z) (s_heap st) /\
  (1 <= Z.of_nat (length (s_heap st)) <= 1 + Z.of_nat (received reads) / 65037)%Z /\
  (Z.of_nat (s_done st) <= 65536)%Z.
Proof.
  intros t reads Hok st. destruct (run_mem t reads Hok) as (H1 & H2 & H3 & H4 & _). fold st in H1, H2, H3, H4.
  split; [exact H1|]. split; [|exact H2]. split; [lia|].
  assert (Z.of_nat (length (s_heap st) - 1) <= Z.of_nat (received reads) / 65037)%Z by (apply Z.div_le_lower_bound; lia). lia.
Qed.
Print Assumptions C104_memory.

(** Every delivered message is a slice inside one of these arrays, so its text has at most 65536 bytes;
    and the slices of two messages delivered one after the other never overlap. *)
Theorem C104_disjoint : forall t reads, reads_ok t tok_init reads ->
  let st := fst (mem_run t mem_init reads) in
  Forall (fun x => (l_arr (snd x) < length (s_heap st))%nat /\ (Z.of_nat (l_off (snd x) + l_len (snd x)) <= 65536)%Z) (s_log st) /\
  ForallOrdPairs (fun x y : pair_t * loc => before (snd x) (snd y)) (s_log st).
Proof. intros t reads Hok st. destruct (run_mem t reads Hok) as (_ & _ & _ & _ & H5 & H6). split; assumption. Qed.
Print Assumptions C104_disjoint.

(** Consequence on the messages alone: nothing longer than 65536 bytes is ever delivered. *)
Theorem C104_longest : forall t reads m e, reads_ok t tok_init reads ->
  In (m, e) (o_sent (tok_run t tok_init reads)) -> (Z.of_nat (length (i_buf m)) <= 65536)%Z.
Proof.
  intros t reads m e Hok Hin. rewrite <- (proj1 (C35_refines t reads Hok)) in Hin. apply in_map_iff in Hin as ([p l] & E & Hin). cbn [fst] in E. subst p.
  destruct (C35_immutable t reads [] m e l) as [Hc _]; [rewrite app_nil_r; exact Hok|exact Hin|]. rewrite <- Hc.
  destruct (run_mem t reads Hok) as (_ & _ & _ & _ & H5 & _). pose proof (proj1 (Forall_forall _ _) H5 _ Hin) as [_ Hl]. cbn [snd] in Hl.
  unfold contents. rewrite firstn_length. lia.
Qed.
Print Assumptions C104_longest.

(** A non-trivial case in which the bounds are reached: a line of 65037 bytes, its delimiter included,
    makes the second array necessary; the message that follows is a slice of it. *)
Definition ex_buffer : list (bytes * option read_err) :=
  [(bs "<1>1 - h a p m - " ++ repeat 97%N (Z.to_nat 65019) ++ [LF], None); (bs "<2>1 - h a p m - two" ++ [LF], None)].

Lemma ex_buffer_ok : reads_ok TLFEnded tok_init ex_buffer.
Proof.
  unfold ex_buffer. cbn [reads_ok]. split; [vm_compute; discriminate|].
  assert (E : match o_next (tok_step TLFEnded tok_init (bs "<1>1 - h a p m - " ++ repeat 97%N (Z.to_nat 65019) ++ [LF]) None) with TCont st => Some (t_buflen st, t_pending st) | _ => None end = Some (65536%Z, [])) by (vm_compute; reflexivity).
  destruct (o_next _) as [[pd bl]| |]; [|discriminate E..]. cbn in E. injection E as -> ->.
  split; [vm_compute; discriminate|]. destruct (o_next _) as [| |] eqn:E; [exact I|vm_compute in E; discriminate..].
Qed.

Example C104_nonvacuous : reads_ok TLFEnded tok_init ex_buffer /\
  let st := fst (mem_run TLFEnded mem_init ex_buffer) in
  length (s_heap st) = 2%nat /\ map (fun x => l_arr (snd x)) (s_log st) = [0; 1]%nat.
Proof. split; [exact ex_buffer_ok|]. split; vm_compute; reflexivity. Qed.
