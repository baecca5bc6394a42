(** PropTokMem.v -- property C35: the bytes of a delivered message never change.  The statements
    are about MTokMem.v (the loop of listener.go tokenize with its arrays), which is shown to refine
    the value model of MTokenize.v used by the other receiver properties. *)
From Verif Require Import Base BaseFacts Spec MPriority MHelpers MText MTime MSData MMessage MTransport MParse MTokenize MTokMem.
From Verif Require Import LPriority LText LAtoi LTime LSData LParse LTransport LRound LResult PropParse PropTransport LTokenize.
From Coq Require Import ZifyBool ZifyNat ZifyN.

(** ** arrays *)
Lemma set_array_length h i a : length (set_array h i a) = length h.
Proof. revert i. induction h as [|x h IH]; intros [|i]; cbn; auto. Qed.

Lemma array_set h i j a : (i < length h)%nat -> array (set_array h i a) j = if (j =? i)%nat then a else array h j.
Proof.
  unfold array. revert i j. induction h as [|x h IH]; intros i j Hi; [cbn in Hi; lia|]. destruct i as [|i], j as [|j]; cbn; try reflexivity.
  apply (IH i j). cbn in Hi. lia.
Qed.

Lemma put_length a o d : (o + length d <= length a)%nat -> length (put a o d) = length a.
Proof. intros H. unfold put. rewrite !app_length, firstn_length, skipn_length. lia. Qed.

Lemma sub_put_before a o d i n : (i + n <= o)%nat -> (o <= length a)%nat -> firstn n (skipn i (put a o d)) = firstn n (skipn i a).
Proof.
  intros H Ho. unfold put. rewrite skipn_app, firstn_length, Nat.min_l by lia. rewrite firstn_app, skipn_length, firstn_length, Nat.min_l by lia.
  replace (n - (o - i))%nat with 0%nat by lia. cbn [firstn]. rewrite app_nil_r. rewrite skipn_firstn_comm, firstn_firstn, Nat.min_l by lia. reflexivity.
Qed.

Lemma sub_put a o d i n : (o <= length a)%nat -> (i + n = o)%nat -> firstn (n + length d) (skipn i (put a o d)) = firstn n (skipn i a) ++ d.
Proof.
  intros Ho Hi. unfold put. rewrite skipn_app, firstn_length, Nat.min_l by lia. rewrite firstn_app, skipn_length, firstn_length, Nat.min_l by lia.
  replace (i - o)%nat with 0%nat by lia. cbn [skipn]. rewrite skipn_firstn_comm. replace (o - i)%nat with n by lia.
  rewrite firstn_firstn, Nat.min_r by lia. replace (n + length d - n)%nat with (length d) by lia. rewrite firstn_app, Nat.sub_diag, firstn_all. cbn. rewrite app_nil_r. reflexivity.
Qed.

Lemma skipn_plus {A} (l : list A) i j : skipn (i + j) l = skipn j (skipn i l).
Proof. revert l. induction i as [|i IH]; intros l; [reflexivity|]. destruct l as [|x l]; [rewrite !skipn_nil; reflexivity|]. cbn. apply IH. Qed.

Lemma contents_length h l : (l_off l + l_len l <= length (array h (l_arr l)))%nat -> length (contents h l) = l_len l.
Proof. intros H. unfold contents. rewrite firstn_length, skipn_length. lia. Qed.

Lemma contents_sub h a i n p s : contents h {| l_arr := a; l_off := i; l_len := n |} = p ++ s -> (i + n <= length (array h a))%nat ->
  contents h {| l_arr := a; l_off := i; l_len := length p |} = p /\
  contents h {| l_arr := a; l_off := i + length p; l_len := length s |} = s.
Proof.
  intros E Hn. pose proof (contents_length h {| l_arr := a; l_off := i; l_len := n |} Hn) as Hl. rewrite E, app_length in Hl. cbn [l_len] in Hl.
  unfold contents in *. cbn [l_arr l_off l_len] in *. split.
  - rewrite <- (Nat.min_l (length p) n) by lia. rewrite <- firstn_firstn, E. apply firstn_app_exact.
  - rewrite skipn_plus. replace (length s) with (n - length p)%nat by lia. rewrite <- skipn_firstn_comm, E. apply skipn_app_exact.
Qed.

(** ** the slice of a message holds the message *)
Lemma message_loc_ok h t a start len eof m r e : (start + len <= length (array h a))%nat ->
  parse (contents h {| l_arr := a; l_off := start; l_len := len |}) (Some t) eof = Val (m, Some r, e) ->
  exists k, (len = k + length r)%nat /\ (0 < k)%nat /\
    contents h {| l_arr := a; l_off := start + k; l_len := length r |} = r /\
    let l := message_loc t a start len r m in
    contents h l = i_buf m /\ l_arr l = a /\ (l_off l + l_len l <= start + k)%nat.
Proof.
  intros Hlen Hp. destruct (parse_carries _ _ _ _ _ _ Hp) as (piece & Hd & Hne & Hc).
  pose proof (contents_length h {| l_arr := a; l_off := start; l_len := len |} Hlen) as Hl. cbn [l_len] in Hl. rewrite Hd, app_length in Hl.
  destruct (contents_sub h a start len piece r Hd Hlen) as [H1 H2]. exists (length piece). split; [lia|]. split; [destruct piece; [congruence|cbn; lia]|].
  split; [exact H2|]. cbv zeta. unfold carries in Hc. cbn [fst snd] in Hc.
  assert (Hdel : forall c, delimiter t = Some c -> piece = i_buf m ++ [c] -> message_loc t a start len r m = {| l_arr := a; l_off := start; l_len := length (i_buf m) |} ->
    contents h (message_loc t a start len r m) = i_buf m /\ l_arr (message_loc t a start len r m) = a /\
    (l_off (message_loc t a start len r m) + l_len (message_loc t a start len r m) <= start + length piece)%nat).
  { intros c _ Ep El. rewrite El. cbn [l_arr l_off l_len]. rewrite Ep in H1. rewrite app_length in H1. split.
    - refine (proj1 (contents_sub h a start (length (i_buf m) + length [c]) (i_buf m) [c] H1 _)). rewrite Ep in Hl. rewrite app_length in Hl. lia.
    - split; [reflexivity|]. rewrite Ep, app_length. cbn. lia. }
  destruct t; cbn [delimiter] in Hc, Hdel; [destruct Hc as (_ & _ & Ep); exact (Hdel _ eq_refl Ep eq_refl)..|].
  destruct Hc as (hdr & d & Ep & _ & Hpar). cbn [message_loc l_arr l_off l_len].
  assert (Hb : i_buf m = d \/ i_buf m = []).
  { destruct (parse_none_spec d true) as (m' & e' & H & Hs). rewrite H in Hpar. injection Hpar as -> ->. destruct e as [e|]; [subst m; right; reflexivity|].
    left. exact (proj1 (accepted_text_range _ _ Hs)). }
  rewrite Ep in H1, Hl. rewrite app_length in H1, Hl.
  split; [|split; [reflexivity|rewrite Ep, app_length; destruct Hb as [->| ->]; cbn [length]; lia]].
  destruct Hb as [->| ->]; [|reflexivity].
  replace (start + len - length r - length d)%nat with (start + length hdr)%nat by lia.
  refine (proj2 (contents_sub h a start (length hdr + length d) hdr d H1 _)). lia.
Qed.

(** ** the inner loop *)
Lemma mem_inner_ok fuel : forall t eof h a start len, (start + len <= length (array h a))%nat ->
  let '(sent, r) := mem_inner fuel t eof h a start len in
  exists r', tok_inner fuel t eof (contents h {| l_arr := a; l_off := start; l_len := len |}) = (map fst sent, r') /\
    (exists k, (k <= len)%nat /\ Forall (fun x => contents h (snd x) = i_buf (fst (fst x)) /\ l_arr (snd x) = a /\ (l_off (snd x) + l_len (snd x) <= start + k)%nat) sent /\
      match r with
      | Val done => (len = k + done)%nat /\ r' = Val (contents h {| l_arr := a; l_off := start + k; l_len := done |})
      | Panic => r' = Panic
      | NoFuel => r' = NoFuel
      end).
Proof.
  induction fuel as [|f IH]; intros t eof h a start len Hlen.
  { cbn [mem_inner tok_inner]. exists NoFuel. split; [reflexivity|]. exists 0%nat. split; [lia|]. split; [constructor|reflexivity]. }
  cbn [mem_inner tok_inner]. set (data := contents h {| l_arr := a; l_off := start; l_len := len |}).
  destruct (parse data (Some t) eof) as [[[m [r|]] e]| |] eqn:Ep.
  - destruct (message_loc_ok h t a start len eof m r e Hlen Ep) as (k & Hk & Hk0 & Hr & Hloc). cbv zeta in Hloc.
    destruct (Nat.eqb_spec (length r) 0) as [E0|E0].
    + apply length_zero_iff_nil in E0 as ->. exists (Val []). split; [reflexivity|]. exists len. split; [lia|]. split.
      * constructor; [|constructor]. cbn [fst snd]. cbn [length] in Hk. replace len with k by lia. replace k with len in Hloc by lia. replace k with len by lia. exact Hloc.
      * split; [lia|]. unfold contents. reflexivity.
    + replace (len - length r)%nat with k by lia.
      specialize (IH t eof h a (start + k)%nat (length r) ltac:(lia)). destruct (mem_inner f t eof h a (start + k) (length r)) as [more q].
      destruct IH as (r' & Hi & k' & Hk' & Hf & Hx). rewrite Hr in Hi. rewrite Hi. exists r'. split; [reflexivity|].
      exists (k + k')%nat. split; [lia|]. split.
      * constructor.
        -- cbn [fst snd]. destruct Hloc as (A & B & C). split; [exact A|]. split; [exact B|]. lia.
        -- eapply Forall_impl; [|exact Hf]. intros x (A & B & C). split; [exact A|]. split; [exact B|]. lia.
      * destruct q as [done| |]; [|exact Hx..]. destruct Hx as [Hx1 Hx2]. split; [lia|]. rewrite Nat.add_assoc. exact Hx2.
  - exists (Val data). split; [reflexivity|]. exists 0%nat. split; [lia|]. split; [constructor|]. split; [lia|]. rewrite Nat.add_0_r. reflexivity.
  - exists Panic. split; [reflexivity|]. exists 0%nat. split; [lia|]. split; [constructor|reflexivity].
  - exists NoFuel. split; [reflexivity|]. exists 0%nat. split; [lia|]. split; [constructor|reflexivity].
Qed.

(** ** invariant *)
Definition frozen (st : mstate) (l : loc) : Prop :=
  (l_arr l < s_arr st)%nat \/ (l_arr l = s_arr st /\ (l_off l + l_len l <= s_off st)%nat).

Definition related (ms : mstate) (ts : tstate) : Prop :=
  length (s_heap ms) = S (s_arr ms) /\ length (array (s_heap ms) (s_arr ms)) = Z.to_nat read_buffer /\
  (s_off ms + s_done ms <= Z.to_nat read_buffer)%nat /\
  contents (s_heap ms) {| l_arr := s_arr ms; l_off := s_off ms; l_len := s_done ms |} = t_pending ts /\
  t_buflen ts = (read_buffer - Z.of_nat (s_off ms))%Z.

Definition log_holds (ms : mstate) : Prop := Forall (fun x => contents (s_heap ms) (snd x) = i_buf (fst (fst x))) (s_log ms).
Definition log_ok (ms : mstate) : Prop :=
  Forall (fun x => contents (s_heap ms) (snd x) = i_buf (fst (fst x)) /\ frozen ms (snd x)) (s_log ms).

Lemma log_ok_holds ms : log_ok ms -> log_holds ms.
Proof. apply Forall_impl. intros x [H _]. exact H. Qed.

Lemma related_done ms ts : related ms ts -> s_done ms = length (t_pending ts).
Proof. intros (_ & Ha & Ho & <- & _). rewrite contents_length; [reflexivity|]. cbn [l_off l_len l_arr]. rewrite Ha. exact Ho. Qed.

Lemma contents_other h h' l : array h' (l_arr l) = array h (l_arr l) -> contents h' l = contents h l.
Proof. unfold contents. intros ->. reflexivity. Qed.

Lemma array_app_l h x a : (a < length h)%nat -> array (h ++ x) a = array h a.
Proof. intros H. unfold array. apply app_nth1, H. Qed.

Lemma mem_step_ok t ms ts chunk err : related ms ts -> log_ok ms -> (Z.of_nat (length chunk) <= tok_room ts)%Z ->
  let '(ms', nx) := mem_step t ms chunk err in
  let o := tok_step t ts chunk err in
  map fst (s_log ms') = map fst (s_log ms) ++ o_sent o /\ (log_holds ms' /\ (nx <> MCrash -> log_ok ms')) /\
  (exists new, s_log ms' = s_log ms ++ new) /\
  (forall l, frozen ms l -> contents (s_heap ms') l = contents (s_heap ms) l /\ frozen ms' l) /\
  match nx, o_next o with
  | MCont, TCont ts' => related ms' ts'
  | MReturn, TReturn _ => True
  | MCrash, TCrash => True
  | _, _ => False
  end.
Proof.
  intros Hrel Hlog Hroom. pose proof (related_done _ _ Hrel) as Hdone.
  pose proof Hrel as (Hh & Ha & Ho & Hc & Hb). unfold mem_step. fold (is_eof err).
  destruct (list_eq_dec N.eq_dec chunk []) as [->|Hne].
  { cbn [length Nat.eqb andb]. rewrite step_empty. cbn [o_sent o_next].
    destruct (is_eof err); rewrite app_nil_r; (split; [reflexivity|]; split; [split; [apply log_ok_holds, Hlog|intros _; exact Hlog]|]; split; [exists []; rewrite app_nil_r; reflexivity|]; split; [auto|]);
      [exact I|exact Hrel]. }
  assert (Hnz : (length chunk =? 0)%nat = false) by (destruct chunk; [congruence|reflexivity]). rewrite Hnz. cbn [andb].
  unfold tok_room in Hroom. rewrite Hb, <- Hdone in Hroom.
  assert (Hfit : (s_off ms + s_done ms + length chunk <= Z.to_nat read_buffer)%nat) by lia.
  set (arr := array (s_heap ms) (s_arr ms)) in *. set (arr' := put arr (s_off ms + s_done ms) chunk).
  set (h := set_array (s_heap ms) (s_arr ms) arr').
  assert (Hh' : length h = S (s_arr ms)) by (unfold h; rewrite set_array_length; exact Hh).
  assert (Harr : array h (s_arr ms) = arr') by (unfold h; rewrite array_set by lia; rewrite Nat.eqb_refl; reflexivity).
  assert (Hla : length arr' = Z.to_nat read_buffer) by (unfold arr'; rewrite put_length by lia; exact Ha).
  assert (Hoth : forall a, a <> s_arr ms -> array h a = array (s_heap ms) a).
  { intros a Hna. unfold h. rewrite array_set by lia. destruct (Nat.eqb_spec a (s_arr ms)); [contradiction|reflexivity]. }
  assert (Hfr : forall l, frozen ms l -> contents h l = contents (s_heap ms) l).
  { intros l [Hl|[Hl1 Hl2]]; [apply contents_other, Hoth; lia|]. unfold contents. rewrite Hl1, Harr. fold arr. unfold arr'. apply sub_put_before; lia. }
  assert (Hdata : contents h {| l_arr := s_arr ms; l_off := s_off ms; l_len := length chunk + s_done ms |} = t_pending ts ++ chunk).
  { rewrite <- Hc. unfold contents. cbn [l_arr l_off l_len]. rewrite Harr. fold arr. unfold arr'. rewrite (Nat.add_comm (length chunk)). apply sub_put; lia. }
  pose proof (mem_inner_ok (S (length chunk + s_done ms)) t (is_eof err) h (s_arr ms) (s_off ms) (length chunk + s_done ms)) as Hi.
  destruct (mem_inner (S (length chunk + s_done ms)) t (is_eof err) h (s_arr ms) (s_off ms) (length chunk + s_done ms)) as [sent r].
  destruct Hi as (r' & Hi & k & Hk & Hf & Hr); [rewrite Harr, Hla; lia|]. rewrite Hdata in Hi.
  replace (S (length chunk + s_done ms)) with (S (length (t_pending ts ++ chunk))) in Hi by (rewrite app_length, Hdone; lia).
  destruct (step_nonempty t ts chunk err _ _ Hne Hi) as [Hsent Hnext].
  assert (both : forall ms' nx, log_ok ms' -> log_holds ms' /\ (nx <> MCrash -> log_ok ms')) by (intros; split; [apply log_ok_holds|]; auto).
  destruct r as [done| |].
  - destruct Hr as [Hkd ->].
    set (off := (s_off ms + (length chunk + s_done ms - done))%nat). assert (Hoff : off = (s_off ms + k)%nat) by (unfold off; lia).
    set (old := {| l_arr := s_arr ms; l_off := off; l_len := length (array h (s_arr ms)) - off |}).
    assert (Hld : length (contents h {| l_arr := s_arr ms; l_off := s_off ms + k; l_len := done |}) = done).
    { rewrite contents_length; [reflexivity|]. cbn [l_arr l_off l_len]. rewrite Harr, Hla. lia. }
    assert (Hbl : (t_buflen ts - Z.of_nat (length (t_pending ts ++ chunk) - length (contents h {| l_arr := s_arr ms; l_off := s_off ms + k; l_len := done |})))%Z = (read_buffer - Z.of_nat off)%Z).
    { rewrite Hld, Hb, app_length, <- Hdone. lia. }
    assert (Hlen : l_len old = (Z.to_nat read_buffer - off)%nat) by (unfold old; cbn [l_len]; rewrite Harr, Hla; reflexivity).
    cbv zeta in Hnext. rewrite Hnext. rewrite Hbl. rewrite Hlen. rewrite Hsent.
    destruct (Nat.ltb_spec (Z.to_nat read_buffer - off) 500) as [Hlt|Hge].
    + destruct (Z.ltb_spec (read_buffer - Z.of_nat off) 500) as [Hlt'|]; [|lia].
      set (fresh := put (repeat 0%N (Z.to_nat read_buffer)) 0 (contents h old)).
      assert (Hcl : length (contents h old) = (Z.to_nat read_buffer - off)%nat).
      { rewrite contents_length; [exact Hlen|]. unfold old. cbn [l_arr l_off l_len]. rewrite Harr, Hla. lia. }
      assert (Hfl : length fresh = Z.to_nat read_buffer) by (unfold fresh; rewrite put_length; rewrite repeat_length; [reflexivity|lia]).
      assert (Hkeep : forall l, (l_arr l <= s_arr ms)%nat -> contents (h ++ [fresh]) l = contents h l).
      { intros l Hl. apply contents_other. apply array_app_l. lia. }
      split; [cbn [s_log]; rewrite map_app; reflexivity|]. split; [|split; [exists sent; reflexivity|split]].
      * apply both. unfold log_ok. cbn [s_log s_heap]. apply Forall_app. split.
        -- eapply Forall_impl; [|exact Hlog]. intros y (Hy & Hz). assert (Hle : (l_arr (snd y) <= s_arr ms)%nat) by (destruct Hz as [Hz|[Hz _]]; lia).
           split; [rewrite Hkeep by exact Hle; rewrite (Hfr _ Hz); exact Hy|]. left. cbn [s_arr]. lia.
        -- eapply Forall_impl; [|exact Hf]. intros y (H1 & H2 & H3). split; [rewrite Hkeep by lia; exact H1|]. left. cbn [s_arr]. lia.
      * intros l Hl. cbn [s_heap]. assert (Hle : (l_arr l <= s_arr ms)%nat) by (destruct Hl as [Hl|[Hl _]]; lia).
        split; [rewrite Hkeep by exact Hle; exact (Hfr _ Hl)|]. left. cbn [s_arr]. lia.
      * destruct (is_eof err); [exact I|]. unfold related. cbn [s_heap s_arr s_off s_done t_pending t_buflen].
        assert (Hnew : array (h ++ [fresh]) (length h) = fresh) by (unfold array; rewrite app_nth2, Nat.sub_diag by lia; reflexivity).
        split; [rewrite app_length; cbn [length]; lia|]. split; [rewrite Hnew; exact Hfl|]. split; [lia|]. split; [|lia].
        unfold contents at 1. cbn [l_arr l_off l_len]. rewrite Hnew. cbn [skipn]. unfold fresh, put. cbn [firstn app].
        rewrite firstn_app. replace (done - length (contents h old))%nat with 0%nat by lia. cbn [firstn]. rewrite app_nil_r.
        unfold contents, old. cbn [l_arr l_off l_len]. rewrite firstn_firstn, Nat.min_l by (rewrite Harr, Hla; lia). rewrite Hoff. reflexivity.
    + destruct (Z.ltb_spec (read_buffer - Z.of_nat off) 500) as [|Hge']; [lia|].
      split; [cbn [s_log]; rewrite map_app; reflexivity|]. split; [|split; [exists sent; reflexivity|split]].
      * apply both. unfold log_ok. cbn [s_log s_heap]. apply Forall_app. split.
        -- eapply Forall_impl; [|exact Hlog]. intros y (Hy & Hz). split; [rewrite (Hfr _ Hz); exact Hy|].
           destruct Hz as [Hz|[Hz1 Hz2]]; [left; exact Hz|right; cbn [s_arr s_off]; split; [exact Hz1|lia]].
        -- eapply Forall_impl; [|exact Hf]. intros y (H1 & H2 & H3). split; [exact H1|]. right. cbn [s_arr s_off]. split; [exact H2|lia].
      * intros l Hl. cbn [s_heap]. split; [exact (Hfr _ Hl)|]. destruct Hl as [Hl|[Hl1 Hl2]]; [left; exact Hl|right; cbn [s_arr s_off]; split; [exact Hl1|lia]].
      * destruct (is_eof err); [exact I|]. unfold related. cbn [s_heap s_arr s_off s_done t_pending t_buflen].
        split; [exact Hh'|]. split; [rewrite Harr; exact Hla|]. split; [lia|]. split; [rewrite Hoff; reflexivity|reflexivity].
  - rewrite Hnext, Hsent. subst r'. split; [cbn [s_log]; rewrite map_app; reflexivity|]. split; [split; [|congruence]|split; [exists sent; reflexivity|split; [|exact I]]].
    + unfold log_holds. cbn [s_log s_heap]. apply Forall_app. split.
      * eapply Forall_impl; [|exact Hlog]. intros y (Hy & Hz). rewrite (Hfr _ Hz). exact Hy.
      * eapply Forall_impl; [|exact Hf]. intros y (H1 & _). exact H1.
    + intros l Hl. split; [exact (Hfr _ Hl)|exact Hl].
  - rewrite Hnext, Hsent. subst r'. split; [cbn [s_log]; rewrite map_app; reflexivity|]. split; [split; [|congruence]|split; [exists sent; reflexivity|split; [|exact I]]].
    + unfold log_holds. cbn [s_log s_heap]. apply Forall_app. split.
      * eapply Forall_impl; [|exact Hlog]. intros y (Hy & Hz). rewrite (Hfr _ Hz). exact Hy.
      * eapply Forall_impl; [|exact Hf]. intros y (H1 & _). exact H1.
    + intros l Hl. split; [exact (Hfr _ Hl)|exact Hl].
Qed.

Lemma init_related : related mem_init tok_init /\ log_ok mem_init.
Proof.
  split; [|constructor]. unfold related, mem_init. cbn [s_heap s_arr s_off s_done t_pending t_buflen tok_init length].
  split; [reflexivity|]. split; [unfold array; cbn [nth]; apply repeat_length|]. split; [lia|]. split; [reflexivity|lia].
Qed.

Definition agree (nx : mem_next) (ms : mstate) (o : tok_next) : Prop :=
  match nx, o with
  | MCont, TCont ts => related ms ts /\ log_ok ms
  | MReturn, TReturn _ => True
  | MCrash, TCrash => True
  | _, _ => False
  end.

Lemma mem_run_ok t reads : forall ms ts, related ms ts -> log_ok ms -> reads_ok t ts reads ->
  let '(ms', nx) := mem_run t ms reads in
  (exists new, s_log ms' = s_log ms ++ new) /\ map fst (s_log ms') = map fst (s_log ms) ++ o_sent (tok_run t ts reads) /\
  log_holds ms' /\ agree nx ms' (o_next (tok_run t ts reads)).
Proof.
  induction reads as [|[chunk err] more IH]; intros ms ts Hrel Hlog Hok; cbn [mem_run tok_run].
  - cbn [o_sent o_next agree]. rewrite app_nil_r. split; [exists []; rewrite app_nil_r; reflexivity|]. split; [reflexivity|]. split; [apply log_ok_holds, Hlog|]. auto.
  - cbn [reads_ok] in Hok. destruct Hok as [Hroom Hok]. pose proof (mem_step_ok t ms ts chunk err Hrel Hlog Hroom) as Hs.
    destruct (mem_step t ms chunk err) as [ms1 nx]. cbv zeta in Hs. destruct Hs as (Hmap & (Hh & Hl) & (new & Hnew) & _ & Hx).
    destruct nx, (o_next (tok_step t ts chunk err)) as [ts'|l|] eqn:En; try contradiction.
    + specialize (IH ms1 ts' Hx (Hl ltac:(discriminate)) Hok). destruct (mem_run t ms1 more) as [ms2 nx]. destruct IH as ((new2 & Hnew2) & Hmap2 & H3 & H4).
      split; [exists (new ++ new2); rewrite Hnew2, Hnew, app_assoc; reflexivity|]. split; [|split; [exact H3|exact H4]].
      rewrite Hmap2, Hmap. cbn [o_sent]. rewrite app_assoc. reflexivity.
    + rewrite En. cbn [agree]. split; [exists new; exact Hnew|]. auto.
    + rewrite En. cbn [agree]. split; [exists new; exact Hnew|]. auto.
Qed.

Lemma mem_run_app t r1 : forall ms r2, mem_run t ms (r1 ++ r2) = match mem_run t ms r1 with (ms', MCont) => mem_run t ms' r2 | x => x end.
Proof.
  induction r1 as [|[chunk err] r1 IH]; intros ms r2; cbn [app mem_run]; [destruct (mem_run t ms r2); reflexivity|].
  destruct (mem_step t ms chunk err) as [ms1 []]; [apply IH|reflexivity..].
Qed.

Lemma reads_ok_app t r1 : forall ts r2, reads_ok t ts (r1 ++ r2) -> reads_ok t ts r1.
Proof.
  induction r1 as [|[chunk err] r1 IH]; intros ts r2 H; cbn [app reads_ok] in *; [exact I|]. destruct H as [H1 H2]. split; [exact H1|].
  destruct (o_next (tok_step t ts chunk err)); [exact (IH _ _ H2)|apply app_eq_nil in H2 as [H2 _]; exact H2..].
Qed.

(** The loop on arrays sends exactly the pairs of the loop on values, and ends the same way *)
Theorem C35_refines : forall t reads, reads_ok t tok_init reads ->
  map fst (s_log (fst (mem_run t mem_init reads))) = o_sent (tok_run t tok_init reads) /\
  match snd (mem_run t mem_init reads) with
  | MCont => exists st, o_next (tok_run t tok_init reads) = TCont st
  | MReturn => exists l, o_next (tok_run t tok_init reads) = TReturn l
  | MCrash => o_next (tok_run t tok_init reads) = TCrash
  end.
Proof.
  intros t reads Hok. destruct init_related as [Hr Hl]. pose proof (mem_run_ok t reads mem_init tok_init Hr Hl Hok) as H.
  destruct (mem_run t mem_init reads) as [ms nx]. destruct H as (_ & H2 & _ & H4). cbn [fst snd]. split; [exact H2|].
  unfold agree in H4. destruct nx, (o_next (tok_run t tok_init reads)); try contradiction; eauto.
Qed.
Print Assumptions C35_refines.

(** A message sent while handling the first reads [r1] still shows the same bytes, in the arrays as
    they are after any further reads [r2] *)
Theorem C35_immutable : forall t r1 r2 m e l, reads_ok t tok_init (r1 ++ r2) ->
  In ((m, e), l) (s_log (fst (mem_run t mem_init r1))) ->
  contents (s_heap (fst (mem_run t mem_init r1))) l = i_buf m /\
  contents (s_heap (fst (mem_run t mem_init (r1 ++ r2)))) l = i_buf m.
Proof.
  intros t r1 r2 m e l Hok Hin. destruct init_related as [Hr Hl].
  pose proof (mem_run_ok t r1 mem_init tok_init Hr Hl (reads_ok_app _ _ _ _ Hok)) as H1.
  pose proof (mem_run_ok t (r1 ++ r2) mem_init tok_init Hr Hl Hok) as H2. rewrite mem_run_app in H2 |- *.
  destruct (mem_run t mem_init r1) as [ms nx]. cbn [fst] in *. destruct H1 as (_ & _ & Hh & Hag).
  pose proof (proj1 (Forall_forall _ _) Hh _ Hin) as Hc. cbn [fst snd] in Hc. split; [exact Hc|].
  destruct nx; [|exact Hc..].
  destruct (mem_run t ms r2) as [ms2 nx2] eqn:E2. cbn [fst]. destruct H2 as (_ & _ & Hh2 & _).
  assert (Hin2 : In ((m, e), l) (s_log ms2)); [|exact (proj1 (Forall_forall _ _) Hh2 _ Hin2)].
  unfold agree in Hag. destruct (o_next (tok_run t tok_init r1)) as [ts| |] eqn:En; try contradiction. destruct Hag as [Hr2 Hl2].
  assert (Hok2 : reads_ok t ts r2).
  { clear -Hok En. revert Hok En. generalize tok_init. induction r1 as [|[chunk err] r1 IH]; intros s Hok En; cbn [app reads_ok tok_run] in *.
    - cbn in En. injection En as ->. exact Hok.
    - destruct Hok as [_ Hok]. destruct (o_next (tok_step t s chunk err)) as [s'| |] eqn:E; [exact (IH s' Hok En)|rewrite E in En; discriminate..]. }
  pose proof (mem_run_ok t r2 ms ts Hr2 Hl2 Hok2) as H3. rewrite E2 in H3. destruct H3 as ((new & Hn) & _). rewrite Hn. apply in_or_app. left; exact Hin.
Qed.
Print Assumptions C35_immutable.

(** A non-trivial case: three messages over four reads, the first two sent before the last reads *)
Definition ex_mem_reads : list (bytes * option read_err) :=
  [(bs "<1>1 - h a p m - one" ++ [LF] ++ bs "<2>1 - h", None); (bs " a p m - two" ++ [LF], None); ([], Some (ROther 1)); (bs "<3>1 - h a p m - three" ++ [LF] ++ bs "<4>1 ", None)].
Lemma ex_mem_ok : reads_ok TLFEnded tok_init ex_mem_reads.
Proof.
  unfold ex_mem_reads. cbn [reads_ok].
  repeat (split; [vm_compute; discriminate|]; match goal with |- context [o_next ?x] => let v := eval vm_compute in (o_next x) in replace (o_next x) with v by (vm_compute; reflexivity) end; cbn iota).
  exact I.
Qed.
Example C35_nonvacuous : reads_ok TLFEnded tok_init ex_mem_reads /\
  length (s_log (fst (mem_run TLFEnded mem_init (firstn 2 ex_mem_reads)))) = 2%nat /\
  length (s_log (fst (mem_run TLFEnded mem_init ex_mem_reads))) = 3%nat.
Proof.
  split; [exact ex_mem_ok|].
  pose proof (reads_ok_app _ (firstn 2 ex_mem_reads) _ (skipn 2 ex_mem_reads) ex_mem_ok) as H2.
  split; rewrite <- (map_length fst).
  - rewrite (proj1 (C35_refines TLFEnded (firstn 2 ex_mem_reads) H2)). vm_compute; reflexivity.
  - rewrite (proj1 (C35_refines TLFEnded ex_mem_reads ex_mem_ok)). vm_compute; reflexivity.
Qed.
