(** PropRecvLive.v -- C94: liveness of a Receiver. *)
From Verif Require Import Base BaseFacts MTransport MParse MTokenize LTokenize PropTransport PropReceiver MReceiver LReceiver PropRecvSys.

(** What comes from outside: End is called, Accept or a Read returns.  Everything else is the progress
    of the goroutines on what they have got, or the user calling Receive and reading the errors. *)
Definition outside (a : raction) : bool := match a with REndCall | RAccepted _ _ | KReadReturns _ _ _ => true | _ => false end.

(** how many calls of Receive have returned false *)
Definition refused (s : rstate) : nat := length (filter (fun x => match x with None => true | _ => false end) (r_got s)).

(** Nothing is left to do: whatever step is possible is from outside, or a Receive that returns false. *)
Definition at_rest (t : transport) (cap : nat) (s : rstate) : Prop :=
  forall a s', outside a = false -> rstep t cap s a = Some s' -> r_got s' = r_got s ++ [None].

(** Everything that was read and accepted has reached the user. *)
Definition all_delivered (t : transport) (acts : list raction) (s : rstate) : Prop :=
  (forall i, pairs_of i (received s) = o_sent (tok_run t tok_init (reads_of i acts))) /\
  (forall i, errors_of (Some i) (r_goterr s) = o_errs (tok_run t tok_init (reads_of i acts))) /\
  errors_of None (r_goterr s) = accept_errors acts.

(** ** a potential *)
Definition kload (k : kpc) : nat := match k with KNil => 1 | KEmit errs pairs _ => 2 * length errs + 2 * length pairs + 1 | _ => 0 end.
Definition kloads (l : list kpc) : nat := list_sum (map kload l).
Definition load (s : rstate) : nat :=
  if r_crashed s then 0 else
  ((match r_pc s with RSelect => if r_end s then 3 else 1 | RAccept | RDone => 0 | RSendErr _ _ => 6 | RClosePipe => 2 | RCloseListener => 1 end)
   + length (r_queue s) + length (r_errq s) + kloads (r_conns s))%nat.

Lemma kloads_set l : forall i k k', nth_error l i = Some k -> (kloads (set_nth l i k') + kload k = kloads l + kload k')%nat.
Proof.
  unfold kloads. induction l as [|x l IH]; intros [|i] k k' H; try discriminate; cbn [set_nth map list_sum nth_error] in *.
  - injection H as ->. change (list_sum (kload k' :: map kload l)) with (kload k' + list_sum (map kload l))%nat.
    change (list_sum (kload k :: map kload l)) with (kload k + list_sum (map kload l))%nat. lia.
  - specialize (IH i k k' H). change (list_sum (kload x :: map kload (set_nth l i k'))) with (kload x + list_sum (map kload (set_nth l i k')))%nat.
    change (list_sum (kload x :: map kload l)) with (kload x + list_sum (map kload l))%nat. lia.
Qed.
Lemma kloads_snoc l k : kloads (l ++ [k]) = (kloads l + kload k)%nat.
Proof. unfold kloads. rewrite map_app, list_sum_app. cbn. lia. Qed.
Lemma refused_some g x : length (filter (fun x : option (nat * pair_t) => match x with None => true | _ => false end) (g ++ [Some x])) =
  length (filter (fun x : option (nat * pair_t) => match x with None => true | _ => false end) g).
Proof. rewrite filter_app. cbn. rewrite app_nil_r. reflexivity. Qed.
Lemma refused_none g : length (filter (fun x : option (nat * pair_t) => match x with None => true | _ => false end) (g ++ [None])) =
  S (length (filter (fun x : option (nat * pair_t) => match x with None => true | _ => false end) g)).
Proof. rewrite filter_app, app_length. cbn. lia. Qed.

Ltac rn := cbn [r_pc r_end r_queue r_closed r_lclosed r_errq r_conns r_got r_goterr r_crashed with_pc with_conn spawn with_errq with_queue crash].

Lemma load_step t cap s a s' : rstep t cap s a = Some s' -> outside a = false -> (load s' + 1 + refused s <= load s + refused s')%nat.
Proof.
  intros Hs Ho. unfold rstep in Hs. destruct (r_crashed s) eqn:Hc; [discriminate|]. unfold load at 2. rewrite Hc.
  destruct a; try discriminate Ho; clear Ho.
  - destruct (r_pc s) eqn:Ep; try discriminate. injection Hs as <-. unfold load, refused. rn. rewrite ?Hc. destruct (r_end s); rn; rewrite ?Hc; lia.
  - destruct (r_pc s) eqn:Ep; try discriminate. destruct (Nat.ltb_spec (length (r_errq s)) err_cap); [|discriminate]. injection Hs as <-. unfold load, refused. rn. rewrite Hc, app_length, kloads_snoc. cbn [length].
    destruct conn, (r_end s); cbn [kload]; lia.
  - destruct (r_pc s) eqn:Ep; try discriminate. injection Hs as <-. unfold load, refused. rn. lia.
  - destruct (r_pc s) eqn:Ep; try discriminate. injection Hs as <-. unfold load, refused. rn. lia.
  - destruct (nth_error (r_conns s) i) as [k|] eqn:En; [|discriminate]. destruct k; try discriminate. injection Hs as <-. pose proof (kloads_set _ _ _ KDone En) as Hk. cbn [kload] in Hk. unfold load, refused. rn. lia.
  - destruct (nth_error (r_conns s) i) as [k|] eqn:En; [|discriminate]. destruct k as [| |[|e errs] pairs next|]; try discriminate. destruct (Nat.ltb_spec (length (r_errq s)) err_cap); [|discriminate]. injection Hs as <-.
    pose proof (kloads_set _ _ _ (KEmit errs pairs next) En) as Hk. cbn [kload length] in Hk. unfold load, refused. rn. rewrite Hc, app_length. cbn [length]. lia.
  - destruct (nth_error (r_conns s) i) as [k|] eqn:En; [|discriminate]. destruct k as [| |[|e errs] [|p pairs] next|]; try discriminate. destruct (r_closed s).
    + injection Hs as <-. pose proof (kloads_set _ _ _ KDone En) as Hk. cbn [kload length] in Hk. unfold load, refused. rn. lia.
    + destruct (Nat.ltb_spec (length (r_queue s)) cap); [|discriminate]. injection Hs as <-.
      pose proof (kloads_set _ _ _ (KEmit [] pairs next) En) as Hk. cbn [kload length] in Hk. unfold load, refused. rn. rewrite Hc, app_length. cbn [length]. lia.
  - destruct (nth_error (r_conns s) i) as [k|] eqn:En; [|discriminate]. destruct k as [| |[|e errs] [|p pairs] next|]; try discriminate. injection Hs as <-.
    destruct next as [st|b|]; [pose proof (kloads_set _ _ _ (KRead st) En) as Hk|pose proof (kloads_set _ _ _ KDone En) as Hk|pose proof (kloads_set _ _ _ KDone En) as Hk];
      cbn [kload length] in Hk; unfold load, refused; rn; rewrite ?Hc; lia.
  - destruct (r_queue s) as [|x q] eqn:Eq.
    + destruct (r_closed s); [|discriminate]. injection Hs as <-. unfold load, refused. rn. rewrite Hc, refused_none. cbn [length]. lia.
    + injection Hs as <-. unfold load, refused. rn. rewrite Hc, refused_some. cbn [length]. lia.
  - destruct (nth_error (r_conns s) i) as [k|] eqn:En; [|discriminate]. destruct k as [| |[|e errs] [|p pairs] next|]; try discriminate. destruct (r_closed s); [discriminate|].
    destruct (Nat.eqb_spec (length (r_queue s)) 0); [|discriminate]. injection Hs as <-.
    pose proof (kloads_set _ _ _ (KEmit [] pairs next) En) as Hk. cbn [kload length] in Hk. unfold load, refused. rn. rewrite Hc, refused_some. cbn [length]. lia.
  - destruct (r_errq s) as [|e q] eqn:Eq; [discriminate|]. injection Hs as <-. unfold load, refused. rn. rewrite ?Hc. cbn [length]. lia.
Qed.

Lemma load_run t cap more : forall s s', rrun t cap s more = Some s' -> (forall a, In a more -> outside a = false) ->
  (load s' + length more + refused s <= load s + refused s')%nat.
Proof.
  induction more as [|a more IH]; intros s s' H Ho; cbn [rrun] in H; [injection H as <-; cbn; lia|].
  destruct (rstep t cap s a) as [s1|] eqn:Es; [|discriminate]. pose proof (load_step _ _ _ _ _ Es (Ho a (or_introl eq_refl))).
  specialize (IH s1 s' H (fun b Hb => Ho b (or_intror Hb))). cbn [length]. lia.
Qed.

(** Nothing spins: from any state of any execution there is a bound on the number of steps, other than
    Receives that return false, until something comes from outside. *)
Theorem C94_bounded_work : forall t cap acts s, rrun t cap receiver_init acts = Some s ->
  exists n, forall more s', rrun t cap s more = Some s' -> (forall a, In a more -> outside a = false) ->
    (length more <= n + (refused s' - refused s))%nat.
Proof. intros t cap acts s _. exists (load s). intros more s' H Ho. pose proof (load_run _ _ _ _ _ H Ho). lia. Qed.
Print Assumptions C94_bounded_work.

Lemma rest_shape t cap s : r_crashed s = false -> at_rest t cap s -> (length (r_queue s) <= cap)%nat ->
  (forall i k, nth_error (r_conns s) i = Some k -> match k with KRead _ | KDone => True | _ => False end) /\
  r_queue s = [] /\ r_errq s = [] /\ (r_pc s = RAccept \/ r_pc s = RDone).
Proof.
  intros Hc Hr Hcap.
  assert (Hno : forall (l : list (option (nat * pair_t))), l = l ++ [None] -> False).
  { intros l E. apply (f_equal (@length _)) in E. rewrite app_length in E. cbn in E. lia. }
  assert (Hq : r_queue s = []).
  { destruct (r_queue s) as [|x q] eqn:Eq; [reflexivity|]. exfalso. assert (Es : rstep t cap s RReceive = Some (with_queue s q (r_got s ++ [Some x]))) by (unfold rstep; rewrite Hc, Eq; reflexivity).
    specialize (Hr RReceive _ eq_refl Es). cbn [with_queue r_got] in Hr. apply app_inv_head in Hr. discriminate. }
  assert (He : r_errq s = []).
  { destruct (r_errq s) as [|x q] eqn:Eq; [reflexivity|]. exfalso. pose proof (fun s1 => Hr RUserErr s1 eq_refl) as Hz. clear Hr. rename Hz into Hr. unfold rstep in Hr. rewrite Hc, Eq in Hr. specialize (Hr _ eq_refl). cbn [r_got] in Hr. exact (Hno _ Hr). }
  split; [|split; [exact Hq|split; [exact He|]]].
  - intros i k En. destruct k as [|st|[|e errs] [|p pairs] next|]; try exact I.
    + specialize (Hr (KStart i) (crash s) eq_refl). unfold rstep in Hr. rewrite Hc, En in Hr. exact (Hno _ (Hr eq_refl)).
    + specialize (Hr (KNextTurn i) (match next with TCont st => with_conn s i (KRead st) | TReturn _ => with_conn s i KDone | TCrash => crash s end) eq_refl).
      unfold rstep in Hr. rewrite Hc, En in Hr. specialize (Hr eq_refl). destruct next; exact (Hno _ Hr).
    + destruct (r_closed s) eqn:Ecl.
      * specialize (Hr (KPush i) (crash s) eq_refl). unfold rstep in Hr. rewrite Hc, En, Ecl in Hr. exact (Hno _ (Hr eq_refl)).
      * pose proof (Hr (RHandoff i) (with_conn (with_queue s [] (r_got s ++ [Some (i, p)])) i (KEmit [] pairs next)) eq_refl) as H1.
        unfold rstep in H1. rewrite Hc, En, Ecl, Hq in H1. cbn [length Nat.eqb] in H1. specialize (H1 eq_refl). cbn [with_conn with_queue r_got] in H1. apply app_inv_head in H1. discriminate.
    + specialize (Hr (KPushErr i) (with_conn (with_errq s (r_errq s ++ [(Some i, e)])) i (KEmit errs [] next)) eq_refl).
      unfold rstep in Hr. rewrite Hc, En, He in Hr. specialize (Hr eq_refl). cbn [with_conn with_errq r_got] in Hr. exact (Hno _ Hr).
    + specialize (Hr (KPushErr i) (with_conn (with_errq s (r_errq s ++ [(Some i, e)])) i (KEmit errs (p :: pairs) next)) eq_refl).
      unfold rstep in Hr. rewrite Hc, En, He in Hr. specialize (Hr eq_refl). cbn [with_conn with_errq r_got] in Hr. exact (Hno _ Hr).
  - destruct (r_pc s) eqn:Ep; auto; exfalso.
    + pose proof (fun s1 => Hr RStepSelect s1 eq_refl) as Hz. clear Hr. rename Hz into Hr. unfold rstep in Hr. rewrite Hc, Ep in Hr. specialize (Hr _ eq_refl). exact (Hno _ Hr).
    + pose proof (fun s1 => Hr RPushErr s1 eq_refl) as Hz. clear Hr. rename Hz into Hr. unfold rstep in Hr. rewrite Hc, Ep, He in Hr. specialize (Hr _ eq_refl). exact (Hno _ Hr).
    + pose proof (fun s1 => Hr RStepClosePipe s1 eq_refl) as Hz. clear Hr. rename Hz into Hr. unfold rstep in Hr. rewrite Hc, Ep in Hr. specialize (Hr _ eq_refl). exact (Hno _ Hr).
    + pose proof (fun s1 => Hr RStepCloseListener s1 eq_refl) as Hz. clear Hr. rename Hz into Hr. unfold rstep in Hr. rewrite Hc, Ep in Hr. specialize (Hr _ eq_refl). exact (Hno _ Hr).
Qed.

Lemma room_step t st chunk err st' : (0 <= tok_room st)%Z -> (Z.of_nat (length chunk) <= tok_room st)%Z -> o_next (tok_step t st chunk err) = TCont st' -> (0 <= tok_room st')%Z.
Proof.
  intros H0 Hr Hn. destruct chunk as [|c chunk].
  - rewrite step_empty in Hn. cbn [o_next] in Hn. destruct (is_eof err); [discriminate|]. injection Hn as <-. exact H0.
  - set (ch := c :: chunk) in *. destruct (tok_inner (S (length (t_pending st ++ ch))) t (is_eof err) (t_pending st ++ ch)) as [sent r] eqn:Ei.
    destruct (step_nonempty t st ch err sent r ltac:(discriminate) Ei) as [_ H2]. rewrite H2 in Hn.
    pose proof (inner_spec _ t (is_eof err) (t_pending st ++ ch) (Nat.lt_succ_diag_r _)) as H. rewrite Ei in H.
    destruct H as (pieces & left & Hd & _ & Hx). destruct r as [d| |]; try discriminate. destruct Hx as [-> _]. destruct (is_eof err); [discriminate|]. injection Hn as <-.
    unfold tok_room in *. cbn [t_pending t_buflen]. apply (f_equal (@length _)) in Hd. rewrite Hd. rewrite !app_length in *. unfold read_buffer. cbv zeta.
    match goal with |- context [(?b <? 500)%Z] => destruct (Z.ltb_spec b 500) end; lia.
Qed.

Record live_inv (s : rstate) : Prop := {
  li_end : match r_pc s with RClosePipe | RCloseListener | RDone => r_end s = true | _ => True end;
  li_room : forall i k, nth_error (r_conns s) i = Some k -> match k with KRead st | KEmit _ _ (TCont st) => (0 <= tok_room st)%Z | _ => True end }.

Lemma live_set l i k0 k : nth_error l i = Some k0 ->
  (forall i k, nth_error l i = Some k -> match k with KRead st | KEmit _ _ (TCont st) => (0 <= tok_room st)%Z | _ => True end) ->
  match k with KRead st | KEmit _ _ (TCont st) => (0 <= tok_room st)%Z | _ => True end ->
  forall j k', nth_error (set_nth l i k) j = Some k' -> match k' with KRead st | KEmit _ _ (TCont st) => (0 <= tok_room st)%Z | _ => True end.
Proof.
  intros H0 Hl Hk j k' Hj. destruct (Nat.eq_dec i j) as [->|Hn].
  - rewrite (nth_set_same _ _ _ _ H0) in Hj. injection Hj as <-. exact Hk.
  - rewrite nth_set_other in Hj by exact Hn. exact (Hl j k' Hj).
Qed.

Lemma live_step t cap s a s' : live_inv s -> rstep t cap s a = Some s' -> live_inv s'.
Proof.
  intros [He Hl] Hs. unfold rstep in Hs. destruct (r_crashed s); [discriminate|]. destruct a.
  - injection Hs as <-. destruct (r_end s) eqn:Ee; constructor; rn; [rewrite Ee; exact He|exact Hl|destruct (r_pc s); auto|exact Hl].
  - destruct (r_pc s); try discriminate. injection Hs as <-. constructor; rn; [|exact Hl]. destruct (r_end s); auto.
  - destruct (r_pc s); try discriminate. injection Hs as <-. destruct err; constructor; rn; try exact I; [exact Hl|].
    intros i k Hi. rewrite nth_app_one in Hi. destruct (i =? length (r_conns s))%nat; [|exact (Hl i k Hi)]. injection Hi as <-. destruct conn; [vm_compute; discriminate|exact I].
  - destruct (r_pc s); try discriminate. destruct (length (r_errq s) <? err_cap)%nat; [|discriminate]. injection Hs as <-. constructor; rn; try exact I.
    intros i k Hi. rewrite nth_app_one in Hi. destruct (i =? length (r_conns s))%nat; [|exact (Hl i k Hi)]. injection Hi as <-. destruct conn; [vm_compute; discriminate|exact I].
  - destruct (r_pc s); try discriminate. injection Hs as <-. constructor; rn; [exact He|exact Hl].
  - destruct (r_pc s); try discriminate. injection Hs as <-. constructor; rn; [exact He|exact Hl].
  - destruct (nth_error (r_conns s) i) as [[| | |]|]; try discriminate. injection Hs as <-. constructor; rn; [exact He|exact Hl].
  - destruct (nth_error (r_conns s) i) as [k|] eqn:En; [|discriminate]. destruct k as [|st| |]; try discriminate. destruct (Z.leb_spec (Z.of_nat (length chunk)) (tok_room st)) as [Hle|]; [|discriminate].
    cbv zeta in Hs. injection Hs as <-. constructor; rn; [exact He|]. apply (live_set _ _ _ _ En Hl). destruct (o_next (tok_step t st chunk err)) eqn:En'; try exact I.
    apply (room_step t st chunk err); [exact (Hl _ _ En)|exact Hle|exact En'].
  - destruct (nth_error (r_conns s) i) as [k|] eqn:En; [|discriminate]. destruct k as [| |[|e errs] pairs next|]; try discriminate. destruct (length (r_errq s) <? err_cap)%nat; [|discriminate].
    injection Hs as <-. constructor; rn; [exact He|]. apply (live_set _ _ _ _ En Hl). exact (Hl _ _ En).
  - destruct (nth_error (r_conns s) i) as [k|] eqn:En; [|discriminate]. destruct k as [| |[|e errs] [|p pairs] next|]; try discriminate. destruct (r_closed s); [injection Hs as <-; constructor; rn; [exact He|exact Hl]|].
    destruct (length (r_queue s) <? cap)%nat; [|discriminate]. injection Hs as <-. constructor; rn; [exact He|]. apply (live_set _ _ _ _ En Hl). exact (Hl _ _ En).
  - destruct (nth_error (r_conns s) i) as [k|] eqn:En; [|discriminate]. destruct k as [| |[|e errs] [|p pairs] next|]; try discriminate. injection Hs as <-. pose proof (Hl _ _ En) as Hk.
    destruct next; constructor; rn; try exact He; try exact Hl; apply (live_set _ _ _ _ En Hl); [exact Hk|exact I].
  - destruct (r_queue s) as [|x q]; [destruct (r_closed s); [|discriminate]|]; injection Hs as <-; constructor; rn; [exact He|exact Hl|exact He|exact Hl].
  - destruct (nth_error (r_conns s) i) as [k|] eqn:En; [|discriminate]. destruct k as [| |[|e errs] [|p pairs] next|]; try discriminate. destruct (r_closed s); [discriminate|].
    destruct (length (r_queue s) =? 0)%nat; [|discriminate]. injection Hs as <-. constructor; rn; [exact He|]. apply (live_set _ _ _ _ En Hl). exact (Hl _ _ En).
  - destruct (r_errq s); [discriminate|]. injection Hs as <-. constructor; rn; [exact He|exact Hl].
Qed.

Lemma live_run t cap acts : forall s s', live_inv s -> rrun t cap s acts = Some s' -> live_inv s'.
Proof.
  induction acts as [|a acts IH]; intros s s' H Hr; cbn [rrun] in Hr; [injection Hr as <-; exact H|]. destruct (rstep t cap s a) as [s1|] eqn:E; [|discriminate].
  exact (IH s1 s' (live_step _ _ _ _ _ H E) Hr).
Qed.
Lemma live_reach t cap acts s : rrun t cap receiver_init acts = Some s -> live_inv s.
Proof. apply live_run. constructor; [exact I|]. intros [|i] k H; discriminate. Qed.

(** Where nothing is left to do, every pair and every error has reached the user, in order; no
    connection is waiting for anything but its network; and the accepting goroutine is in Accept, or,
    after End, has closed the listener. *)
Theorem C94_at_rest : forall t cap acts s, rrun t cap receiver_init acts = Some s -> r_crashed s = false -> at_rest t cap s ->
  all_delivered t acts s /\
  (forall i, (i < length (accepts acts))%nat -> match o_next (tok_run t tok_init (reads_of i acts)) with
     | TCont st => rstep t cap s (KReadReturns i [] None) <> None | TReturn _ => True | TCrash => False end) /\
  (rstep t cap s (RAccepted true None) <> None \/ (In REndCall acts /\ r_lclosed s = true)).
Proof.
  intros t cap acts s H Hc Hr. pose proof (run_inv _ _ _ _ H) as I0. destruct (rest_shape t cap s Hc Hr (inv_cap _ _ _ _ I0)) as (Hk & Hq & He & Hp).
  split; [split; [|split]|split].
  - intros i. pose proof (C40_in_order _ _ _ _ H i) as Hi. rewrite Hq in Hi. unfold pairs_of at 2 in Hi. cbn [from filter map] in Hi. cbn [app] in Hi.
    assert (Eu : unsent_pairs i s = []) by (unfold unsent_pairs; destruct (nth_error (r_conns s) i) as [k|] eqn:En; [specialize (Hk _ _ En); destruct k; [reflexivity..|destruct Hk|reflexivity]|reflexivity]).
    rewrite Eu, app_nil_r in Hi. exact Hi.
  - intros i. pose proof (proj1 (C40_errors_in_order _ _ _ _ H) i) as Hi. rewrite He in Hi. unfold errors_of at 2 in Hi. cbn [from filter map] in Hi. cbn [app] in Hi.
    assert (Eu : unsent_errors i s = []) by (unfold unsent_errors; destruct (nth_error (r_conns s) i) as [k|] eqn:En; [specialize (Hk _ _ En); destruct k; [reflexivity..|destruct Hk|reflexivity]|reflexivity]).
    rewrite Eu, app_nil_r in Hi. exact Hi.
  - pose proof (proj2 (C40_errors_in_order _ _ _ _ H)) as Hi. rewrite He in Hi. unfold errors_of at 2 in Hi. cbn [from filter map] in Hi. cbn [app] in Hi.
    assert (Eu : unsent_accept_error s = []) by (unfold unsent_accept_error; destruct Hp as [-> | ->]; reflexivity). rewrite Eu, app_nil_r in Hi. exact Hi.
  - intros i Hi. rewrite (inv_accepts _ _ _ _ I0) in Hi. replace (match r_pc s with RSendErr _ conn => [conn] | _ => [] end) with (@nil bool) in Hi by (destruct Hp as [-> | ->]; reflexivity).
    rewrite app_nil_r, map_length in Hi. pose proof (inv_conn _ _ _ _ I0 i) as Ic. destruct (nth_error (r_conns s) i) as [k|] eqn:En; [|apply nth_error_None in En; lia].
    specialize (Hk _ _ En). unfold conn_ok in Ic. destruct k as [|st|errs pairs next|]; [destruct Hk| |destruct Hk|].
    + destruct Ic as (-> & _). pose proof (li_room _ (live_reach _ _ _ _ H) _ _ En) as Hroom. cbn beta iota in Hroom. unfold rstep. rewrite Hc, En. cbn [length]. destruct (Z.leb_spec (Z.of_nat 0) (tok_room st)); [discriminate|lia].
    + destruct Ic as ((b & ->) & _). exact I.
  - destruct Hp as [Hp|Hp]; [left; unfold rstep; rewrite Hc, Hp; discriminate|right].
    split; [|apply (inv_lclosed _ _ _ _ I0); exact Hp]. apply (inv_end _ _ _ _ I0). pose proof (li_end _ (live_reach _ _ _ _ H)) as Hl. rewrite Hp in Hl. exact Hl.
Qed.
Print Assumptions C94_at_rest.


Lemma reads_inside i more : (forall a, In a more -> outside a = false) -> reads_of i more = [] /\ accept_errors more = [] /\ accepts more = [] /\ ~ In REndCall more.
Proof.
  intros Ho. assert (H : forall a, In a more -> outside a = false) by exact Ho. clear Ho. induction more as [|a more IH]; [cbn; auto|].
  destruct IH as (I1 & I2 & I3 & I4); [intros b Hb; apply H; right; exact Hb|]. pose proof (H a (or_introl eq_refl)) as Ha.
  destruct a; try discriminate Ha; cbn [reads_of accept_errors accepts flat_map app] in *; repeat (split; [assumption|]); intros [E|E]; try discriminate; exact (I4 E).
Qed.

(** So what has been read reaches the user: from any state of an execution with no End, no nil
    connection and no decoder panic, every schedule without input from outside stops after boundedly
    many steps, without crash; and where it can only stop, everything read so far has been delivered. *)
Theorem C94_delivered : forall t cap acts s, rrun t cap receiver_init acts = Some s -> r_crashed s = false ->
  ~ In REndCall acts -> ~ In false (accepts acts) -> (forall i, ~ decoder_panics t i acts) ->
  exists n, forall more s', rrun t cap s more = Some s' -> (forall a, In a more -> outside a = false) ->
    (length more <= n)%nat /\ r_crashed s' = false /\ (at_rest t cap s' -> all_delivered t acts s').
Proof.
  intros t cap acts s H Hc He Hf Hd. exists (load s). intros more s' Hr Ho.
  assert (H' : rrun t cap receiver_init (acts ++ more) = Some s') by (rewrite rrun_app, H; exact Hr).
  assert (He' : ~ In REndCall (acts ++ more)) by (intros Hi; apply in_app_iff in Hi as [Hi|Hi]; [exact (He Hi)|]; exact (proj2 (proj2 (proj2 (reads_inside 0 more Ho))) Hi)).
  assert (Hcl : forall l sl, rrun t cap receiver_init l = Some sl -> ~ In REndCall l -> ~ In RStepClosePipe l).
  { intros l sl Hl Hn Hi. pose proof (run_inv _ _ _ _ Hl) as I0. apply (inv_closed _ _ _ _ I0) in Hi. apply (inv_pc _ _ _ _ I0) in Hi.
    pose proof (li_end _ (live_reach _ _ _ _ Hl)) as Hx. apply Hn. apply (inv_end _ _ _ _ I0). destruct Hi as [Hi|Hi]; rewrite Hi in Hx; exact Hx. }
  assert (Hc' : r_crashed s' = false).
  { destruct more as [|a more _] using rev_ind; [injection Hr as <-; exact Hc|]. rewrite app_assoc in H', He'. destruct (r_crashed s') eqn:Ec; [|reflexivity]. exfalso.
    destruct (C39_crash_iff _ _ _ _ _ H') as [Hx _]. specialize (Hx Ec). assert (Ho' : forall b, In b more -> outside b = false) by (intros b Hb; apply Ho, in_app_iff; auto).
    destruct (reads_inside 0 more Ho') as (_ & _ & Ea & _). pose proof (fun i => proj1 (reads_inside i more Ho')) as Er. destruct a; cbn [crash_cause] in Hx; try contradiction.
    - apply He', in_app_iff. right. left. reflexivity.
    - rewrite accepts_app, Ea, app_nil_r in Hx. apply nth_error_In in Hx. exact (Hf Hx).
    - rewrite rrun_app in H'. destruct (rrun t cap receiver_init (acts ++ more)) as [s1|] eqn:E1; [|discriminate].
      refine (Hcl _ _ E1 _ Hx). intros Hi. apply He', in_app_iff. left. exact Hi.
    - apply (Hd i). unfold decoder_panics in *. rewrite reads_of_app, (Er i), app_nil_r in Hx. exact Hx. }
  pose proof (load_run _ _ _ _ _ Hr Ho) as Hload.
  assert (Href : forall l sl, rrun t cap receiver_init l = Some sl -> ~ In REndCall l -> refused sl = 0%nat).
  { intros l sl Hl Hn. pose proof (run_inv _ _ _ _ Hl) as I0. destruct (inv_got _ _ _ _ I0) as (n & Hg & Hg').
    destruct n as [|n]; [|exfalso; destruct Hg' as [Hg' _]; [discriminate|]; apply (Hcl _ _ Hl Hn), (inv_closed _ _ _ _ I0), Hg'].
    unfold refused. rewrite Hg. cbn [repeat]. rewrite app_nil_r. clear. induction (received sl); [reflexivity|assumption]. }
  rewrite (Href _ _ H He), (Href _ _ H' He') in Hload. split; [lia|]. split; [exact Hc'|]. intros Hrest.
  destruct (C94_at_rest _ _ _ _ H' Hc' Hrest) as ((D1 & D2 & D3) & _). destruct (reads_inside 0 more Ho) as (_ & Eae & _).
  pose proof (fun i => proj1 (reads_inside i more Ho)) as Er. split; [|split].
  - intros i. rewrite (D1 i), reads_of_app, (Er i), app_nil_r. reflexivity.
  - intros i. rewrite (D2 i), reads_of_app, (Er i), app_nil_r. reflexivity.
  - rewrite D3, accept_errors_app, Eae, app_nil_r. reflexivity.
Qed.
Print Assumptions C94_delivered.

(** The user must read the errors: with ten unread, a connection that has another one is never read
    again, and after one more error of Accept no connection is ever accepted again, until the user
    reads one; nor is End effective. *)
Theorem C94_unread_errors_block : forall t cap acts s more s', rrun t cap receiver_init acts = Some s ->
  length (r_errq s) = 10%nat -> rrun t cap s more = Some s' -> ~ In RUserErr more ->
  (forall i, unsent_errors i s <> [] -> reads_of i more = [] /\ unsent_pairs i s' = unsent_pairs i s /\ unsent_errors i s' = unsent_errors i s) /\
  (unsent_accept_error s <> [] -> accepts more = [] /\ r_lclosed s' = false /\ ~ In RStepClosePipe more).
Proof.
  intros t cap acts s more. revert acts s. induction more as [|a more IH]; intros acts s s' H Hq Hr Hn.
  - injection Hr as <-. split; [auto|]. intros Hu. split; [reflexivity|]. split; [|intros []].
    destruct (r_lclosed s) eqn:E; [|reflexivity]. apply (inv_lclosed _ _ _ _ (run_inv _ _ _ _ H)) in E. unfold unsent_accept_error in Hu. rewrite E in Hu. congruence.
  - cbn [rrun] in Hr. destruct (rstep t cap s a) as [s1|] eqn:Es; [|discriminate].
    assert (Hn' : ~ In RUserErr more) by (intros Hi; apply Hn; right; exact Hi).
    assert (Hb : (length (r_errq s) <? err_cap)%nat = false) by (rewrite Hq; reflexivity).
    assert (Hstep : length (r_errq s1) = 10%nat /\
       (forall i, unsent_errors i s <> [] -> (forall ch e, a <> KReadReturns i ch e) /\ nth_error (r_conns s1) i = nth_error (r_conns s) i) /\
       (unsent_accept_error s <> [] -> r_pc s1 = r_pc s /\ (forall c e, a <> RAccepted c e) /\ a <> RStepClosePipe)).
    { unfold rstep in Es. destruct (r_crashed s); [discriminate|]. unfold unsent_errors, unsent_accept_error. destruct a.
      - injection Es as <-. destruct (r_end s); rn; repeat split; auto; discriminate.
      - destruct (r_pc s) eqn:Ep; try discriminate. injection Es as <-. rn. repeat split; auto; try discriminate; congruence.
      - destruct (r_pc s) eqn:Ep; try discriminate. injection Es as <-. destruct err; rn; (split; [exact Hq|]); (split; [|intros Hx; congruence]); intros i Hu; (split; [discriminate|]); [reflexivity|].
        apply nth_error_app1. apply nth_error_Some. destruct (nth_error (r_conns s) i); congruence.
      - destruct (r_pc s) eqn:Ep; try discriminate. rewrite Hb in Es. discriminate.
      - destruct (r_pc s) eqn:Ep; try discriminate. injection Es as <-. rn. repeat split; auto; try discriminate; congruence.
      - destruct (r_pc s) eqn:Ep; try discriminate. injection Es as <-. rn. repeat split; auto; try discriminate; congruence.
      - destruct (nth_error (r_conns s) i) as [[| | |]|] eqn:En; try discriminate. injection Es as <-. rn. repeat split; auto; discriminate.
      - destruct (nth_error (r_conns s) i) as [[|st| |]|] eqn:En; try discriminate. destruct (Z.of_nat (length chunk) <=? tok_room st)%Z; [|discriminate]. cbv zeta in Es. injection Es as <-. rn.
        split; [exact Hq|]. split; [|intros _; repeat split; discriminate]. intros j Hu. destruct (Nat.eq_dec i j) as [->|Hij]; [rewrite En in Hu; congruence|]. split; [intros ch e E; congruence|].
        apply nth_set_other. exact Hij.
      - destruct (nth_error (r_conns s) i) as [[| |[|e errs] pairs next|]|] eqn:En; try discriminate. rewrite Hb in Es. discriminate.
      - destruct (nth_error (r_conns s) i) as [[| |[|e errs] [|p pairs] next|]|] eqn:En; try discriminate. destruct (r_closed s); [injection Es as <-; rn; repeat split; auto; discriminate|].
        destruct (length (r_queue s) <? cap)%nat; [|discriminate]. injection Es as <-. rn. split; [exact Hq|]. split; [|intros _; repeat split; discriminate]. intros j Hu.
        split; [discriminate|]. destruct (Nat.eq_dec i j) as [->|Hij]; [rewrite En in Hu; congruence|]. apply nth_set_other. exact Hij.
      - destruct (nth_error (r_conns s) i) as [[| |[|e errs] [|p pairs] next|]|] eqn:En; try discriminate. injection Es as <-.
        assert (K : forall k, length (r_errq (with_conn s i k)) = 10%nat /\
          (forall j, match nth_error (r_conns s) j with Some (KEmit e0 _ _) => e0 | _ => [] end <> [] -> (forall ch e, KNextTurn i <> KReadReturns j ch e) /\ nth_error (r_conns (with_conn s i k)) j = nth_error (r_conns s) j) /\
          (match r_pc s with RSendErr e _ => [e] | _ => [] end <> [] -> r_pc (with_conn s i k) = r_pc s /\ (forall c e, KNextTurn i <> RAccepted c e) /\ KNextTurn i <> RStepClosePipe)).
        { intros k. rn. split; [exact Hq|]. split; [|intros _; repeat split; discriminate]. intros j Hu. split; [discriminate|]. destruct (Nat.eq_dec i j) as [->|Hij]; [rewrite En in Hu; congruence|]. apply nth_set_other. exact Hij. }
        destruct next; [apply K|apply K|]. rn. repeat split; auto; discriminate.
      - destruct (r_queue s); [destruct (r_closed s); [|discriminate]|]; injection Es as <-; rn; repeat split; auto; discriminate.
      - destruct (nth_error (r_conns s) i) as [[| |[|e errs] [|p pairs] next|]|] eqn:En; try discriminate. destruct (r_closed s); [discriminate|]. destruct (length (r_queue s) =? 0)%nat; [|discriminate].
        injection Es as <-. rn. split; [exact Hq|]. split; [|intros _; repeat split; discriminate]. intros j Hu. split; [discriminate|].
        destruct (Nat.eq_dec i j) as [->|Hij]; [rewrite En in Hu; congruence|]. apply nth_set_other. exact Hij.
      - exfalso. apply Hn. left. reflexivity. }
    destruct Hstep as (Hq1 & Hc1 & Ha1).
    destruct (IH (acts ++ [a]) s1 s') as [IHc IHa]; [rewrite rrun_app, H; cbn [rrun]; rewrite Es; reflexivity|exact Hq1|exact Hr|exact Hn'|].
    split.
    + intros i Hu. destruct (Hc1 i Hu) as [Hk Hnth]. assert (Hu1 : unsent_errors i s1 <> []) by (unfold unsent_errors in *; rewrite Hnth; exact Hu).
      destruct (IHc i Hu1) as (R1 & R2 & R3). split; [|split].
      * change (a :: more) with ([a] ++ more). rewrite reads_of_app, R1, app_nil_r. rewrite <- (app_nil_l [a]), reads_same by exact Hk. reflexivity.
      * rewrite R2. unfold unsent_pairs. rewrite Hnth. reflexivity.
      * rewrite R3. unfold unsent_errors. rewrite Hnth. reflexivity.
    + intros Hu. destruct (Ha1 Hu) as (Hp & Hna & Hnc). assert (Hu1 : unsent_accept_error s1 <> []) by (unfold unsent_accept_error in *; rewrite Hp; exact Hu).
      destruct (IHa Hu1) as (R1 & R2 & R3). split; [|split; [exact R2|]].
      * destruct a; try exact R1. exfalso. exact (Hna _ _ eq_refl).
      * intros [E|E]; [congruence|exact (R3 E)].
Qed.
Print Assumptions C94_unread_errors_block.

(** two frames read from a connection, and an error of its Read: eight steps later the user has all *)
Definition line_1 := bs "<34>1 - h a p m - one" ++ [LF].
Definition line_2 := bs "<34>1 - h b p m - two" ++ [LF].
Definition busy : list raction := [RStepSelect; RAccepted true None; KReadReturns 0 (line_1 ++ line_2) (Some (ROther 7))].
Definition calm : list raction := [KPushErr 0; RStepSelect; KPush 0; RReceive; RUserErr; RHandoff 0; KNextTurn 0].
Example C94_nonvacuous : exists s s', rrun TLFEnded 1 receiver_init busy = Some s /\ r_crashed s = false /\ ~ In REndCall busy /\ ~ In false (accepts busy) /\ (forall i, ~ decoder_panics TLFEnded i busy) /\ rrun TLFEnded 1 s calm = Some s' /\ (forall a, In a calm -> outside a = false) /\ at_rest TLFEnded 1 s' /\ length (received s') = 2%nat /\ r_goterr s' = [(Some 0%nat, 7%nat)].
Proof.
  eexists. eexists. split; [vm_compute; reflexivity|]. split; [reflexivity|]. split; [intros [H|[H|[H|[]]]]; discriminate|]. split; [intros [H|[]]; discriminate|].
  split; [intros [|i]; vm_compute; discriminate|]. split; [vm_compute; reflexivity|].
  split; [intros a Ha; repeat (destruct Ha as [<-|Ha]; [reflexivity|]); destruct Ha|]. split; [|split; reflexivity].
  intros a s' Ho Hs. exfalso. destruct a; try discriminate; destruct i as [|[|i]]; discriminate.
Qed.

Definition ten_errors : list raction := RStepSelect :: RAccepted true None :: RStepSelect :: concat (repeat [KReadReturns 0 [] (Some (ROther 5)); KPushErr 0; KNextTurn 0] 10) ++
  [KReadReturns 0 [] (Some (ROther 6)); RAccepted false (Some 8)].
Example C94_unread_nonvacuous : exists s, rrun TLFEnded 1 receiver_init ten_errors = Some s /\ length (r_errq s) = 10%nat /\ unsent_errors 0 s = [6%nat] /\ unsent_accept_error s = [8%nat].
Proof. eexists. split; [vm_compute; reflexivity|]. split; [reflexivity|]. split; reflexivity. Qed.
