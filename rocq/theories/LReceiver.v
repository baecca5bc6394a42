(** LReceiver.v -- the invariant of a Receiver: what each goroutine has read, sent and still has to
    send, over every execution. *)
From Verif Require Import Base BaseFacts MTransport MParse MTokenize MReceiver.

Lemma nth_set_same {A} (l : list A) : forall i x y, nth_error l i = Some x -> nth_error (set_nth l i y) i = Some y.
Proof. induction l; intros [|i] x y H; try discriminate; cbn in *; eauto. Qed.
Lemma nth_set_other {A} (l : list A) : forall i j y, i <> j -> nth_error (set_nth l i y) j = nth_error l j.
Proof. induction l; intros [|i] [|j] y H; cbn; auto; congruence. Qed.

Lemma tok_run_snoc t reads : forall st chunk err,
  tok_run t st (reads ++ [(chunk, err)]) =
  match o_next (tok_run t st reads) with
  | TCont st' =>
      {| o_sent := o_sent (tok_run t st reads) ++ o_sent (tok_step t st' chunk err);
         o_errs := o_errs (tok_run t st reads) ++ o_errs (tok_step t st' chunk err);
         o_next := o_next (tok_step t st' chunk err) |}
  | _ => tok_run t st reads
  end.
Proof.
  induction reads as [|[c e] reads IH]; intros st chunk err.
  - cbn [app tok_run o_next o_sent o_errs].
    destruct (tok_step t st chunk err) as [sent errs next]; cbn [o_sent o_errs o_next].
    destruct next; rewrite ?app_nil_r; reflexivity.
  - cbn [app tok_run]. cbv zeta. destruct (tok_step t st c e) as [sent errs next]; cbn [o_sent o_errs o_next].
    destruct next; try reflexivity. rewrite IH.
    destruct (o_next (tok_run t st0 reads)) eqn:E; cbn [o_sent o_errs o_next]; rewrite ?E, ?app_assoc; reflexivity.
Qed.

(** ** specification vocabulary: histories *)

(** What conn.Read returned to goroutine i during the execution *)
Definition reads_of (i : nat) (acts : list raction) : list (bytes * option read_err) :=
  flat_map (fun a => match a with KReadReturns j chunk err => if (j =? i)%nat then [(chunk, err)] else [] | _ => [] end) acts.

(** What Accept returned during the execution: was there a connection; which errors *)
Definition accepts (acts : list raction) : list bool :=
  flat_map (fun a => match a with RAccepted conn _ => [conn] | _ => [] end) acts.
Definition accept_errors (acts : list raction) : list nat :=
  flat_map (fun a => match a with RAccepted _ (Some e) => [e] | _ => [] end) acts.

(** The pairs (errors) of connection i in a list *)
Definition from {A B} (dec : forall a b : A, {a = b} + {a <> b}) (i : A) (l : list (A * B)) : list B :=
  map snd (filter (fun x => if dec (fst x) i then true else false) l).
Definition pairs_of (i : nat) (l : list (nat * pair_t)) : list pair_t := from Nat.eq_dec i l.
Lemma source_dec : forall a b : option nat, {a = b} + {a <> b}.
Proof. decide equality. apply Nat.eq_dec. Defined.
Definition errors_of (i : option nat) (l : list (option nat * nat)) : list nat := from source_dec i l.

(** The pairs that calls of Receive have returned *)
Definition received (s : rstate) : list (nat * pair_t) := flat_map (fun x => match x with Some p => [p] | None => [] end) (r_got s).

(** What goroutine i has read but not sent yet *)
Definition unsent_pairs (i : nat) (s : rstate) : list pair_t :=
  match nth_error (r_conns s) i with Some (KEmit _ pairs _) => pairs | _ => [] end.
Definition unsent_errors (i : nat) (s : rstate) : list nat :=
  match nth_error (r_conns s) i with Some (KEmit errs _ _) => errs | _ => [] end.
Definition unsent_accept_error (s : rstate) : list nat := match r_pc s with RSendErr e _ => [e] | _ => [] end.

Lemma from_app {A B} dec (i : A) (a b : list (A * B)) : from dec i (a ++ b) = from dec i a ++ from dec i b.
Proof. unfold from. rewrite filter_app, map_app. reflexivity. Qed.
Lemma from_one_same {A B} dec (i : A) (x : B) : from dec i [(i, x)] = [x].
Proof. unfold from. cbn. destruct (dec i i); [reflexivity | congruence]. Qed.
Lemma from_one_other {A B} dec (i j : A) (x : B) : j <> i -> from dec i [(j, x)] = [].
Proof. intro H. unfold from. cbn. destruct (dec j i); [congruence | reflexivity]. Qed.
Lemma reads_of_app i a b : reads_of i (a ++ b) = reads_of i a ++ reads_of i b.
Proof. apply flat_map_app. Qed.

(** ** the invariant of one goroutine *)
Definition conn_ok (t : transport) (reads : list (bytes * option read_err)) (errs_out : list nat) (pairs_out : list pair_t) (k : option kpc) : Prop :=
  let o := tok_run t tok_init reads in
  match k with
  | None | Some KNil => reads = [] /\ errs_out = [] /\ pairs_out = []
  | Some (KRead st) => o_next o = TCont st /\ o_errs o = errs_out /\ o_sent o = pairs_out
  | Some (KEmit errs pairs next) => o_next o = next /\ o_errs o = errs_out ++ errs /\ o_sent o = pairs_out ++ pairs
  | Some KDone => (exists l, o_next o = TReturn l) /\ o_errs o = errs_out /\ o_sent o = pairs_out
  end.

Record rinv (t : transport) (cap : nat) (acts : list raction) (s : rstate) : Prop := {
  inv_conn : forall i, conn_ok t (reads_of i acts) (errors_of (Some i) (r_goterr s ++ r_errq s)) (pairs_of i (received s ++ r_queue s)) (nth_error (r_conns s) i);
  inv_accept_errs : accept_errors acts = errors_of None (r_goterr s ++ r_errq s) ++ unsent_accept_error s;
  inv_accepts : accepts acts = map (fun k => match k with KNil => false | _ => true end) (r_conns s) ++ match r_pc s with RSendErr _ conn => [conn] | _ => [] end;
  inv_cap : (length (r_queue s) <= cap)%nat;
  inv_errcap : (length (r_errq s) <= err_cap)%nat;
  inv_end : r_end s = true <-> In REndCall acts;
  inv_closed : r_closed s = true <-> In RStepClosePipe acts;
  inv_pc : r_closed s = true <-> (r_pc s = RCloseListener \/ r_pc s = RDone);
  inv_lclosed : r_lclosed s = true <-> r_pc s = RDone;
  inv_got : exists n, r_got s = map Some (received s) ++ repeat None n /\ (n <> 0%nat -> r_closed s = true /\ r_queue s = []) }.

Lemma received_app g h : flat_map (fun x : option (nat * pair_t) => match x with Some p => [p] | None => [] end) (g ++ h) =
  flat_map (fun x => match x with Some p => [p] | None => [] end) g ++ flat_map (fun x => match x with Some p => [p] | None => [] end) h.
Proof. apply flat_map_app. Qed.

Lemma conns_map_set i k (l : list kpc) k0 : nth_error l i = Some k0 -> k0 <> KNil -> k <> KNil ->
  map (fun k => match k with KNil => false | _ => true end) (set_nth l i k) = map (fun k => match k with KNil => false | _ => true end) l.
Proof.
  revert i. induction l as [|x l IH]; intros [|i] H H0 H1; try discriminate.
  - cbn in H. injection H as ->. cbn. destruct k, k0; congruence.
  - cbn. f_equal. apply IH; assumption.
Qed.

Lemma in_snoc {A} (x a : A) l : In x (l ++ [a]) <-> In x l \/ a = x.
Proof. rewrite in_app_iff. cbn. tauto. Qed.

Ltac field := first [assumption | tauto | lia].

Lemma nth_app_one {A} (l : list A) x i : nth_error (l ++ [x]) i = if (i =? length l)%nat then Some x else nth_error l i.
Proof.
  destruct (Nat.eqb_spec i (length l)) as [->|n].
  - rewrite nth_error_app2, Nat.sub_diag by lia. reflexivity.
  - destruct (Nat.lt_ge_cases i (length l)); [apply nth_error_app1; assumption|].
    rewrite nth_error_app2 by lia. replace (nth_error l i) with (@None A) by (symmetry; apply nth_error_None; lia).
    apply nth_error_None. cbn. lia.
Qed.

Lemma reads_same i acts a : (forall chunk err, a <> KReadReturns i chunk err) -> reads_of i (acts ++ [a]) = reads_of i acts.
Proof.
  intro H. rewrite reads_of_app. destruct a; cbn; rewrite ?app_nil_r; try reflexivity.
  destruct (Nat.eqb_spec i0 i) as [->|]; [|cbn; rewrite app_nil_r; reflexivity].
  exfalso. eapply H. reflexivity.
Qed.
Lemma accepts_app a b : accepts (a ++ b) = accepts a ++ accepts b.
Proof. apply flat_map_app. Qed.
Lemma accept_errors_app a b : accept_errors (a ++ b) = accept_errors a ++ accept_errors b.
Proof. apply flat_map_app. Qed.

(** a step that does not touch what the connections have read and sent *)
Lemma conns_same t acts a s s' :
  (forall i, conn_ok t (reads_of i acts) (errors_of (Some i) (r_goterr s ++ r_errq s)) (pairs_of i (received s ++ r_queue s)) (nth_error (r_conns s) i)) ->
  (forall i chunk err, a <> KReadReturns i chunk err) ->
  r_goterr s' ++ r_errq s' = r_goterr s ++ r_errq s -> received s' ++ r_queue s' = received s ++ r_queue s -> r_conns s' = r_conns s ->
  forall i, conn_ok t (reads_of i (acts ++ [a])) (errors_of (Some i) (r_goterr s' ++ r_errq s')) (pairs_of i (received s' ++ r_queue s')) (nth_error (r_conns s') i).
Proof. intros H Ha -> -> -> i. rewrite reads_same by (intros; apply Ha). apply H. Qed.

Lemma end_iff acts a b (s_end : bool) : (s_end = true <-> In REndCall acts) -> a <> REndCall -> b = s_end -> (b = true <-> In REndCall (acts ++ [a])).
Proof. intros H Ha ->. rewrite in_snoc. split; intuition congruence. Qed.
Lemma closed_iff acts a b (c : bool) : (c = true <-> In RStepClosePipe acts) -> a <> RStepClosePipe -> b = c -> (b = true <-> In RStepClosePipe (acts ++ [a])).
Proof. intros H Ha ->. rewrite in_snoc. split; intuition congruence. Qed.

(** every field but the connections, for an action of a connection goroutine that leaves it in [k] *)
Lemma step_inv t cap acts s a s' : rinv t cap acts s -> rstep t cap s a = Some s' -> rinv t cap (acts ++ [a]) s'.
Proof.
  intros I Hs. unfold rstep in Hs. destruct (r_crashed s) eqn:Ecr; [discriminate|]. destruct I as [Ic Iae Ia Icap Iec Ie Icl Ipc Il Ig].
  destruct a.
  - (* End *)
    injection Hs as <-. destruct (r_end s) eqn:Ee.
    + constructor; cbn [crash r_pc r_end r_queue r_closed r_lclosed r_errq r_conns r_got r_goterr r_crashed]; try assumption.
      * apply (conns_same t acts _ s s); auto; congruence.
      * rewrite accept_errors_app. cbn. rewrite app_nil_r. exact Iae.
      * rewrite accepts_app. cbn. rewrite app_nil_r. exact Ia.
      * rewrite in_snoc. intuition congruence.
      * apply (closed_iff acts) with (c := r_closed s); auto; congruence.
    + constructor; cbn [crash r_pc r_end r_queue r_closed r_lclosed r_errq r_conns r_got r_goterr r_crashed]; try assumption.
      * apply (conns_same t acts _ s s); auto; congruence.
      * rewrite accept_errors_app. cbn. rewrite app_nil_r. exact Iae.
      * rewrite accepts_app. cbn. rewrite app_nil_r. exact Ia.
      * rewrite in_snoc. tauto.
      * apply (closed_iff acts) with (c := r_closed s); auto; congruence.
  - (* select *)
    destruct (r_pc s) eqn:Epc; try discriminate. injection Hs as <-.
    assert (Hnc : r_closed s = false) by (destruct (r_closed s); [destruct Ipc as [Ipc _]; destruct (Ipc eq_refl); discriminate | reflexivity]).
    constructor; cbn [with_pc r_pc r_end r_queue r_closed r_lclosed r_errq r_conns r_got r_goterr r_crashed]; try assumption.
    + apply (conns_same t acts _ s s); auto; congruence.
    + rewrite accept_errors_app. cbn [accept_errors flat_map]. rewrite app_nil_r, Iae. f_equal. unfold unsent_accept_error. cbn. rewrite Epc.
      destruct (r_end s); reflexivity.
    + rewrite accepts_app. cbn [accepts flat_map]. rewrite app_nil_r, Ia. destruct (r_end s); reflexivity.
    + apply (end_iff acts) with (s_end := r_end s); auto; congruence.
    + apply (closed_iff acts) with (c := r_closed s); auto; congruence.
    + rewrite Hnc. destruct (r_end s); intuition congruence.
    + rewrite Il. destruct (r_end s); intuition congruence.
  - (* Accept returns *)
    destruct (r_pc s) eqn:Epc; try discriminate. injection Hs as <-.
    destruct err as [e|].
    + constructor; cbn [with_pc r_pc r_end r_queue r_closed r_lclosed r_errq r_conns r_got r_goterr r_crashed]; try assumption.
      * apply (conns_same t acts _ s s); auto; congruence.
      * rewrite accept_errors_app, Iae. cbn. unfold unsent_accept_error. rewrite Epc. cbn. rewrite app_nil_r. reflexivity.
      * rewrite accepts_app, Ia. cbn. rewrite app_nil_r. reflexivity.
      * apply (end_iff acts) with (s_end := r_end s); auto; congruence.
      * apply (closed_iff acts) with (c := r_closed s); auto; congruence.
      * rewrite Ipc. intuition congruence.
      * rewrite Il. intuition congruence.
    + constructor; cbn [spawn r_pc r_end r_queue r_closed r_lclosed r_errq r_conns r_got r_goterr r_crashed]; try assumption.
      * intro i. rewrite reads_same by (intros; congruence). specialize (Ic i). rewrite nth_app_one. destruct (Nat.eqb_spec i (length (r_conns s))) as [->|]; [|exact Ic].
        rewrite (proj2 (nth_error_None _ _)) in Ic by lia. unfold conn_ok in *. destruct Ic as (R & E & P).
        change (received (spawn s conn)) with (received s). rewrite R, E, P. destruct conn; cbn; auto.
      * rewrite accept_errors_app, Iae. cbn. unfold unsent_accept_error. rewrite Epc. cbn. rewrite !app_nil_r. reflexivity.
      * rewrite accepts_app, Ia, map_app. cbn. rewrite !app_nil_r. destruct conn; reflexivity.
      * apply (end_iff acts) with (s_end := r_end s); auto; congruence.
      * apply (closed_iff acts) with (c := r_closed s); auto; congruence.
      * rewrite Ipc. intuition congruence.
      * rewrite Il. intuition congruence.
  - (* runQueue sends an error *)
    destruct (r_pc s) eqn:Epc; try discriminate. destruct (Nat.ltb_spec (length (r_errq s)) err_cap) as [Hlt|]; [|discriminate]. injection Hs as <-.
    constructor; cbn [spawn with_errq r_pc r_end r_queue r_closed r_lclosed r_errq r_conns r_got r_goterr r_crashed]; try assumption.
    + intro i. rewrite reads_same by (intros; congruence). specialize (Ic i).
      unfold errors_of in *. rewrite app_assoc, (from_app _ _ (r_goterr s ++ r_errq s)), (from_one_other _ (Some i) None) by congruence. rewrite app_nil_r.
      rewrite nth_app_one. destruct (Nat.eqb_spec i (length (r_conns s))) as [->|]; [|exact Ic].
      rewrite (proj2 (nth_error_None _ _)) in Ic by lia. unfold conn_ok in *. destruct Ic as (R & E & P).
      change (received (spawn _ conn)) with (received s). rewrite R, E, P. destruct conn; cbn; auto.
    + rewrite accept_errors_app, Iae. unfold errors_of. rewrite app_assoc, (from_app _ None (r_goterr s ++ r_errq s)), from_one_same. cbn.
      unfold unsent_accept_error. rewrite Epc. cbn. rewrite !app_nil_r. reflexivity.
    + rewrite accepts_app, Ia, map_app. cbn. rewrite !app_nil_r. destruct conn; reflexivity.
    + rewrite app_length. cbn. lia.
    + apply (end_iff acts) with (s_end := r_end s); auto; congruence.
    + apply (closed_iff acts) with (c := r_closed s); auto; congruence.
    + rewrite Ipc. intuition congruence.
    + rewrite Il. intuition congruence.
  - (* close(pipeline) *)
    destruct (r_pc s) eqn:Epc; try discriminate. injection Hs as <-.
    constructor; cbn [r_pc r_end r_queue r_closed r_lclosed r_errq r_conns r_got r_goterr r_crashed]; try assumption.
    + apply (conns_same t acts _ s s); auto; congruence.
    + rewrite accept_errors_app, Iae. cbn. unfold unsent_accept_error. rewrite Epc. cbn. rewrite !app_nil_r. reflexivity.
    + rewrite accepts_app, Ia. cbn. rewrite !app_nil_r. reflexivity.
    + apply (end_iff acts) with (s_end := r_end s); auto; congruence.
    + rewrite in_snoc. tauto.
    + tauto.
    + rewrite Il. intuition congruence.
    + destruct Ig as (n & Hn & Hq). exists n. split; [exact Hn|]. intro Hn0. split; [reflexivity | apply Hq; assumption].
  - (* listener.Close() *)
    destruct (r_pc s) eqn:Epc; try discriminate. injection Hs as <-.
    constructor; cbn [r_pc r_end r_queue r_closed r_lclosed r_errq r_conns r_got r_goterr r_crashed]; try assumption.
    + apply (conns_same t acts _ s s); auto; congruence.
    + rewrite accept_errors_app, Iae. cbn. unfold unsent_accept_error. rewrite Epc. cbn. rewrite !app_nil_r. reflexivity.
    + rewrite accepts_app, Ia. cbn. rewrite !app_nil_r. reflexivity.
    + apply (end_iff acts) with (s_end := r_end s); auto; congruence.
    + apply (closed_iff acts) with (c := r_closed s); auto; congruence.
    + rewrite Ipc. tauto.
    + tauto.
  - (* a goroutine with a nil connection *)
    destruct (nth_error (r_conns s) i) as [[| | |]|] eqn:Ei; try discriminate. injection Hs as <-.
    constructor; cbn [crash r_pc r_end r_queue r_closed r_lclosed r_errq r_conns r_got r_goterr r_crashed]; try assumption.
    + apply (conns_same t acts _ s s); auto; congruence.
    + rewrite accept_errors_app. cbn. rewrite app_nil_r. exact Iae.
    + rewrite accepts_app. cbn. rewrite app_nil_r. exact Ia.
    + apply (end_iff acts) with (s_end := r_end s); auto; congruence.
    + apply (closed_iff acts) with (c := r_closed s); auto; congruence.
  - (* Read returns *)
    destruct (nth_error (r_conns s) i) as [[|st| |]|] eqn:Ei; try discriminate.
    destruct (Z.of_nat (length chunk) <=? tok_room st)%Z; [|discriminate]. cbv zeta in Hs. injection Hs as <-.
    constructor; cbn [with_conn r_pc r_end r_queue r_closed r_lclosed r_errq r_conns r_got r_goterr r_crashed]; try assumption.
    + intro j. specialize (Ic j). change (received (with_conn s i _)) with (received s). destruct (Nat.eq_dec i j) as [->|n].
      * rewrite (nth_set_same _ _ _ _ Ei). rewrite Ei in Ic. unfold conn_ok in *. destruct Ic as (N & E & P).
        rewrite reads_of_app. cbn [reads_of flat_map]. rewrite Nat.eqb_refl. cbn [app]. rewrite tok_run_snoc, N. cbn [o_next o_errs o_sent].
        rewrite E, P. auto.
      * rewrite nth_set_other by assumption. rewrite reads_same by (intros; congruence). exact Ic.
    + rewrite accept_errors_app. cbn [accept_errors flat_map]. rewrite app_nil_r. exact Iae.
    + rewrite accepts_app. cbn [accepts flat_map]. rewrite app_nil_r, Ia. f_equal. symmetry. eapply conns_map_set; eauto; congruence.
    + apply (end_iff acts) with (s_end := r_end s); auto; congruence.
    + apply (closed_iff acts) with (c := r_closed s); auto; congruence.
  - (* a goroutine sends an error *)
    destruct (nth_error (r_conns s) i) as [[| |[|e errs] pairs next|]|] eqn:Ei; try discriminate.
    destruct (Nat.ltb_spec (length (r_errq s)) err_cap) as [Hlt|]; [|discriminate]. injection Hs as <-.
    constructor; cbn [with_conn with_errq r_pc r_end r_queue r_closed r_lclosed r_errq r_conns r_got r_goterr r_crashed]; try assumption.
    + intro j. specialize (Ic j). rewrite reads_same by (intros; congruence). change (received (with_conn _ i _)) with (received s).
      unfold errors_of in *. rewrite app_assoc, (from_app _ (Some j) (r_goterr s ++ r_errq s)). destruct (Nat.eq_dec i j) as [->|n].
      * rewrite (nth_set_same _ _ _ _ Ei), from_one_same. rewrite Ei in Ic. unfold conn_ok in *. destruct Ic as (N & E & P).
        rewrite <- app_assoc. auto.
      * rewrite nth_set_other by assumption. rewrite from_one_other, app_nil_r by congruence. exact Ic.
    + rewrite accept_errors_app. cbn [accept_errors flat_map]. unfold errors_of in *. rewrite app_nil_r, Iae, app_assoc, (from_app _ None (r_goterr s ++ r_errq s)), from_one_other, app_nil_r by congruence. reflexivity.
    + rewrite accepts_app. cbn [accepts flat_map]. rewrite app_nil_r, Ia. f_equal. symmetry. eapply conns_map_set; eauto; congruence.
    + rewrite app_length. cbn. lia.
    + apply (end_iff acts) with (s_end := r_end s); auto; congruence.
    + apply (closed_iff acts) with (c := r_closed s); auto; congruence.
  - (* a goroutine sends a pair *)
    destruct (nth_error (r_conns s) i) as [[| |[|e errs] [|p pairs] next|]|] eqn:Ei; try discriminate.
    destruct (r_closed s) eqn:Ecl.
    + injection Hs as <-. constructor; cbn [crash r_pc r_end r_queue r_closed r_lclosed r_errq r_conns r_got r_goterr r_crashed]; try assumption.
      * apply (conns_same t acts _ s s); auto; congruence.
      * rewrite accept_errors_app. cbn. rewrite app_nil_r. exact Iae.
      * rewrite accepts_app. cbn. rewrite app_nil_r. exact Ia.
      * apply (end_iff acts) with (s_end := r_end s); auto; congruence.
      * apply (closed_iff acts) with (c := true); auto; congruence.
      * rewrite Ecl. exact Ipc.
      * rewrite Ecl. exact Ig.
    + destruct (Nat.ltb_spec (length (r_queue s)) cap) as [Hlt|]; [|discriminate]. injection Hs as <-.
      constructor; cbn [with_conn with_queue r_pc r_end r_queue r_closed r_lclosed r_errq r_conns r_got r_goterr r_crashed]; try assumption.
      * intro j. specialize (Ic j). rewrite reads_same by (intros; congruence). change (received (with_conn _ i _)) with (received s).
        unfold pairs_of in *. rewrite app_assoc, (from_app _ j (received s ++ r_queue s)). destruct (Nat.eq_dec i j) as [->|n].
        -- rewrite (nth_set_same _ _ _ _ Ei), from_one_same. rewrite Ei in Ic. unfold conn_ok in *. destruct Ic as (N & E & P).
           rewrite <- app_assoc. auto.
        -- rewrite nth_set_other by assumption. rewrite from_one_other, app_nil_r by congruence. exact Ic.
      * rewrite accept_errors_app. cbn [accept_errors flat_map]. rewrite app_nil_r. exact Iae.
      * rewrite accepts_app. cbn [accepts flat_map]. rewrite app_nil_r, Ia. f_equal. symmetry. eapply conns_map_set; eauto; congruence.
      * rewrite app_length. cbn. lia.
      * apply (end_iff acts) with (s_end := r_end s); auto; congruence.
      * rewrite Ecl. apply (closed_iff acts) with (c := false); auto; congruence.
      * rewrite Ecl. exact Ipc.
      * rewrite Ecl. destruct Ig as (n & Hn & Hq). exists n. split; [exact Hn|]. intro Hn0. destruct (Hq Hn0). discriminate.
  - (* a goroutine has sent everything *)
    destruct (nth_error (r_conns s) i) as [[| |[|e errs] [|p pairs] next|]|] eqn:Ei; try discriminate. injection Hs as <-.
    destruct next as [st|lft|].
    + constructor; cbn [with_conn r_pc r_end r_queue r_closed r_lclosed r_errq r_conns r_got r_goterr r_crashed]; try assumption.
      * intro j. specialize (Ic j). rewrite reads_same by (intros; congruence). change (received (with_conn s i _)) with (received s). destruct (Nat.eq_dec i j) as [->|n].
        -- rewrite (nth_set_same _ _ _ _ Ei). rewrite Ei in Ic. unfold conn_ok in *. rewrite !app_nil_r in Ic. exact Ic.
        -- rewrite nth_set_other by assumption. exact Ic.
      * rewrite accept_errors_app. cbn [accept_errors flat_map]. rewrite app_nil_r. exact Iae.
      * rewrite accepts_app. cbn [accepts flat_map]. rewrite app_nil_r, Ia. f_equal. symmetry. eapply conns_map_set; eauto; congruence.
      * apply (end_iff acts) with (s_end := r_end s); auto; congruence.
      * apply (closed_iff acts) with (c := r_closed s); auto; congruence.
    + constructor; cbn [with_conn r_pc r_end r_queue r_closed r_lclosed r_errq r_conns r_got r_goterr r_crashed]; try assumption.
      * intro j. specialize (Ic j). rewrite reads_same by (intros; congruence). change (received (with_conn s i _)) with (received s). destruct (Nat.eq_dec i j) as [->|n].
        -- rewrite (nth_set_same _ _ _ _ Ei). rewrite Ei in Ic. unfold conn_ok in *. rewrite !app_nil_r in Ic. destruct Ic as (N & Ic). split; [eauto | exact Ic].
        -- rewrite nth_set_other by assumption. exact Ic.
      * rewrite accept_errors_app. cbn [accept_errors flat_map]. rewrite app_nil_r. exact Iae.
      * rewrite accepts_app. cbn [accepts flat_map]. rewrite app_nil_r, Ia. f_equal. symmetry. eapply conns_map_set; eauto; congruence.
      * apply (end_iff acts) with (s_end := r_end s); auto; congruence.
      * apply (closed_iff acts) with (c := r_closed s); auto; congruence.
    + constructor; cbn [crash r_pc r_end r_queue r_closed r_lclosed r_errq r_conns r_got r_goterr r_crashed]; try assumption.
      * apply (conns_same t acts _ s s); auto; congruence.
      * rewrite accept_errors_app. cbn. rewrite app_nil_r. exact Iae.
      * rewrite accepts_app. cbn. rewrite app_nil_r. exact Ia.
      * apply (end_iff acts) with (s_end := r_end s); auto; congruence.
      * apply (closed_iff acts) with (c := r_closed s); auto; congruence.
  - (* Receive *)
    destruct (r_queue s) as [|x q] eqn:Eq.
    + destruct (r_closed s) eqn:Ecl; [|discriminate]. injection Hs as <-.
      assert (Hr : received (with_queue s [] (r_got s ++ [None])) = received s) by (unfold received; cbn; rewrite flat_map_app; cbn; apply app_nil_r).
      constructor; rewrite ?Hr; cbn [with_queue r_pc r_end r_queue r_closed r_lclosed r_errq r_conns r_got r_goterr r_crashed]; try assumption.
      * intro i. rewrite reads_same by (intros; congruence). apply Ic.
      * rewrite accept_errors_app. cbn [accept_errors flat_map]. rewrite app_nil_r. exact Iae.
      * rewrite accepts_app. cbn [accepts flat_map]. rewrite app_nil_r. exact Ia.
      * apply (end_iff acts) with (s_end := r_end s); auto; congruence.
      * rewrite Ecl. apply (closed_iff acts) with (c := true); auto; congruence.
      * rewrite Ecl. exact Ipc.
      * destruct Ig as (n & Hn & Hq). exists (S n). split; [|split; auto].
        rewrite Hn at 1. rewrite <- app_assoc. f_equal. change [None] with (repeat (@None (nat * pair_t)) 1). rewrite <- repeat_app. f_equal. lia.
    + injection Hs as <-.
      assert (Hr : received (with_queue s q (r_got s ++ [Some x])) = received s ++ [x]) by (unfold received; cbn; rewrite flat_map_app; cbn; reflexivity).
      constructor; rewrite ?Hr; cbn [with_queue r_pc r_end r_queue r_closed r_lclosed r_errq r_conns r_got r_goterr r_crashed]; try assumption.
      * intro i. rewrite reads_same by (intros; congruence). rewrite <- app_assoc. apply Ic.
      * rewrite accept_errors_app. cbn [accept_errors flat_map]. rewrite app_nil_r. exact Iae.
      * rewrite accepts_app. cbn [accepts flat_map]. rewrite app_nil_r. exact Ia.
      * cbn in Icap. lia.
      * apply (end_iff acts) with (s_end := r_end s); auto; congruence.
      * apply (closed_iff acts) with (c := r_closed s); auto; congruence.
      * destruct Ig as (n & Hn & Hq). destruct n as [|n]; [|destruct (Hq ltac:(lia)); discriminate]. exists 0%nat. split; [|congruence].
        cbn in Hn. rewrite app_nil_r in Hn. rewrite Hn at 1. rewrite map_app. cbn. rewrite app_nil_r. reflexivity.
  - (* direct hand off *)
    destruct (nth_error (r_conns s) i) as [[| |[|e errs] [|p pairs] next|]|] eqn:Ei; try discriminate.
    destruct (r_closed s) eqn:Ecl; [discriminate|]. destruct (Nat.eqb_spec (length (r_queue s)) 0) as [Hlt|]; [|discriminate]. injection Hs as <-.
    apply length_zero_iff_nil in Hlt.
    assert (Hr : received (with_conn (with_queue s [] (r_got s ++ [Some (i, p)])) i (KEmit [] pairs next)) = received s ++ [(i, p)]) by (unfold received; cbn; rewrite flat_map_app; cbn; reflexivity).
    constructor; rewrite ?Hr; cbn [with_conn with_queue r_pc r_end r_queue r_closed r_lclosed r_errq r_conns r_got r_goterr r_crashed]; try assumption.
    + intro j. specialize (Ic j). rewrite reads_same by (intros; congruence). rewrite Hlt in Ic. rewrite app_nil_r in *.
      unfold pairs_of in *. rewrite (from_app _ j (received s)). destruct (Nat.eq_dec i j) as [->|n].
      * rewrite (nth_set_same _ _ _ _ Ei), from_one_same. rewrite Ei in Ic. unfold conn_ok in *. destruct Ic as (N & E & P).
        rewrite <- app_assoc. auto.
      * rewrite nth_set_other by assumption. rewrite from_one_other, app_nil_r by congruence. exact Ic.
    + rewrite accept_errors_app. cbn [accept_errors flat_map]. rewrite app_nil_r. exact Iae.
    + rewrite accepts_app. cbn [accepts flat_map]. rewrite app_nil_r, Ia. f_equal. symmetry. eapply conns_map_set; eauto; congruence.
    + cbn. lia.
    + apply (end_iff acts) with (s_end := r_end s); auto; congruence.
    + rewrite Ecl. apply (closed_iff acts) with (c := false); auto; congruence.
    + rewrite Ecl. exact Ipc.
    + destruct Ig as (n & Hn & Hq). destruct n as [|n]; [|destruct (Hq ltac:(lia)); discriminate]. exists 0%nat. split; [|congruence].
      cbn in Hn. rewrite app_nil_r in Hn. rewrite Hn at 1. rewrite map_app. cbn. rewrite app_nil_r. reflexivity.
  - (* the user reads an error *)
    destruct (r_errq s) as [|x q] eqn:Eq; [discriminate|]. injection Hs as <-.
    constructor; cbn [r_pc r_end r_queue r_closed r_lclosed r_errq r_conns r_got r_goterr r_crashed]; try assumption.
    + intro i. rewrite reads_same by (intros; congruence). rewrite <- app_assoc. apply Ic.
    + rewrite accept_errors_app. cbn [accept_errors flat_map]. rewrite app_nil_r, <- app_assoc. exact Iae.
    + rewrite accepts_app. cbn [accepts flat_map]. rewrite app_nil_r. exact Ia.
    + cbn in Iec. lia.
    + apply (end_iff acts) with (s_end := r_end s); auto; congruence.
    + apply (closed_iff acts) with (c := r_closed s); auto; congruence.
Qed.

Lemma init_inv t cap : rinv t cap [] receiver_init.
Proof.
  constructor; cbn; try tauto; try reflexivity; try lia; try (split; intuition congruence).
  - intro i. destruct i; cbn; auto.
  - exists 0%nat. split; [reflexivity | congruence].
Qed.

Lemma rrun_app t cap a : forall s b, rrun t cap s (a ++ b) = match rrun t cap s a with Some s' => rrun t cap s' b | None => None end.
Proof. induction a as [|x a IH]; intros s b; cbn; [reflexivity|]. destruct (rstep t cap s x); auto. Qed.

Lemma run_inv t cap acts s : rrun t cap receiver_init acts = Some s -> rinv t cap acts s.
Proof.
  revert s. induction acts as [|a acts IH] using rev_ind; intros s H.
  - injection H as <-. apply init_inv.
  - rewrite rrun_app in H. destruct (rrun t cap receiver_init acts) as [s0|]; [|discriminate]. cbn in H.
    destruct (rstep t cap s0 a) eqn:E; [|discriminate]. injection H as <-. eapply step_inv; eauto.
Qed.
