(** PropAnyReader.v -- property C111: a connection of a Receiver with any implementation of DataReader. *)
From Verif Require Import Base BaseFacts Spec MPriority MHelpers MText MTime MSData MMessage MTransport MParse MTokenize MTokMem MAnyReader.
From Verif Require Import LPriority LText LAtoi LTime LSData LParse LTransport LRound LResult PropParse PropTransport LTokenize PropTokMem.
From Coq Require Import ZifyBool ZifyNat ZifyN.

(** ** what is observable of a connection between two reads *)

(** the bytes read and not decoded yet *)
Definition kept (st : mstate) : bytes := contents (s_heap st) {| l_arr := s_arr st; l_off := s_off st; l_len := s_done st |}.
(** the slice given to Read, with what it holds before the call *)
Definition given_slice (st : mstate) : bytes := skipn (s_off st + s_done st) (array (s_heap st) (s_arr st)).
(** a slice after [wrote] was written from its start *)
Definition after_write (slice wrote : bytes) : bytes := firstn (length slice) wrote ++ skipn (length wrote) slice.

(** ** specification of a turn: [held] is what was kept, [slice] the slice after the call of Read that
    returned [n]: the pairs delivered, what is kept (None after a crash) and what follows *)
Definition turn (t : transport) (held slice : bytes) (n : Z) (eof : bool) : list pair_t * option bytes * mem_next :=
  let go_on := if eof then MReturn else MCont in
  if (n =? 0)%Z then ([], Some held, go_on)
  else if (n <? - Z.of_nat (length held))%Z || (Z.of_nat (length slice) <? n)%Z then ([], None, MCrash)
  else
    let data := firstn (Z.to_nat (Z.of_nat (length held) + n)) (held ++ slice) in
    match tok_inner (S (length data)) t eof data with
    | (sent, Val rest) => (sent, Some rest, go_on)
    | (sent, _) => (sent, None, MCrash)
    end.

(** ** invariant *)
Definition inv_at (RB : nat) (st : mstate) : Prop :=
  length (s_heap st) = S (s_arr st) /\ length (array (s_heap st) (s_arr st)) = RB /\ (s_off st + s_done st <= RB)%nat /\ (s_off st + 500 <= RB)%nat.
Definition inv (st : mstate) : Prop := inv_at (Z.to_nat read_buffer) st.

Lemma inv_init : inv mem_init.
Proof. destruct init_related as [(A & B & C & _) _]. split; [exact A|]. split; [exact B|]. split; [exact C|]. unfold mem_init. cbn [s_off]. unfold read_buffer. lia. Qed.

Lemma kept_length RB st : inv_at RB st -> length (kept st) = s_done st.
Proof. intros (_ & Ha & Ho & _). unfold kept. rewrite contents_length; [reflexivity|]. cbn [l_off l_len l_arr]. rewrite Ha. exact Ho. Qed.
Lemma slice_length RB st : inv_at RB st -> length (given_slice st) = (RB - s_off st - s_done st)%nat.
Proof. intros (_ & Ha & Ho & _). unfold given_slice. rewrite skipn_length, Ha. lia. Qed.
Lemma after_write_length slice wrote : length (after_write slice wrote) = length slice.
Proof. unfold after_write. rewrite app_length, firstn_length, skipn_length. lia. Qed.

Lemma put_all a o w : (o <= length a)%nat -> put a o (firstn (length a - o) w) = firstn o a ++ after_write (skipn o a) w.
Proof.
  intros Ho. unfold put, after_write. rewrite skipn_length. f_equal. f_equal. rewrite firstn_length, skipn_plus.
  destruct (Nat.le_gt_cases (length w) (length a - o)) as [H|H]; [rewrite Nat.min_r by lia; reflexivity|].
  rewrite Nat.min_l by lia. rewrite !skipn_all2; [reflexivity|rewrite skipn_length; lia|rewrite skipn_length; lia].
Qed.

(** the memory after a call of Read *)
Lemma read_into_ok st r : inv st -> inv (read_into st r) /\ kept (read_into st r) = kept st /\
  given_slice (read_into st r) = after_write (given_slice st) (rr_wrote r) /\
  (forall l, frozen st l -> contents (s_heap (read_into st r)) l = contents (s_heap st) l).
Proof.
  intros Hi. pose proof Hi as (Hh & Ha & Ho & H500). set (st1 := read_into st r).
  set (arr := array (s_heap st) (s_arr st)) in *. set (arr' := put arr (s_off st + s_done st) (firstn (length arr - (s_off st + s_done st)) (rr_wrote r))).
  assert (Harr : array (s_heap st1) (s_arr st) = arr') by (unfold st1, read_into; cbn [s_heap]; rewrite array_set by lia; rewrite Nat.eqb_refl; reflexivity).
  assert (Hla : length arr' = Z.to_nat read_buffer) by (unfold arr'; rewrite put_length by (rewrite firstn_length; lia); exact Ha).
  split; [|split; [|split]].
  - unfold inv, st1. split; [cbn [read_into s_heap s_arr]; rewrite set_array_length; exact Hh|]. split; [|split; [exact Ho|exact H500]]. fold st1. change (s_arr st1) with (s_arr st). rewrite Harr. exact Hla.
  - unfold kept, contents. cbn [l_arr l_off l_len]. change (s_arr st1) with (s_arr st). change (s_off st1) with (s_off st). change (s_done st1) with (s_done st). rewrite Harr. fold arr.
    unfold arr'. apply sub_put_before; lia.
  - unfold given_slice. change (s_arr st1) with (s_arr st). change (s_off st1) with (s_off st). change (s_done st1) with (s_done st). rewrite Harr. fold arr. unfold arr'.
    rewrite put_all by lia. rewrite skipn_app, firstn_length, Nat.min_l by lia. rewrite Nat.sub_diag. cbn [skipn]. rewrite skipn_all2 by (rewrite firstn_length; lia). reflexivity.
  - intros l [Hl|[Hl1 Hl2]]; unfold contents.
    + unfold st1, read_into. cbn [s_heap]. rewrite array_set by lia. destruct (Nat.eqb_spec (l_arr l) (s_arr st)); [lia|reflexivity].
    + rewrite Hl1, Harr. fold arr. unfold arr'. apply sub_put_before; lia.
Qed.

(** what is kept and the slice are the buffer *)
Lemma buffer_split st : skipn (s_off st) (array (s_heap st) (s_arr st)) = kept st ++ given_slice st.
Proof.
  unfold kept, given_slice, contents. cbn [l_arr l_off l_len]. rewrite skipn_plus. symmetry. apply firstn_skipn.
Qed.

Lemma any_step_decode t st r : any_step t st r = decode_turn (Z.to_nat read_buffer) t (read_into st r) r.
Proof. reflexivity. Qed.

Lemma decode_turn_ok RB t ms r : inv_at RB ms -> log_ok ms ->
  let '(st', errs, nx) := decode_turn RB t ms r in
  errs = match rr_err r with Some (ROther e) => [e] | _ => [] end /\
  log_holds st' /\ (nx <> MCrash -> log_ok st' /\ inv_at RB st') /\
  (forall l, frozen ms l -> contents (s_heap st') l = contents (s_heap ms) l /\ frozen st' l) /\
  exists sent, s_log st' = s_log ms ++ sent /\
    let '(delivered, held, nx') := turn t (kept ms) (given_slice ms) (rr_count r) (is_eof (rr_err r)) in
    map fst sent = delivered /\ nx' = nx /\ (forall b, held = Some b -> kept st' = b).
Proof.
  intros Hi Hlog. unfold decode_turn, turn. fold (is_eof (rr_err r)).
  pose proof (kept_length RB ms Hi) as Hkl. pose proof (slice_length RB ms Hi) as Hsl. pose proof Hi as (Hh & Ha & Ho & H500).
  pose proof (buffer_split ms) as Hbs. set (err := is_eof (rr_err r)) in *. 
  destruct (Z.eqb_spec (rr_count r) 0) as [E0|E0]; cbn [andb].
  { assert (K : log_holds ms) by (apply log_ok_holds, Hlog). destruct err; (split; [reflexivity|]; split; [exact K|]; split; [auto|]; split; [auto|]; exists []; rewrite app_nil_r; split; [reflexivity|]; split; [reflexivity|]; split; [reflexivity|]; intros b E; injection E as <-; reflexivity). }
  rewrite Hkl, Hsl.
  destruct (Z.ltb_spec (rr_count r + Z.of_nat (s_done ms)) 0) as [Elt|Elt]; cbn [orb].
  { destruct (Z.ltb_spec (rr_count r) (- Z.of_nat (s_done ms))); [|lia]. cbn [orb]. split; [reflexivity|]. split; [apply log_ok_holds, Hlog|]. split; [congruence|]. split; [auto|].
    exists []. rewrite app_nil_r. split; [reflexivity|]. split; [reflexivity|]. split; [reflexivity|]. discriminate. }
  destruct (Z.ltb_spec (rr_count r) (- Z.of_nat (s_done ms))); [lia|]. cbn [orb]. rewrite Ha.
  destruct (Z.ltb_spec (Z.of_nat (RB - s_off ms)) (rr_count r + Z.of_nat (s_done ms))) as [Egt|Egt].
  { destruct (Z.ltb_spec (Z.of_nat (RB - s_off ms - s_done ms)) (rr_count r)); [|lia]. split; [reflexivity|]. split; [apply log_ok_holds, Hlog|]. split; [congruence|]. split; [auto|].
    exists []. rewrite app_nil_r. split; [reflexivity|]. split; [reflexivity|]. split; [reflexivity|]. discriminate. }
  destruct (Z.ltb_spec (Z.of_nat (RB - s_off ms - s_done ms)) (rr_count r)); [lia|].
  rewrite (Z.add_comm (Z.of_nat (s_done ms))). set (lr := Z.to_nat (rr_count r + Z.of_nat (s_done ms))).
  assert (Hlr : (s_off ms + lr <= RB)%nat) by lia.
  set (h := s_heap ms) in *.
  assert (Hdata : contents h {| l_arr := s_arr ms; l_off := s_off ms; l_len := lr |} = firstn lr (kept ms ++ given_slice ms)).
  { rewrite <- Hbs. reflexivity. }
  assert (Hdl : length (firstn lr (kept ms ++ given_slice ms)) = lr).
  { rewrite firstn_length, app_length, Hkl, Hsl. lia. }
  rewrite Hdl. pose proof (mem_inner_ok (S lr) t err h (s_arr ms) (s_off ms) lr) as Hin.
  destruct (mem_inner (S lr) t err h (s_arr ms) (s_off ms) lr) as [sent res].
  destruct Hin as (r' & Hin & k & Hk & Hf & Hr); [rewrite Ha; lia|]. rewrite Hdata in Hin. rewrite Hin.
  destruct res as [done| |].
  - destruct Hr as [Hkd ->]. set (off := (s_off ms + (lr - done))%nat). assert (Hoff : off = (s_off ms + k)%nat) by (unfold off; lia).
    set (old := {| l_arr := s_arr ms; l_off := off; l_len := RB - off |}). 
    assert (Hlen : l_len old = (RB - off)%nat) by (unfold old; cbn [l_len]; exact eq_refl). rewrite Hlen.
    destruct (Nat.ltb_spec (RB - off) 500) as [Hlt|Hge].
    + set (fresh := put (repeat 0%N RB) 0 (contents h old)).
      assert (Hcl : length (contents h old) = (RB - off)%nat).
      { rewrite contents_length; [exact Hlen|]. unfold old. cbn [l_arr l_off l_len]. rewrite Ha. lia. }
      assert (Hfl : length fresh = RB) by (unfold fresh; rewrite put_length; rewrite repeat_length; [reflexivity|lia]).
      assert (Hkeep : forall l, (l_arr l <= s_arr ms)%nat -> contents (h ++ [fresh]) l = contents h l).
      { intros l Hl. apply contents_other. apply array_app_l. lia. }
      assert (Hnew : array (h ++ [fresh]) (length h) = fresh) by (unfold array; rewrite app_nth2, Nat.sub_diag by lia; reflexivity).
      match goal with |- context [log_holds ?s] => set (st' := s) end.
      assert (HL : log_ok st').
      { unfold log_ok, st'. cbn [s_log s_heap]. apply Forall_app. split.
        - eapply Forall_impl; [|exact Hlog]. intros y (Hy & Hz). assert (Hle : (l_arr (snd y) <= s_arr ms)%nat) by (destruct Hz as [Hz|[Hz _]]; lia).
          split; [rewrite Hkeep by exact Hle; exact Hy|]. left. cbn [s_arr]. lia.
        - eapply Forall_impl; [|exact Hf]. intros y (H1 & H2 & H3). split; [rewrite Hkeep by lia; exact H1|]. left. cbn [s_arr]. lia. }
      split; [reflexivity|]. split; [apply log_ok_holds, HL|]. split; [intros _; split; [exact HL|]|split].
      * unfold inv_at, st'. cbn [s_heap s_arr s_off s_done]. split; [rewrite app_length; cbn [length]; lia|]. split; [rewrite Hnew; exact Hfl|]. lia.
      * intros l Hl. unfold st'. cbn [s_heap]. assert (Hle : (l_arr l <= s_arr ms)%nat) by (destruct Hl as [Hl|[Hl _]]; lia).
        split; [exact (Hkeep l Hle)|]. left. cbn [s_arr]. lia.
      * exists sent. split; [reflexivity|]. split; [reflexivity|]. split; [reflexivity|]. intros b E. injection E as <-.
        unfold kept, st'. cbn [s_heap s_arr s_off s_done]. unfold contents at 1. cbn [l_arr l_off l_len]. rewrite Hnew. cbn [skipn]. unfold fresh, put. cbn [firstn app].
        rewrite firstn_app. replace (done - length (contents h old))%nat with 0%nat by lia. cbn [firstn]. rewrite app_nil_r.
        unfold contents, old. cbn [l_arr l_off l_len]. rewrite firstn_firstn, Nat.min_l by lia. rewrite Hoff. reflexivity.
    + match goal with |- context [log_holds ?s] => set (st' := s) end.
      assert (HL : log_ok st').
      { unfold log_ok, st'. cbn [s_log s_heap]. apply Forall_app. split.
        - eapply Forall_impl; [|exact Hlog]. intros y (Hy & Hz). split; [exact Hy|].
          destruct Hz as [Hz|[Hz1 Hz2]]; [left; exact Hz|right; cbn [s_arr s_off]; split; [exact Hz1|lia]].
        - eapply Forall_impl; [|exact Hf]. intros y (H1 & H2 & H3). split; [exact H1|]. right. cbn [s_arr s_off]. split; [exact H2|lia]. }
      split; [reflexivity|]. split; [apply log_ok_holds, HL|]. split; [intros _; split; [exact HL|]|split].
      * unfold inv_at, st'. cbn [s_heap s_arr s_off s_done]. split; [exact Hh|]. split; [exact Ha|]. lia.
      * intros l Hl. unfold st'. cbn [s_heap]. split; [reflexivity|]. destruct Hl as [Hl|[Hl1 Hl2]]; [left; exact Hl|right; cbn [s_arr s_off]; split; [exact Hl1|lia]].
      * exists sent. split; [reflexivity|]. split; [reflexivity|]. split; [reflexivity|]. intros b E. injection E as <-.
        unfold kept, st'. cbn [s_heap s_arr s_off s_done]. rewrite Hoff. reflexivity.
  - subst r'. split; [reflexivity|]. split; [|split; [congruence|split]].
    + unfold log_holds. cbn [s_log s_heap]. apply Forall_app. split; [apply (log_ok_holds ms), Hlog|]. eapply Forall_impl; [|exact Hf]. intros y (H1 & _). exact H1.
    + intros l Hl. split; [reflexivity|exact Hl].
    + exists sent. split; [reflexivity|]. split; [reflexivity|]. split; [reflexivity|]. discriminate.
  - subst r'. split; [reflexivity|]. split; [|split; [congruence|split]].
    + unfold log_holds. cbn [s_log s_heap]. apply Forall_app. split; [apply (log_ok_holds ms), Hlog|]. eapply Forall_impl; [|exact Hf]. intros y (H1 & _). exact H1.
    + intros l Hl. split; [reflexivity|exact Hl].
    + exists sent. split; [reflexivity|]. split; [reflexivity|]. split; [reflexivity|]. discriminate.
Qed.

Lemma any_step_ok t st r : inv st -> log_ok st ->
  let '(st', errs, nx) := any_step t st r in
  errs = match rr_err r with Some (ROther e) => [e] | _ => [] end /\
  log_holds st' /\ (nx <> MCrash -> log_ok st' /\ inv st') /\
  (forall l, frozen st l -> contents (s_heap st') l = contents (s_heap st) l /\ frozen st' l) /\
  exists sent, s_log st' = s_log st ++ sent /\
    let '(delivered, held, nx') := turn t (kept st) (after_write (given_slice st) (rr_wrote r)) (rr_count r) (is_eof (rr_err r)) in
    map fst sent = delivered /\ nx' = nx /\ (forall b, held = Some b -> kept st' = b).
Proof.
  intros Hi0 Hlog0. destruct (read_into_ok st r Hi0) as (Hi & Hk0 & Hs & Hfr0).
  assert (Hlog : log_ok (read_into st r)).
  { eapply Forall_impl; [|exact Hlog0]. intros x (A & B). split; [|exact B]. rewrite (Hfr0 _ B). exact A. }
  pose proof (decode_turn_ok (Z.to_nat read_buffer) t (read_into st r) r Hi Hlog) as H. rewrite any_step_decode. destruct (decode_turn (Z.to_nat read_buffer) t (read_into st r) r) as [[st' errs] nx].
  destruct H as (H1 & H2 & H3 & H4 & H5). rewrite Hk0, Hs in H5. split; [exact H1|]. split; [exact H2|]. split; [exact H3|]. split; [|exact H5].
  intros l Hl. destruct (H4 l Hl) as [E F]. split; [rewrite E; exact (Hfr0 l Hl)|exact F].
Qed.

Lemma any_run_ok t reads : forall st, inv st -> log_ok st ->
  let '(st', errs, nx) := any_run t st reads in
  (exists new, s_log st' = s_log st ++ new) /\ log_holds st' /\ (nx <> MCrash -> log_ok st' /\ inv st') /\
  (forall l, frozen st l -> contents (s_heap st') l = contents (s_heap st) l /\ frozen st' l).
Proof.
  induction reads as [|r more IH]; intros st Hi Hl; cbn [any_run].
  - split; [exists []; rewrite app_nil_r; reflexivity|]. split; [apply log_ok_holds, Hl|]. auto.
  - pose proof (any_step_ok t st r Hi Hl) as H. destruct (any_step t st r) as [[st1 e1] n1]. destruct H as (_ & H2 & H3 & H4 & sent & H5 & _).
    destruct n1; [|split; [exists sent; exact H5|auto]..].
    destruct (H3 ltac:(discriminate)) as [Hl1 Hi1]. specialize (IH st1 Hi1 Hl1). destruct (any_run t st1 more) as [[st2 e2] n2]. destruct IH as ((new & I1) & I2 & I3 & I4).
    split; [exists (sent ++ new); rewrite I1, H5, app_assoc; reflexivity|]. split; [exact I2|]. split; [exact I3|].
    intros l K. destruct (H4 l K) as [A B]. destruct (I4 l B) as [C D]. split; [rewrite C; exact A|exact D].
Qed.

Lemma any_run_app t r1 : forall st r2, any_run t st (r1 ++ r2) =
  match any_run t st r1 with (st', e, MCont) => let '(st'', e', nx) := any_run t st' r2 in (st'', e ++ e', nx) | x => x end.
Proof.
  induction r1 as [|r r1 IH]; intros st r2; cbn [app any_run]; [destruct (any_run t st r2) as [[a b] c]; reflexivity|].
  destruct (any_step t st r) as [[st1 e1] n1]. destruct n1; [|reflexivity..]. rewrite IH. destruct (any_run t st1 r1) as [[st2 e2] n2].
  destruct n2; [|reflexivity..]. destruct (any_run t st2 r2) as [[st3 e3] n3]. rewrite app_assoc. reflexivity.
Qed.

(** ** the theorems *)

(** Whatever Read did before and does now (what it writes, the count and the error it returns): the error
    is reported unless it is io.EOF; a count outside of [-kept, slice] crashes the process; otherwise
    what is decoded is what was kept and the slice, cut at the count. *)
Theorem C111_turn : forall t reads st errs r, any_run t mem_init reads = (st, errs, MCont) ->
  exists st' nx sent, any_run t mem_init (reads ++ [r]) = (st', errs ++ match rr_err r with Some (ROther e) => [e] | _ => [] end, nx) /\
    s_log st' = s_log st ++ sent /\
    let '(delivered, held, nx') := turn t (kept st) (after_write (given_slice st) (rr_wrote r)) (rr_count r) (match rr_err r with Some REOF => true | _ => false end) in
    map fst sent = delivered /\ nx = nx' /\ (forall b, held = Some b -> kept st' = b).
Proof.
  intros t reads st errs r H. pose proof (any_run_ok t reads mem_init inv_init (proj2 init_related)) as I. rewrite any_run_app, H in *. destruct I as (_ & _ & I & _).
  destruct (I ltac:(discriminate)) as [Hl Hi]. pose proof (any_step_ok t st r Hi Hl) as S. cbn [any_run]. destruct (any_step t st r) as [[st' e] nx].
  destruct S as (-> & _ & _ & _ & sent & S1 & S2). unfold is_eof in S2.
  exists st', nx, sent. split; [destruct nx; rewrite ?app_nil_r; reflexivity|]. split; [exact S1|]. destruct (turn _ _ _ _ _) as [[d held] nx']. destruct S2 as (A & <- & B). auto.
Qed.
Print Assumptions C111_turn.

(** The slice given to Read: with what is kept, 500 to 65536 bytes. *)
Theorem C111_slice : forall t reads st errs, any_run t mem_init reads = (st, errs, MCont) ->
  (500 <= Z.of_nat (length (kept st) + length (given_slice st)) <= 65536)%Z.
Proof.
  intros t reads st errs H. pose proof (any_run_ok t reads mem_init inv_init (proj2 init_related)) as I. rewrite H in I. destruct I as (_ & _ & I & _).
  destruct (I ltac:(discriminate)) as [_ Hi]. rewrite (kept_length _ _ Hi), (slice_length _ _ Hi). destruct Hi as (_ & _ & A & B). unfold read_buffer in *. lia.
Qed.
Print Assumptions C111_slice.

(** A message delivered never changes, whatever Read did and does later in the slices it is given. *)
Theorem C111_immutable : forall t r1 r2 m e l,
  In ((m, e), l) (s_log (fst (fst (any_run t mem_init r1)))) ->
  contents (s_heap (fst (fst (any_run t mem_init r1)))) l = i_buf m /\
  contents (s_heap (fst (fst (any_run t mem_init (r1 ++ r2))))) l = i_buf m.
Proof.
  intros t r1 r2 m e l Hin. pose proof (any_run_ok t r1 mem_init inv_init (proj2 init_related)) as H1. rewrite any_run_app.
  destruct (any_run t mem_init r1) as [[st e1] n1]. cbn [fst] in *. destruct H1 as (_ & H1 & H2 & _).
  assert (H0 : contents (s_heap st) l = i_buf m) by (unfold log_holds in H1; rewrite Forall_forall in H1; exact (H1 _ Hin)).
  split; [exact H0|]. destruct n1; [|exact H0..]. destruct (H2 ltac:(discriminate)) as [Hl Hi].
  pose proof (any_run_ok t r2 st Hi Hl) as H3. destruct (any_run t st r2) as [[st2 e2] n2]. cbn [fst]. destruct H3 as (_ & _ & _ & H3).
  unfold log_ok in Hl. rewrite Forall_forall in Hl. destruct (Hl _ Hin) as [_ Hf]. rewrite (proj1 (H3 l Hf)). exact H0.
Qed.
Print Assumptions C111_immutable.

(** A Read that follows the contract of io.Reader: it writes at least the bytes it counts, and may use the
    rest of the slice as scratch space. *)
Definition honest (r : rresult) : Prop := (0 <= rr_count r <= Z.of_nat (length (rr_wrote r)))%Z.
Definition read_of (r : rresult) : bytes * option read_err := (firstn (Z.to_nat (rr_count r)) (rr_wrote r), rr_err r).

Lemma put_twice a o w n : (o <= length a)%nat -> (n <= length w)%nat -> (o + n <= length a)%nat ->
  put (put a o (firstn (length a - o) w)) o (firstn n w) = put a o (firstn (length a - o) w).
Proof.
  intros Ho Hn Hf. rewrite put_all by exact Ho. unfold put. rewrite firstn_app, firstn_length, Nat.min_l by lia. rewrite Nat.sub_diag. cbn [firstn]. rewrite app_nil_r, firstn_firstn, Nat.min_id.
  f_equal. rewrite (firstn_length n w), Nat.min_l by lia. rewrite skipn_app, firstn_length, Nat.min_l by lia. rewrite skipn_all2 by (rewrite firstn_length; lia). cbn [app].
  replace (o + n - o)%nat with n by lia. unfold after_write. rewrite skipn_length.
  rewrite skipn_app, firstn_length. replace (n - Nat.min (length a - o) (length w))%nat with 0%nat by lia. cbn [skipn]. rewrite app_assoc. f_equal.
  rewrite <- (firstn_skipn n (firstn (length a - o) w)) at 2. f_equal. rewrite firstn_firstn, Nat.min_l by lia. reflexivity.
Qed.

Lemma set_array_twice h i a b : set_array (set_array h i a) i b = set_array h i b.
Proof. revert i. induction h as [|x h IH]; intros [|i]; cbn [set_array]; [reflexivity..|]. rewrite IH. reflexivity. Qed.

(** then one turn is a turn of MTokMem.v from the memory it scribbled on *)
Lemma honest_step t st r : inv st -> honest r -> (rr_count r <= Z.of_nat (length (given_slice st)))%Z ->
  any_step t st r = let '(st', nx) := mem_step t (read_into st r) (fst (read_of r)) (rr_err r) in (st', match rr_err r with Some (ROther e) => [e] | _ => [] end, nx).
Proof.
  intros Hi Hh Hs. destruct (read_into_ok st r Hi) as (Hi1 & _). pose proof Hi1 as (_ & Ha1 & _). pose proof Hi as (Hhp & Ha & Ho & _). rewrite (slice_length _ _ Hi) in Hs. unfold honest in Hh.
  unfold any_step, decode_turn, mem_step, read_of. cbn [fst]. set (n := Z.to_nat (rr_count r)).
  assert (Hln : length (firstn n (rr_wrote r)) = n) by (rewrite firstn_length; lia). rewrite Hln.
  assert (Hz : (rr_count r =? 0)%Z = (n =? 0)%nat) by lia. rewrite Hz.
  destruct ((n =? 0)%nat && match rr_err r with Some REOF => true | _ => false end); [reflexivity|]. destruct (Nat.eqb_spec n 0) as [E|E]; [reflexivity|].
  change (s_done (read_into st r)) with (s_done st). change (s_off (read_into st r)) with (s_off st). change (s_arr (read_into st r)) with (s_arr st) in *.
  destruct (Z.ltb_spec (rr_count r + Z.of_nat (s_done st)) 0); [lia|]. cbn [orb]. destruct (Z.ltb_spec (Z.of_nat (length (array (s_heap (read_into st r)) (s_arr st)) - s_off st)) (rr_count r + Z.of_nat (s_done st))); [lia|].
  assert (El : Z.to_nat (rr_count r + Z.of_nat (s_done st)) = (n + s_done st)%nat) by lia. rewrite El.
  assert (Eh : set_array (s_heap (read_into st r)) (s_arr st) (put (array (s_heap (read_into st r)) (s_arr st)) (s_off st + s_done st) (firstn n (rr_wrote r))) = s_heap (read_into st r)).
  { unfold read_into. cbn [s_heap]. rewrite array_set by lia. rewrite Nat.eqb_refl, set_array_twice, put_twice by lia. reflexivity. }
  rewrite Eh. destruct (mem_inner _ _ _ _ _ _ _) as [sent res]. destruct res; reflexivity.
Qed.

Lemma honest_run t reads : forall st ts, inv st -> related st ts -> log_ok st -> Forall honest reads -> reads_ok t ts (map read_of reads) ->
  let '(st', errs, nx) := any_run t st reads in
  let o := tok_run t ts (map read_of reads) in
  map fst (s_log st') = map fst (s_log st) ++ o_sent o /\ errs = o_errs o /\
  match nx, o_next o with MCont, TCont ts' => kept st' = t_pending ts' | MReturn, TReturn _ => True | MCrash, TCrash => True | _, _ => False end.
Proof.
  induction reads as [|r more IH]; intros st ts Hi Hr Hl Hh Hok; cbn [map any_run tok_run].
  - cbn [o_sent o_errs o_next]. rewrite app_nil_r. split; [reflexivity|]. split; [reflexivity|]. exact (proj1 (proj2 (proj2 (proj2 Hr)))).
  - inversion Hh as [|? ? Hr1 Hh1]; subst. cbn [map reads_ok] in Hok. unfold read_of at 1 in Hok. fold (read_of r) in Hok.
    destruct Hok as [Hroom Hok]. destruct (read_into_ok st r Hi) as (Hi1 & Hk1 & _ & Hfr).
    assert (Hrel1 : related (read_into st r) ts).
    { destruct Hr as (A & B & C & D & E). destruct Hi1 as (A1 & B1 & C1 & _). split; [exact A1|]. split; [exact B1|]. split; [exact C1|]. split; [|exact E].
      rewrite <- D. exact Hk1. }
    assert (Hl1 : log_ok (read_into st r)).
    { eapply Forall_impl; [|exact Hl]. intros x (A & B). split; [|exact B]. rewrite (Hfr _ B). exact A. }
    assert (Hln : length (firstn (Z.to_nat (rr_count r)) (rr_wrote r)) = Z.to_nat (rr_count r)) by (unfold honest in Hr1; rewrite firstn_length; lia).
    assert (Hroom' : (rr_count r <= Z.of_nat (length (given_slice st)))%Z).
    { rewrite (slice_length _ _ Hi). rewrite Hln in Hroom. unfold tok_room in Hroom. rewrite <- (related_done _ _ Hr) in Hroom. destruct Hr as (_ & _ & _ & _ & E). rewrite E in Hroom.
      destruct Hi as (_ & _ & A & B). unfold honest in Hr1. lia. }
    pose proof (any_step_ok t st r Hi Hl) as Hany. rewrite (honest_step t st r Hi Hr1 Hroom') in *.
    pose proof (mem_step_ok t (read_into st r) ts (fst (read_of r)) (rr_err r) Hrel1 Hl1 Hroom) as Hs. change (fst (read_of r)) with (firstn (Z.to_nat (rr_count r)) (rr_wrote r)) in *. change (read_of r) with (firstn (Z.to_nat (rr_count r)) (rr_wrote r), rr_err r). cbv beta iota.
    destruct (mem_step t (read_into st r) (firstn (Z.to_nat (rr_count r)) (rr_wrote r)) (rr_err r)) as [st1 nx]. cbv zeta in Hs. destruct Hs as (Hmap & _ & _ & _ & Hx). destruct Hany as (_ & _ & Hinv & _).
    change (s_log (read_into st r)) with (s_log st) in Hmap.
    pose proof (step_errs t ts (firstn (Z.to_nat (rr_count r)) (rr_wrote r)) (rr_err r)) as Herr.
    destruct nx, (o_next (tok_step t ts (firstn (Z.to_nat (rr_count r)) (rr_wrote r)) (rr_err r))) as [ts'|l|] eqn:En; try contradiction; cbv zeta.
    + destruct (Hinv ltac:(discriminate)) as [Hl2 Hi2]. specialize (IH st1 ts' Hi2 Hx Hl2 Hh1 Hok). destruct (any_run t st1 more) as [[st2 e2] n2]. cbv zeta in IH. destruct IH as (I1 & I2 & I3).
      cbv beta iota zeta. cbn [o_sent o_errs o_next]. split; [rewrite I1, Hmap, app_assoc; reflexivity|]. split; [rewrite I2, Herr; reflexivity|exact I3].
    + rewrite En. split; [exact Hmap|]. split; [symmetry; exact Herr|exact I].
    + rewrite En. split; [exact Hmap|]. split; [symmetry; exact Herr|exact I].
Qed.

(** With such a Read, a connection does what C30 to C40 say of the bytes counted: what Read leaves in the
    rest of the slice has no effect. *)
Theorem C111_contract : forall t reads, Forall honest reads -> reads_ok t tok_init (map read_of reads) ->
  let '(st, errs, nx) := any_run t mem_init reads in
  let o := tok_run t tok_init (map read_of reads) in
  map fst (s_log st) = o_sent o /\ errs = o_errs o /\
  match nx, o_next o with MCont, TCont ts => kept st = t_pending ts | MReturn, TReturn _ => True | MCrash, TCrash => True | _, _ => False end.
Proof.
  intros t reads Hh Hok. exact (honest_run t reads mem_init tok_init inv_init (proj1 init_related) (proj2 init_related) Hh Hok).
Qed.
Print Assumptions C111_contract.

(** ** where the bytes delivered come from *)
Definition bytes_in (P : N -> Prop) (h : heap) : Prop := Forall (Forall P) h.

Lemma bytes_firstn (P : N -> Prop) n l : Forall P l -> Forall P (firstn n l).
Proof. intros H. rewrite <- (firstn_skipn n l) in H. apply Forall_app in H as [H _]. exact H. Qed.
Lemma bytes_skipn (P : N -> Prop) n l : Forall P l -> Forall P (skipn n l).
Proof. intros H. rewrite <- (firstn_skipn n l) in H. apply Forall_app in H as [_ H]. exact H. Qed.
Lemma bytes_put (P : N -> Prop) a o d : Forall P a -> Forall P d -> Forall P (put a o d).
Proof. intros Ha Hd. unfold put. apply Forall_app. split; [apply bytes_firstn, Ha|]. apply Forall_app. split; [exact Hd|apply bytes_skipn, Ha]. Qed.
Lemma bytes_set P h i a : bytes_in P h -> Forall P a -> bytes_in P (set_array h i a).
Proof. intros Hh Ha. revert i. induction Hh as [|x h Hx Hh IH]; intros [|i]; cbn [set_array]; [constructor|constructor|constructor; assumption|constructor; [exact Hx|apply IH]]. Qed.
Lemma bytes_array P h i : bytes_in P h -> Forall P (array h i).
Proof.
  intros H. unfold array. destruct (Nat.lt_ge_cases i (length h)) as [Hl|Hl]; [|rewrite nth_overflow by exact Hl; constructor].
  unfold bytes_in in H. rewrite Forall_forall in H. apply H, nth_In, Hl.
Qed.

Lemma bytes_contents P h l : bytes_in P h -> Forall P (contents h l).
Proof.
  intros H. unfold contents. apply bytes_firstn, bytes_skipn, bytes_array, H.
Qed.

Lemma bytes_step (P : N -> Prop) t st r : P 0%N -> Forall P (rr_wrote r) -> bytes_in P (s_heap st) -> bytes_in P (s_heap (fst (fst (any_step t st r)))).
Proof.
  intros H0 Hw Hh.
  assert (H1 : bytes_in P (s_heap (read_into st r))).
  { unfold read_into. cbn [s_heap]. apply bytes_set; [exact Hh|]. apply bytes_put; [apply bytes_array, Hh|apply bytes_firstn, Hw]. }
  unfold any_step, decode_turn. destruct (_ && _); [exact H1|]. destruct (rr_count r =? 0)%Z; [exact H1|]. destruct (_ || _); [exact H1|].
  destruct (mem_inner _ _ _ _ _ _ _) as [sent res]. destruct res as [done| |]; [|exact H1..]. cbv zeta. destruct (_ <? 500)%nat; cbn [fst s_heap]; [|exact H1].
  apply Forall_app. split; [exact H1|]. constructor; [|constructor]. apply bytes_put; [|apply bytes_contents, H1]. apply Forall_forall. intros x Hx. apply repeat_spec in Hx. subst x. exact H0.
Qed.

Lemma bytes_run (P : N -> Prop) t reads : forall st, P 0%N -> Forall (fun r => Forall P (rr_wrote r)) reads -> bytes_in P (s_heap st) -> bytes_in P (s_heap (fst (fst (any_run t st reads)))).
Proof.
  induction reads as [|r more IH]; intros st H0 Hw Hh; cbn [any_run]; [exact Hh|]. inversion Hw as [|? ? Hr Hm]; subst.
  pose proof (bytes_step P t st r H0 Hr Hh) as H1. destruct (any_step t st r) as [[st1 e1] n1]. cbn [fst] in H1. destruct n1; [|exact H1..].
  specialize (IH st1 H0 Hm H1). destruct (any_run t st1 more) as [[st2 e2] n2]. exact IH.
Qed.

(** Every byte of a message delivered was written by some Read, or is the zero of a new buffer. *)
Theorem C111_provenance : forall t reads m e l b,
  In ((m, e), l) (s_log (fst (fst (any_run t mem_init reads)))) -> In b (i_buf m) ->
  b = 0%N \/ exists r, In r reads /\ In b (rr_wrote r).
Proof.
  intros t reads m e l b Hin Hb. destruct (C111_immutable t reads [] m e l Hin) as [E _]. rewrite <- E in Hb.
  assert (H : bytes_in (fun b => b = 0%N \/ exists r, In r reads /\ In b (rr_wrote r)) (s_heap (fst (fst (any_run t mem_init reads))))).
  { apply bytes_run; [left; reflexivity| |].
    - apply Forall_forall. intros r Hr. apply Forall_forall. intros x Hx. right. exists r. auto.
    - constructor; [|constructor]. apply Forall_forall. intros x Hx. apply repeat_spec in Hx. left. exact Hx. }
  apply (bytes_contents _ _ l) in H. rewrite Forall_forall in H. exact (H b Hb).
Qed.
Print Assumptions C111_provenance.

(** Non-vacuity.  A first Read follows the contract and leaves other bytes in the slice; a second one
    counts bytes it did not write and reports an error: it gets those; a third one takes two bytes back;
    a fourth one takes more than there is. *)
Definition ar_frame : bytes := bs "<13>1 - - - - - - hello" ++ [10%N].
Definition ar_reads : list rresult :=
  [{| rr_wrote := ar_frame ++ ar_frame; rr_count := Z.of_nat (length ar_frame); rr_err := None |};
   {| rr_wrote := []; rr_count := 5; rr_err := Some (ROther 7) |};
   {| rr_wrote := bs "x"; rr_count := -2; rr_err := None |}].

Example C111_nonvacuous :
  (let '(st, errs, nx) := any_run TLFEnded mem_init ar_reads in
   map (fun x => imm_text (fst (fst x))) (s_log st) = [Val (bs "hello")] /\ errs = [7%nat] /\ nx = MCont /\ kept st = bs "<13") /\
  snd (any_run TLFEnded mem_init (ar_reads ++ [{| rr_wrote := []; rr_count := -4; rr_err := Some REOF |}])) = MCrash /\
  snd (any_run TLFEnded mem_init (ar_reads ++ [{| rr_wrote := []; rr_count := 65536; rr_err := None |}])) = MCrash /\
  snd (any_run TLFEnded mem_init (ar_reads ++ [{| rr_wrote := []; rr_count := -3; rr_err := Some REOF |}])) = MReturn /\
  honest (nth 0 ar_reads {| rr_wrote := []; rr_count := 0; rr_err := None |}) /\ reads_ok TLFEnded tok_init (map read_of (firstn 1 ar_reads)).
Proof.
  split; [vm_compute; auto|]. split; [vm_compute; reflexivity|]. split; [vm_compute; reflexivity|]. split; [vm_compute; reflexivity|].
  split; [unfold honest; vm_compute; split; discriminate|]. cbn [firstn map ar_reads reads_ok]. unfold read_of. cbn [rr_count rr_wrote rr_err]. split; [vm_compute; discriminate|]. vm_compute. exact I.
Qed.

(** A message need not be made of bytes written by the Read that counted them: a Read that writes nothing
    and counts a frame delivers what the previous one left in the slice. *)
Theorem C111_only_new_bytes_refuted : exists r1 r2, honest r1 /\ rr_wrote r2 = [] /\
  map (fun x => imm_text (fst (fst x))) (s_log (fst (fst (any_run TLFEnded mem_init [r1; r2])))) = [Val (bs "hello"); Val (bs "hello")].
Proof.
  exists {| rr_wrote := ar_frame ++ ar_frame; rr_count := Z.of_nat (length ar_frame); rr_err := None |}, {| rr_wrote := []; rr_count := Z.of_nat (length ar_frame); rr_err := None |}.
  split; [unfold honest; vm_compute; split; discriminate|]. split; [reflexivity|]. vm_compute. reflexivity.
Qed.
Print Assumptions C111_only_new_bytes_refuted.
