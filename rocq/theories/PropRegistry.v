(** PropRegistry.v -- C86: the registry of structured data identifiers, called from any number of
    goroutines. *)
From Verif Require Import Base BaseFacts MSData PropSData3 MRegistry.
From Coq Require Import Permutation.

(** ** specification: calls made one after another *)
Definition returns (reg : registry) (c : rcall) (r : rresult) (reg' : registry) : Prop :=
  match c with
  | CallRegister x => reg' = fst (register reg x) /\ r = RRegistered (snd (register reg x))
  | CallGroup l => reg' = register_group reg l /\ r = RGroupDone
  | CallParse d sp => reg' = reg /\ exists order, Permutation order (map snd reg) /\
      match registry_found order d sp with Val o => r = RParsed o | _ => r = RPanics end
  end.
Inductive sequential : registry -> list (nat * rcall * rresult) -> registry -> Prop :=
| SeqNil reg : sequential reg [] reg
| SeqCons reg i c r reg1 rest reg2 : returns reg c r reg1 -> sequential reg1 rest reg2 -> sequential reg ((i, c, r) :: rest) reg2.

Lemma sequential_snoc reg h reg1 i c r reg2 : sequential reg h reg1 -> returns reg1 c r reg2 -> sequential reg (h ++ [(i, c, r)]) reg2.
Proof. induction 1 as [|reg j c' r' reg0 rest reg3 H1 H2 IH]; intros H; cbn; econstructor; eauto. constructor. Qed.

Definition holds (t : rthread) : Prop := match t with TIn _ _ | TStuck _ _ => True | _ => False end.

(** what is true of the critical section in progress, since the registry [reg0] it found *)
Definition progress_ok (reg0 reg : registry) (t : rthread) : Prop :=
  match t with
  | TIn (CallParse d sp) todo => reg = reg0 /\ exists tried, Permutation (tried ++ todo) (map snd reg0) /\ Forall (fun x => sdid_found x d sp = Val None) tried
  | TIn (CallRegister x) todo => reg = reg0 /\ todo = [x]
  | TIn (CallGroup l) todo => exists added, l = added ++ todo /\ reg = register_group reg0 added
  | TStuck _ _ => True
  | _ => reg = reg0
  end.

Record ginv (s : gstate) : Prop := {
  gi_lock : forall i, holds (g_threads s i) <-> g_lock s = Some i;
  gi_hist : exists reg0, sequential [] (g_done s) reg0 /\ match g_lock s with Some i => progress_ok reg0 (g_reg s) (g_threads s i) | None => g_reg s = reg0 end }.

Lemma upd_same f i x : upd f i x i = x.
Proof. unfold upd. rewrite Nat.eqb_refl. reflexivity. Qed.
Lemma upd_other f i x j : j <> i -> upd f i x j = f j.
Proof. intros H. unfold upd. destruct (Nat.eqb_spec j i); [congruence|reflexivity]. Qed.

Lemma register_group_app l1 : forall r l2, register_group r (l1 ++ l2) = register_group (register_group r l1) l2.
Proof. induction l1 as [|x l1 IH]; intros r l2; [reflexivity|]. cbn. apply IH. Qed.
Lemma add_one_register r x : add_one r x = fst (register r x).
Proof. reflexivity. Qed.

Lemma found_skip tried : forall todo d sp, Forall (fun x => sdid_found x d sp = Val None) tried -> registry_found (tried ++ todo) d sp = registry_found todo d sp.
Proof. induction tried as [|x tried IH]; intros todo d sp H; [reflexivity|]. inversion H as [|? ? H1 H2]; subst. cbn. rewrite H1. cbn. apply IH, H2. Qed.

(** the lock while the thread of i changes from a state that holds to one that holds / finishes *)
Lemma lock_kept s i x : (forall j, holds (g_threads s j) <-> g_lock s = Some j) -> holds (g_threads s i) -> holds x ->
  forall j, holds (upd (g_threads s) i x j) <-> g_lock s = Some j.
Proof.
  intros H Hi Hx j. destruct (Nat.eq_dec j i) as [->|n]; [rewrite upd_same|rewrite upd_other by exact n; apply H]. rewrite <- H. tauto.
Qed.
Lemma lock_freed s i : (forall j, holds (g_threads s j) <-> g_lock s = Some j) -> holds (g_threads s i) ->
  forall j, holds (upd (g_threads s) i TIdle j) <-> None = Some j.
Proof.
  intros H Hi j. destruct (Nat.eq_dec j i) as [->|n]; [rewrite upd_same; split; [intros []|discriminate]|]. rewrite upd_other, H by exact n.
  apply H in Hi. split; [congruence|discriminate].
Qed.
Lemma lock_idle s i x : (forall j, holds (g_threads s j) <-> g_lock s = Some j) -> ~ holds (g_threads s i) -> ~ holds x ->
  forall j, holds (upd (g_threads s) i x j) <-> g_lock s = Some j.
Proof.
  intros H Hi Hx j. destruct (Nat.eq_dec j i) as [->|n]; [rewrite upd_same|rewrite upd_other by exact n; apply H]. rewrite <- H. tauto.
Qed.

Lemma gstep_inv s a s' : ginv s -> gstep s a s' -> ginv s'.
Proof.
  intros [Hl (reg0 & Hs & Hp)] H.
  destruct H as [i c Hi|i c todo Hi Hfree Hst|i d sp x todo sd Hi Hf|i d sp x todo Hi Hf|i d sp x todo Hi Hf|i d sp r Hi Hr|i x todo Hi|i l x todo Hi|i l Hi|i c name f todo inner Hi].
  (* every case but the first two: i holds the lock *)
  all: try (assert (Hh : holds (g_threads s i)) by (rewrite Hi; exact I); pose proof (proj1 (Hl i) Hh) as Hlk; rewrite Hlk, Hi in Hp; cbn [progress_ok] in Hp).
  - constructor; cbn [move g_threads g_lock g_reg g_done].
    + apply lock_idle; [exact Hl|rewrite Hi; auto|auto].
    + exists reg0. split; [exact Hs|]. destruct (g_lock s) as [k|] eqn:Ek; [|exact Hp]. assert (Hk : holds (g_threads s k)) by (apply Hl; reflexivity).
      destruct (Nat.eq_dec k i) as [->|n]; [rewrite Hi in Hk; destruct Hk|]. rewrite upd_other by exact n. exact Hp.
  - constructor; cbn [move g_threads g_lock g_reg g_done].
    + intros j. destruct (Nat.eq_dec j i) as [->|n]; [rewrite upd_same; cbn; tauto|]. rewrite upd_other, Hl, Hfree by exact n. split; [discriminate|congruence].
    + exists reg0. split; [exact Hs|]. rewrite Hfree in Hp. subst reg0. rewrite upd_same. destruct c; cbn in *.
      * split; [reflexivity|]. exists []. split; [exact Hst|constructor].
      * split; [reflexivity|exact Hst].
      * exists []. split; [cbn; symmetry; exact Hst|reflexivity].
  - destruct Hp as (Hreg & tried & Hperm & Htr). constructor; cbn [finish g_threads g_lock g_reg g_done]; [apply lock_freed; assumption|].
    exists (g_reg s). split; [|reflexivity]. eapply sequential_snoc; [exact Hs|]. rewrite Hreg. split; [reflexivity|]. exists (tried ++ x :: todo). split; [exact Hperm|].
    rewrite found_skip by exact Htr. cbn. rewrite Hf. reflexivity.
  - destruct Hp as (Hreg & tried & Hperm & Htr). constructor; cbn [move g_threads g_lock g_reg g_done]; [apply lock_kept; [exact Hl|exact Hh|exact I]|].
    exists reg0. split; [exact Hs|]. rewrite Hlk, upd_same. split; [exact Hreg|]. exists (tried ++ [x]). rewrite <- app_assoc. split; [exact Hperm|]. apply Forall_app. auto.
  - destruct Hp as (Hreg & tried & Hperm & Htr). constructor; cbn [finish g_threads g_lock g_reg g_done]; [apply lock_freed; assumption|].
    exists (g_reg s). split; [|reflexivity]. eapply sequential_snoc; [exact Hs|]. rewrite Hreg. split; [reflexivity|]. exists (tried ++ x :: todo). split; [exact Hperm|].
    rewrite found_skip by exact Htr. cbn. rewrite Hf. reflexivity.
  - destruct Hp as (Hreg & tried & Hperm & Htr). constructor; cbn [finish g_threads g_lock g_reg g_done]; [apply lock_freed; assumption|].
    exists (g_reg s). split; [|reflexivity]. eapply sequential_snoc; [exact Hs|]. rewrite Hreg. split; [reflexivity|]. exists (tried ++ []). split; [exact Hperm|].
    rewrite found_skip by exact Htr. cbn. exact Hr.
  - destruct Hp as (Hreg & Ht). constructor; cbn [finish g_threads g_lock g_reg g_done]; [apply lock_freed; assumption|].
    exists (add_one (g_reg s) x). split; [|reflexivity]. eapply sequential_snoc; [exact Hs|]. rewrite Hreg. split; reflexivity.
  - destruct Hp as (added & -> & Hreg). constructor; cbn [move g_threads g_lock g_reg g_done]; [apply lock_kept; [exact Hl|exact Hh|exact I]|].
    exists reg0. split; [exact Hs|]. rewrite Hlk, upd_same. exists (added ++ [x]). rewrite <- app_assoc. split; [reflexivity|]. rewrite register_group_app, <- Hreg. reflexivity.
  - destruct Hp as (added & -> & Hreg). constructor; cbn [finish g_threads g_lock g_reg g_done]; [apply lock_freed; assumption|].
    exists (g_reg s). split; [|reflexivity]. eapply sequential_snoc; [exact Hs|]. rewrite app_nil_r. split; [exact Hreg|reflexivity].
  - constructor; cbn [move g_threads g_lock g_reg g_done]; [apply lock_kept; [exact Hl|exact Hh|exact I]|].
    exists reg0. split; [exact Hs|]. rewrite Hlk, upd_same. exact I.
Qed.

Lemma ginv_init : ginv registry_init.
Proof. constructor; cbn; [intros i; split; [intros []|discriminate]|]. exists []. split; [constructor|reflexivity]. Qed.

Lemma gruns_inv s acts s' : ginv s -> gruns s acts s' -> ginv s'.
Proof. intros H R. induction R as [|s a s1 acts s2 H1 R IH]; [exact H|]. apply IH. exact (gstep_inv _ _ _ H H1). Qed.

(** ** theorems *)

(** Calls from any number of goroutines return what they would return if they were made one after
    another, in the order in which they return; a group is registered as a whole. *)
Theorem C86_linearizable : forall acts s, gruns registry_init acts s ->
  exists reg, sequential [] (g_done s) reg /\ (g_lock s = None -> g_reg s = reg).
Proof.
  intros acts s H. destruct (gruns_inv _ _ _ ginv_init H) as [_ (reg0 & Hs & Hp)]. exists reg0. split; [exact Hs|]. intros E. rewrite E in Hp. exact Hp.
Qed.
Print Assumptions C86_linearizable.

Theorem C86_mutual_exclusion : forall acts s i j, gruns registry_init acts s -> holds (g_threads s i) -> holds (g_threads s j) -> i = j.
Proof.
  intros acts s i j H Hi Hj. destruct (gruns_inv _ _ _ ginv_init H) as [Hl _]. apply Hl in Hi. apply Hl in Hj. congruence.
Qed.
Print Assumptions C86_mutual_exclusion.

(** The linear order respects real time: a call that had returned stays before those that return
    later.  Each goroutine's calls return once each, in the order it makes them. *)
Definition call_of (i : nat) (a : gact) : list rcall := match a with GCall j c => if Nat.eqb j i then [c] else [] | _ => [] end.
Definition returned (i : nat) (h : list (nat * rcall * rresult)) : list rcall :=
  flat_map (fun x => if Nat.eqb (fst (fst x)) i then [snd (fst x)] else []) h.
Definition pending (t : rthread) : list rcall := match t with TIdle => [] | TWait c | TIn c _ | TStuck c _ => [c] end.

Lemma gstep_calls s a s' i : gstep s a s' ->
  exists l, g_done s' = g_done s ++ l /\ pending (g_threads s i) ++ call_of i a = returned i l ++ pending (g_threads s' i).
Proof.
  assert (Hk : forall x, exists l, g_done s = g_done s ++ l /\ (x : list rcall) ++ [] = returned i l ++ x) by (intros x; exists []; cbn; rewrite !app_nil_r; auto).
  assert (Hf : forall j c r x, (j = i -> x = [c]) -> exists l, g_done s ++ [(j, c, r)] = g_done s ++ l /\ x ++ [] = returned i l ++ (if Nat.eqb i j then [] else x)).
  { intros j c r x Hx. exists [(j, c, r)]. split; [reflexivity|]. cbn. rewrite !app_nil_r. rewrite (Nat.eqb_sym i j). destruct (Nat.eqb_spec j i) as [->|n]; [rewrite Hx; reflexivity|reflexivity]. }
  assert (Hu : forall j x, pending (upd (g_threads s) j x i) = if Nat.eqb i j then pending x else pending (g_threads s i)) by (intros j x; unfold upd; destruct (Nat.eqb i j); reflexivity).
  destruct 1 as [j c Hi|j c todo Hi Hfree Hst|j d sp x todo sd Hi Hff|j d sp x todo Hi Hff|j d sp x todo Hi Hff|j d sp r Hi Hr|j x todo Hi|j l x todo Hi|j l Hi|j c name f todo inner Hi];
    cbn [move finish g_done g_threads call_of]; rewrite Hu.
  3,5,6,7,9: cbn [pending]; apply Hf; intros ->; rewrite Hi; reflexivity.
  - exists []. rewrite app_nil_r. split; [reflexivity|]. rewrite (Nat.eqb_sym i j). destruct (Nat.eqb_spec j i) as [->|n]; [rewrite Hi; reflexivity|cbn; apply app_nil_r].
  - rewrite (Nat.eqb_sym i j). destruct (Nat.eqb_spec j i) as [->|n]; [rewrite Hi|]; apply Hk.
  - rewrite (Nat.eqb_sym i j). destruct (Nat.eqb_spec j i) as [->|n]; [rewrite Hi|]; apply Hk.
  - rewrite (Nat.eqb_sym i j). destruct (Nat.eqb_spec j i) as [->|n]; [rewrite Hi|]; apply Hk.
  - rewrite (Nat.eqb_sym i j). destruct (Nat.eqb_spec j i) as [->|n]; [rewrite Hi|]; apply Hk.
Qed.

Theorem C86_real_time : forall s acts s' i, gruns s acts s' ->
  exists l, g_done s' = g_done s ++ l /\ pending (g_threads s i) ++ flat_map (call_of i) acts = returned i l ++ pending (g_threads s' i).
Proof.
  intros s acts s' i R. induction R as [s|s a s1 acts s2 H R (l & Hl & Hp)].
  - exists []. cbn. rewrite !app_nil_r. auto.
  - destruct (gstep_calls _ _ _ i H) as (l1 & Hl1 & Hp1). exists (l1 ++ l). rewrite Hl, Hl1, <- app_assoc. split; [reflexivity|].
    cbn [flat_map]. rewrite app_assoc, Hp1, <- app_assoc, Hp. unfold returned. rewrite flat_map_app, <- app_assoc. reflexivity.
Qed.
Print Assumptions C86_real_time.

Lemma sdid_no_fuel x d sp : sdid_found x d sp <> NoFuel.
Proof. destruct x; cbn [sdid_found]; [apply tq_no_fuel|apply generic_no_fuel|destruct (found d); discriminate]. Qed.

(** As long as no method of an identifier calls the package, a call in progress can always go on: the
    goroutine that holds the lock makes a step, and when none holds it each waiting one can take it. *)
Theorem C86_no_deadlock : forall acts s i, gruns registry_init acts s -> (forall j c inner, g_threads s j <> TStuck c inner) -> g_threads s i <> TIdle ->
  (exists k s', g_lock s = Some k /\ gstep s (GStep k) s') \/ (g_lock s = None /\ exists s', gstep s (GLock i) s').
Proof.
  intros acts s i H Hns Hi. pose proof sdid_no_fuel as Hfu. destruct (gruns_inv _ _ _ ginv_init H) as [Hl (reg0 & _ & Hp)]. destruct (g_lock s) as [k|] eqn:Ek.
  - left. exists k. assert (Hk : holds (g_threads s k)) by (apply Hl; reflexivity). destruct (g_threads s k) as [| |c todo|c inner] eqn:Et; try destruct Hk; [|exfalso; exact (Hns _ _ _ Et)].
    destruct c as [d sp|x|l].
    + destruct todo as [|x todo].
      * eexists. split; [reflexivity|]. apply (StUnknown s k d sp (match unknown_found d with Val o => RParsed o | _ => RPanics end)); [exact Et|]. destruct (unknown_found d); reflexivity.
      * destruct (sdid_found x d sp) as [[sd|]| |] eqn:Ef; [| | |exfalso; exact (Hfu _ _ _ Ef)]; eexists; (split; [reflexivity|]);
          [eapply StFound|eapply StNotFound|eapply StDecoderPanics]; eassumption.
    + cbn in Hp. destruct Hp as [_ ->]. eexists. split; [reflexivity|]. eapply StRegister. exact Et.
    + destruct todo as [|x todo]; eexists; (split; [reflexivity|]); [eapply StGroupEnd|eapply StGroupOne]; exact Et.
  - right. split; [reflexivity|]. destruct (g_threads s i) as [|c|c todo|c inner] eqn:Et; [congruence| | |exfalso; exact (Hns _ _ _ Et)].
    + eexists. eapply StLock; [exact Et|exact Ek|]. instantiate (1 := match c with CallParse _ _ => map snd (g_reg s) | CallRegister x => [x] | CallGroup l => l end).
      destruct c; cbn; [apply Permutation_refl|reflexivity|reflexivity].
    + exfalso. assert (Hh : holds (g_threads s i)) by (rewrite Et; exact I). apply Hl in Hh. discriminate.
Qed.
Print Assumptions C86_no_deadlock.

(** A critical section is bounded: after one more step than there are identifiers left, the call has
    returned. *)
Definition steps_of (i : nat) (acts : list gact) : nat := count_occ Nat.eq_dec (flat_map (fun a => match a with GStep j => [j] | _ => [] end) acts) i.

Lemma inside_step s a s' i c todo : gstep s a s' -> (forall j inner, a <> GReenter j inner) -> g_threads s i = TIn c todo ->
  (exists r, In (i, c, r) (g_done s')) \/
  match a with
  | GStep j => if Nat.eqb j i then exists x rest, todo = x :: rest /\ g_threads s' i = TIn c rest else g_threads s' i = TIn c todo
  | _ => g_threads s' i = TIn c todo
  end.
Proof.
  intros H Ha Hi.
  assert (Hdone : forall r reg, exists r0, In (i, c, r0) (g_done (finish s reg i c r))) by (intros r reg; exists r; cbn; apply in_or_app; right; left; reflexivity).
  destruct H as [j c' Hj|j c' todo' Hj Hfree Hst|j d sp x todo' sd Hj Hff|j d sp x todo' Hj Hff|j d sp x todo' Hj Hff|j d sp r Hj Hr|j x todo' Hj|j l x todo' Hj|j l Hj|j c' name f todo' inner Hj];
    cbn [g_threads move finish]; try (exfalso; exact (Ha _ _ eq_refl)).
  all: try (destruct (Nat.eqb_spec j i) as [->|n]; [|right; rewrite upd_other by congruence; exact Hi]).
  3,5,6,7,9: left; rewrite Hi in Hj; injection Hj as <- Htodo; apply Hdone.
  1,2: exfalso; congruence.
  1,2: right; rewrite Hi in Hj; injection Hj as <- Htodo; exists x, todo'; split; [exact Htodo|apply upd_same].
Qed.

Theorem C86_bounded_section : forall acts s s' i c todo, gruns s acts s' -> (forall j inner, ~ In (GReenter j inner) acts) -> g_threads s i = TIn c todo ->
  (length todo < steps_of i acts)%nat -> exists r, In (i, c, r) (g_done s').
Proof.
  intros acts s s' i c todo R. revert todo. induction R as [s|s a s1 acts s2 H R IH]; intros todo Ha Hi Hn; [cbn in Hn; lia|].
  assert (Ha1 : forall j inner, ~ In (GReenter j inner) acts) by (intros j inner K; apply (Ha j inner); right; exact K).
  assert (Ha0 : forall j inner, a <> GReenter j inner) by (intros j inner ->; apply (Ha j inner); left; reflexivity).
  destruct (inside_step _ _ _ _ _ _ H Ha0 Hi) as [[r Hr]|Hm].
  - exists r. destruct (C86_real_time _ _ _ i R) as (l & -> & _). apply in_or_app. left. exact Hr.
  - assert (Hsame : g_threads s1 i = TIn c todo -> steps_of i (a :: acts) = steps_of i acts -> exists r, In (i, c, r) (g_done s2))
      by (intros Ht Hc; apply (IH todo Ha1 Ht); lia).
    unfold steps_of in *. cbn [flat_map] in *. rewrite count_occ_app in *. destruct a as [j c'|j|j|j inner]; try (apply Hsame; [exact Hm|reflexivity]).
    cbn [count_occ] in *. destruct (Nat.eqb_spec j i) as [->|n].
    + destruct Hm as (x & rest & -> & Ht). apply (IH rest Ha1 Ht). destruct (Nat.eq_dec i i); [|congruence]. cbn in Hn. lia.
    + apply Hsame; [exact Hm|]. destruct (Nat.eq_dec j i); [congruence|reflexivity].
Qed.
Print Assumptions C86_bounded_section.

(** A method of an identifier that calls the package blocks it for good: no call, from any goroutine,
    ever returns again, and the registry no longer changes. *)
Theorem C86_reentrance_deadlocks : forall acts0 s i c inner acts s', gruns registry_init acts0 s -> g_threads s i = TStuck c inner -> gruns s acts s' ->
  g_done s' = g_done s /\ g_reg s' = g_reg s /\ g_threads s' i = TStuck c inner /\ g_lock s' = Some i /\
  (forall j, ~ In (GLock j) acts) /\ (forall j, ~ In (GStep j) acts).
Proof.
  intros acts0 s i c inner acts s' H0 Hi R. pose proof (gruns_inv _ _ _ ginv_init H0) as Hinv. clear H0 acts0.
  induction R as [s|s a s1 acts s2 H R IH].
  { split; [reflexivity|]. split; [reflexivity|]. split; [exact Hi|]. split; [apply (gi_lock _ Hinv); rewrite Hi; exact I|]. split; intros j []. }
  assert (Hlk : g_lock s = Some i) by (apply (gi_lock _ Hinv); rewrite Hi; exact I).
  assert (Hex : forall j c' todo, g_threads s j <> TIn c' todo).
  { intros j c' todo Hj. assert (Hh : holds (g_threads s j)) by (rewrite Hj; exact I). apply (gi_lock _ Hinv) in Hh. replace j with i in Hj by congruence. congruence. }
  assert (IH' := fun K => IH K (gstep_inv _ _ _ Hinv H)). clear IH. rename IH' into IH.
  destruct H as [j c' Hj|j c' todo' Hj Hfree Hst|j d sp x todo' sd Hj Hff|j d sp x todo' Hj Hff|j d sp x todo' Hj Hff|j d sp r Hj Hr|j x todo' Hj|j l x todo' Hj|j l Hj|j c' name f todo' inner' Hj];
    try (exfalso; exact (Hex _ _ _ Hj)); try congruence.
  cbn [move g_done g_reg g_threads g_lock] in IH. destruct IH as (E1 & E2 & E3 & E4 & E5 & E6).
  { rewrite upd_other; [exact Hi|]. intros ->. congruence. }
  split; [exact E1|]. split; [exact E2|]. split; [exact E3|]. split; [exact E4|].
  split; intros k [K|K]; [discriminate|exact (E5 _ K)|discriminate|exact (E6 _ K)].
Qed.
Print Assumptions C86_reentrance_deadlocks.

(** Only identifiers from outside the package can do this. *)
Definition own (x : sdid) : Prop := match x with IdForeign _ _ => False | _ => True end.
Definition own_call (c : rcall) : Prop := match c with CallParse _ _ => True | CallRegister x => own x | CallGroup l => Forall own l end.

Record oinv (s : gstate) : Prop := {
  o_reg : Forall own (map snd (g_reg s));
  o_thread : forall i, match g_threads s i with TIdle => True | TWait c => own_call c | TIn _ todo => Forall own todo | TStuck _ _ => False end }.

Lemma add_own r x : Forall own (map snd r) -> own x -> Forall own (map snd (add_one r x)).
Proof. intros Hr Hx. unfold add_one. destruct (reg_lookup _ _); [exact Hr|]. cbn. constructor; assumption. Qed.

Lemma oinv_upd s i reg lock x : Forall own (map snd reg) -> match x with TIdle => True | TWait c => own_call c | TIn _ todo => Forall own todo | TStuck _ _ => False end ->
  oinv s -> oinv (move s reg lock i x).
Proof.
  intros Hr Hx [_ Ht]. constructor; cbn [move g_reg g_threads]; [exact Hr|]. intros j. destruct (Nat.eq_dec j i) as [->|n]; [rewrite upd_same; exact Hx|rewrite upd_other by exact n; apply Ht].
Qed.
Lemma oinv_finish s i reg c r : Forall own (map snd reg) -> oinv s -> oinv (finish s reg i c r).
Proof.
  intros Hr [_ Ht]. constructor; cbn [finish g_reg g_threads]; [exact Hr|]. intros j. destruct (Nat.eq_dec j i) as [->|n]; [rewrite upd_same; exact I|rewrite upd_other by exact n; apply Ht].
Qed.

Lemma gstep_own s a s' : gstep s a s' -> (forall i c, a = GCall i c -> own_call c) -> oinv s -> oinv s'.
Proof.
  intros H Hc Ho. pose proof (o_reg _ Ho) as Hr.
  destruct H as [j c' Hj|j c' todo' Hj Hfree Hst|j d sp x todo' sd Hj Hff|j d sp x todo' Hj Hff|j d sp x todo' Hj Hff|j d sp r Hj Hrr|j x todo' Hj|j l x todo' Hj|j l Hj|j c' name f todo' inner' Hj];
    pose proof (o_thread _ Ho j) as Hjo; rewrite Hj in Hjo.
  3,5,6,9: apply oinv_finish; assumption.
  - apply oinv_upd; [exact Hr|exact (Hc _ _ eq_refl)|exact Ho].
  - apply oinv_upd; [exact Hr| |exact Ho]. destruct c' as [d sp|x|l]; cbn in Hst, Hjo; [rewrite Hst; exact Hr|subst; constructor; [exact Hjo|constructor]|subst; exact Hjo].
  - apply oinv_upd; [exact Hr|exact (Forall_inv_tail Hjo)|exact Ho].
  - apply oinv_finish; [apply add_own; [exact Hr|exact (Forall_inv Hjo)]|exact Ho].
  - apply oinv_upd; [apply add_own; [exact Hr|exact (Forall_inv Hjo)]|exact (Forall_inv_tail Hjo)|exact Ho].
  - exfalso. exact (Forall_inv Hjo).
Qed.

Theorem C86_own_identifiers_safe : forall acts s, gruns registry_init acts s -> (forall i c, In (GCall i c) acts -> own_call c) ->
  forall i c inner, g_threads s i <> TStuck c inner.
Proof.
  intros acts s R Hc i c inner E. assert (Ho : oinv s).
  - assert (H0 : oinv registry_init) by (constructor; cbn; [constructor|exact (fun _ => I)]). revert H0 Hc. clear E.
    induction R as [|s a s1 acts s2 H R IH]; intros H0 Hc; [exact H0|].
    apply IH; [|intros; apply (Hc i0); right; assumption]. apply (gstep_own _ _ _ H); [|exact H0]. intros k ck ->. apply (Hc k). left. reflexivity.
  - pose proof (o_thread _ Ho i) as K. rewrite E in K. exact K.
Qed.
Print Assumptions C86_own_identifiers_safe.

(** ** concrete cases *)

(** two goroutines: one registers a group while the other decodes; the decoding finds the group whole *)
Definition own_group : list sdid := [IdTimeQuality; IdGeneric (bs "id@1")].
Definition an_element : bytes := bs "[id@1]".

Theorem C86_nonvacuous : exists acts s, gruns registry_init acts s /\ own_call (CallGroup own_group) /\
  g_done s = [(1, CallGroup own_group, RGroupDone); (2, CallParse an_element (repeat 0%N 16), RParsed (Some (SDGenericNil (bs "id@1"))))]%nat.
Proof.
  exists [GCall 2 (CallParse an_element (repeat 0%N 16)); GCall 1 (CallGroup own_group); GLock 1; GStep 1; GStep 1; GStep 1; GLock 2; GStep 2; GStep 2]%nat.
  eexists. split; [|split].
  - eapply RunCons; [apply StCall; reflexivity|]. eapply RunCons; [apply StCall; reflexivity|].
    eapply RunCons; [eapply StLock; [reflexivity|reflexivity|reflexivity]|].
    eapply RunCons; [eapply StGroupOne; reflexivity|]. eapply RunCons; [eapply StGroupOne; reflexivity|]. eapply RunCons; [eapply StGroupEnd; reflexivity|].
    eapply RunCons; [eapply (StLock _ 2%nat _ own_group); [reflexivity|reflexivity|vm_compute; apply perm_swap]|].
    eapply RunCons; [eapply StNotFound; [reflexivity|vm_compute; reflexivity]|].
    eapply RunCons; [eapply StFound; [reflexivity|vm_compute; reflexivity]|]. apply RunNil.
  - repeat constructor.
  - vm_compute. reflexivity.
Qed.
Print Assumptions C86_nonvacuous.

(** an identifier whose Found calls Parse: the first decoding of any element blocks every goroutine *)
Theorem C86_reentrance_refuted : exists acts s, gruns registry_init acts s /\ g_threads s 1%nat = TStuck (CallParse an_element []) (CallParse an_element []) /\
  forall acts' s', gruns s acts' s' -> g_done s' = g_done s.
Proof.
  set (x := IdForeign (bs "w") (fun _ => Some None)).
  assert (H : exists s, gruns registry_init [GCall 1 (CallRegister x); GLock 1; GStep 1; GCall 1 (CallParse an_element []); GLock 1; GReenter 1 (CallParse an_element [])]%nat s /\
    g_threads s 1%nat = TStuck (CallParse an_element []) (CallParse an_element [])).
  { eexists. split.
    - eapply RunCons; [apply StCall; reflexivity|]. eapply RunCons; [eapply StLock; [reflexivity|reflexivity|reflexivity]|]. eapply RunCons; [eapply StRegister; reflexivity|].
      eapply RunCons; [apply StCall; reflexivity|]. eapply RunCons; [eapply (StLock _ 1%nat _ [x]); [reflexivity|reflexivity|apply Permutation_refl]|].
      eapply RunCons; [eapply StReenter; reflexivity|]. apply RunNil.
    - reflexivity. }
  destruct H as (s & R & E). eexists. exists s. split; [exact R|]. split; [exact E|]. intros acts' s' R'.
  exact (proj1 (C86_reentrance_deadlocks _ _ _ _ _ _ _ R E R')).
Qed.
Print Assumptions C86_reentrance_refuted.
