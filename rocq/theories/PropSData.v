(** PropSData.v -- properties C59..C70 and C72 (packages sdata and sdata/timequality). *)
From Verif Require Import Base BaseFacts Spec MPriority MHelpers MText MTime MSData MMessage MTransport MParse.
From Verif Require Import LPriority LText LAtoi LTime LSData LParse LRound LResult.
From Coq Require Import ZifyBool ZifyNat ZifyN Permutation Sorted.

(** ** C59, C60: tokens *)
Theorem C59_value_token : forall d v rest,
  next_sd_value d = Some (v, rest) <-> (d = bs """" ++ v ++ bs """" ++ rest /\ well_escaped v).
Proof. intros d v rest. rewrite next_sd_value_iff. split; intros [A B]; auto. Qed.
Print Assumptions C59_value_token.

(** the closing quote is where it has to be: no other split of the input is possible *)
Lemma well_escaped_split_n n : forall v v' r r', (length v <= n)%nat -> well_escaped v -> well_escaped v' ->
  v ++ QUO :: r = v' ++ QUO :: r' -> v = v' /\ r = r'.
Proof.
  intros v v' r r' _ H H' E. pose proof (value_scan_ok v r H) as A. pose proof (value_scan_ok v' r' H') as B.
  rewrite E in A. rewrite A in B. injection B as -> ->. auto.
Qed.

Theorem C59_value_unique : forall v v' r r', well_escaped v -> well_escaped v' ->
  v ++ bs """" ++ r = v' ++ bs """" ++ r' -> v = v' /\ r = r'.
Proof. intros v v' r r' H H' E. exact (well_escaped_split_n (length v) v v' r r' (Nat.le_refl _) H H' E). Qed.
Print Assumptions C59_value_unique.

Example C59_nonvacuous :
  next_sd_value (bs """a\""b\]c"" next") = Some (bs "a\""b\]c", bs " next") /\ well_escaped (bs "a\""b\]c") /\
  next_sd_value (bs """a]b""") = None /\ next_sd_value (bs """open") = None.
Proof.
  split; [reflexivity|]. split; [|split; reflexivity]. repeat (apply WE_pair || (apply WE_plain; [discriminate..|])). apply WE_nil.
Qed.

Theorem C60_name_token : forall d n rest,
  next_sd_name d = Some (n, rest) <-> (d = n ++ bs "=" ++ rest /\ sd_name n /\ (4 <= length d)%nat).
Proof. intros d n rest. rewrite next_sd_name_iff. split; intros (A & B & C); auto. Qed.
Print Assumptions C60_name_token.

Theorem C60_header_token : forall d n rest,
  next_header d = Some (n, rest) <-> (d = n ++ rest /\ n <> [] /\ sd_name n /\ (exists r, rest = bs " " ++ r) /\ (4 <= length d)%nat).
Proof. intros d n rest. rewrite next_header_iff. split; intros (A & B & C & D & F); auto. Qed.
Print Assumptions C60_header_token.

Theorem C60_spaces_token : forall d rest,
  next_non_space d = Some rest <->
  exists n, (1 <= n)%nat /\ d = repeat 32%N n ++ rest /\ rest <> [] /\ forall r, rest <> bs " " ++ r.
Proof.
  intros d rest. rewrite next_non_space_iff. split; intros (n & Hn & E & H); exists n; (split; [exact Hn|]); (split; [exact E|]).
  - destruct H as (c & r' & -> & Hc). split; [discriminate|]. intros r Hr. injection Hr as -> _. congruence.
  - destruct H as [H1 H2]. destruct rest as [|c r']; [congruence|]. exists c, r'. split; [reflexivity|]. intros ->. exact (H2 r' eq_refl).
Qed.
Print Assumptions C60_spaces_token.

Example C60_nonvacuous :
  next_sd_name (bs "k=""v""") = Some (bs "k", bs """v""") /\ next_header (bs "x@1 k=""v""") = Some (bs "x@1", bs " k=""v""") /\
  next_non_space (bs "   k") = Some (bs "k") /\ next_non_space (bs "  ") = None.
Proof. repeat split; reflexivity. Qed.

(** ** C61: unknown structured data *)
Theorem C61_unknown_stable : forall d name ps, unknown_found d = Val (Some (SDUnknown name ps)) ->
  (exists spaces : list nat, length spaces = length ps /\ Forall (fun n => 1 <= n)%nat spaces /\
     d = bs "[" ++ name ++ concat (map (fun x => param_text (fst x, fst (snd x), snd (snd x))) (combine spaces ps)) ++ bs "]" /\
     forall uni, sd_marshal uni (SDUnknown name ps) =
       Val (inr (bs "[" ++ name ++ concat (map (fun x => param_text (1%nat, fst x, snd x)) ps) ++ bs "]"))) /\
  forall uni b, sd_marshal uni (SDUnknown name ps) = Val (inr b) -> unknown_found b = Val (Some (SDUnknown name ps)).
Proof.
  intros d name ps H. split.
  - apply unknown_found_inv in H as (l & Hd & Hs & (Hn & Hsn & Hl & H1 & H2 & H3)). exists (map (fun x => fst (fst x)) l). subst ps.
    unfold strip in *. split; [rewrite !map_length; reflexivity|]. split; [rewrite Forall_map; exact H1|]. split.
    + rewrite Hd. change (bs "[" ++ ?x) with (LBR :: x). f_equal. f_equal. f_equal. unfold text_of.
      clear. induction l as [|[[n k] v] l IH]; [reflexivity|]. cbn [map combine concat fst snd]. rewrite IH. reflexivity.
    + intros uni. cbn [sd_marshal]. unfold emit. rewrite unknown_marshal_eq. unfold text_of. rewrite map_map. reflexivity.
  - intros uni b Hb. cbn [sd_marshal] in Hb. unfold emit in Hb. injection Hb as <-.
    apply unknown_roundtrip. exact (unknown_found_ok_shape _ _ _ H).
Qed.
Print Assumptions C61_unknown_stable.

(** and what is accepted is exactly the texts of that form *)
Theorem C61_unknown_accepts_iff : forall d name ps,
  unknown_found d = Val (Some (SDUnknown name ps)) <->
  unknown_ok name ps /\ exists spaces : list nat, length spaces = length ps /\ Forall (fun n => 1 <= n)%nat spaces /\
     d = bs "[" ++ name ++ concat (map (fun x => param_text (fst x, fst (snd x), snd (snd x))) (combine spaces ps)) ++ bs "]".
Proof.
  intros d name ps. split.
  - intros H. split; [exact (unknown_found_ok_shape _ _ _ H)|]. destruct (C61_unknown_stable d name ps H) as [(sp & A & B & C & _) _]. exists sp. auto.
  - intros ((Hn & Hs & Hne & Hp & Hlast) & sp & Hl & Hf & ->).
    set (l := map (fun x : nat * (bytes * bytes) => (fst x, fst (snd x), snd (snd x))) (combine sp ps)).
    assert (Hstrip : strip l = ps).
    { subst l. unfold strip. rewrite map_map. clear -Hl. revert sp Hl. induction ps as [|[k v] ps IH]; intros [|n sp] Hl; try discriminate; [reflexivity|].
      cbn. f_equal. apply IH. injection Hl as Hl. exact Hl. }
    assert (Hsh : unknown_shape name l).
    { unfold unknown_shape. rewrite Hstrip. split; [exact Hn|]. split; [exact Hs|]. split; [intros E; rewrite E in Hstrip; cbn in Hstrip; congruence|].
      split; [|auto]. subst l. rewrite Forall_map. cbn. clear -Hl Hf. revert ps Hl. induction Hf as [|n sp Hn Hf IH]; intros [|p ps] Hl; try discriminate; constructor; [exact Hn|].
      apply IH. injection Hl as Hl. exact Hl. }
    pose proof (unknown_found_ok name l Hsh) as Hok. rewrite Hstrip in Hok. rewrite <- Hok. f_equal.
    change (bs "[" ++ ?x) with (LBR :: x). f_equal. f_equal. f_equal. subst l. unfold text_of. rewrite map_map. reflexivity.
Qed.
Print Assumptions C61_unknown_accepts_iff.

Example C61_nonvacuous : unknown_found (bs "[x@1   a=""1""  b=""\]""]") = Val (Some (SDUnknown (bs "x@1") [(bs "a", bs "1"); (bs "b", bs "\]")])).
Proof. vm_compute. reflexivity. Qed.

(** ** C63: order of map entries *)
(** byte-wise lexicographic order, Go's string order *)
Inductive bytes_lt : bytes -> bytes -> Prop :=
| BL_nil : forall c b, bytes_lt [] (c :: b)
| BL_head : forall x y a b, (x < y)%N -> bytes_lt (x :: a) (y :: b)
| BL_tail : forall x a b, bytes_lt a b -> bytes_lt (x :: a) (x :: b).

Lemma leb_lt a : forall b, bytes_leb a b = true -> a <> b -> bytes_lt a b.
Proof.
  induction a as [|x a IH]; intros [|y b] H Hne; cbn in H; try congruence; [constructor|].
  apply orb_true_iff in H as [H|H]; [apply BL_head, N.ltb_lt, H|].
  apply andb_true_iff in H as [He H]. apply N.eqb_eq in He as ->. apply BL_tail, IH; [exact H|congruence].
Qed.

Lemma leb_total a : forall b, bytes_leb a b = true \/ bytes_leb b a = true.
Proof.
  induction a as [|x a IH]; intros [|y b]; cbn; auto.
  destruct (N.lt_trichotomy x y) as [H|[->|H]].
  - left. apply N.ltb_lt in H. rewrite H. reflexivity.
  - rewrite N.eqb_refl. destruct (IH b) as [->| ->]; [left|right]; apply orb_true_iff; right; reflexivity.
  - right. apply N.ltb_lt in H. rewrite H. reflexivity.
Qed.

Lemma leb_trans a : forall b c, bytes_leb a b = true -> bytes_leb b c = true -> bytes_leb a c = true.
Proof.
  induction a as [|x a IH]; intros [|y b] [|z c] H1 H2; cbn in *; try congruence; try reflexivity.
  apply orb_true_iff in H1, H2. apply orb_true_iff.
  destruct H1 as [H1|H1], H2 as [H2|H2].
  - left. lia. - apply andb_true_iff in H2 as [H2 _]. left. lia. - apply andb_true_iff in H1 as [H1 _]. left. lia.
  - apply andb_true_iff in H1 as [H1 H1'], H2 as [H2 H2']. right. apply andb_true_iff. split; [lia|exact (IH _ _ H1' H2')].
Qed.

Lemma leb_antisym a : forall b, bytes_leb a b = true -> bytes_leb b a = true -> a = b.
Proof.
  induction a as [|x a IH]; intros [|y b] H1 H2; cbn in *; try congruence.
  apply orb_true_iff in H1, H2.
  assert (x = y) by (destruct H1 as [H1|H1], H2 as [H2|H2]; try apply andb_true_iff in H1 as [H1 _]; try apply andb_true_iff in H2 as [H2 _]; lia).
  subst y. rewrite N.ltb_irrefl, N.eqb_refl in *. cbn in *. f_equal. apply IH; intuition congruence.
Qed.

Notation key_le := (fun a b : bytes * gval => bytes_leb (fst a) (fst b) = true).

Lemma insert_perm e l : Permutation (insert_entry e l) (e :: l).
Proof.
  induction l as [|x l IH]; cbn; [reflexivity|]. destruct (bytes_leb (fst e) (fst x)); [reflexivity|].
  rewrite IH. apply perm_swap.
Qed.

Lemma sort_perm l : Permutation (sort_entries l) l.
Proof. induction l as [|e l IH]; cbn; [reflexivity|]. rewrite insert_perm, IH. reflexivity. Qed.

Lemma insert_sorted e l : StronglySorted key_le l -> StronglySorted key_le (insert_entry e l).
Proof.
  intros H. induction H as [|x l Hs IH Hf]; cbn [insert_entry]; [repeat constructor|].
  destruct (bytes_leb (fst e) (fst x)) eqn:E.
  - constructor; [constructor; assumption|]. constructor; [exact E|]. eapply Forall_impl; [|exact Hf]. intros a Ha. exact (leb_trans _ _ _ E Ha).
  - constructor; [exact IH|]. rewrite insert_perm. constructor; [|exact Hf]. destruct (leb_total (fst e) (fst x)); [congruence|assumption].
Qed.

Lemma sort_sorted l : StronglySorted key_le (sort_entries l).
Proof. induction l; cbn; [constructor|]. apply insert_sorted; assumption. Qed.

Lemma sorted_unique l : forall l', StronglySorted key_le l -> StronglySorted key_le l' -> NoDup (map fst l) -> Permutation l l' -> l = l'.
Proof.
  induction l as [|e l IH]; intros l' Hs Hs' Hn Hp.
  - apply Permutation_nil in Hp. congruence.
  - destruct l' as [|e' l']; [apply Permutation_sym, Permutation_nil in Hp; discriminate|].
    inversion Hs as [|? ? Hs1 Hf1]; inversion Hs' as [|? ? Hs2 Hf2]; subst.
    assert (Hee : e = e').
    { assert (Hin : In e' (e :: l)) by (eapply Permutation_in; [symmetry; exact Hp|left; reflexivity]).
      assert (Hin' : In e (e' :: l')) by (eapply Permutation_in; [exact Hp|left; reflexivity]).
      destruct Hin as [->|Hin]; [reflexivity|]. destruct Hin' as [->|Hin']; [reflexivity|].
      rewrite Forall_forall in Hf1, Hf2. pose proof (leb_antisym _ _ (Hf1 _ Hin) (Hf2 _ Hin')) as Hk.
      exfalso. cbn in Hn. inversion Hn as [|? ? Hni _]; subst. apply Hni. rewrite Hk. apply in_map. exact Hin. }
    subst e'. f_equal. apply IH; try assumption; [cbn in Hn; inversion Hn; assumption|]. apply Permutation_cons_inv in Hp. exact Hp.
Qed.

Theorem C63_map_order_irrelevant : forall uni id pm ks ei es es', Permutation es es' -> NoDup (map fst es) ->
  sd_marshal uni (SDGeneric id pm (VMap ks ei (Some es))) = sd_marshal uni (SDGeneric id pm (VMap ks ei (Some es'))).
Proof.
  intros uni id pm ks ei es es' Hp Hn. cbn [sd_marshal enc_root]. unfold enc_map.
  assert (E : sort_entries es = sort_entries es'); [|rewrite E; reflexivity].
  apply sorted_unique; [apply sort_sorted..| |].
  - eapply Permutation_NoDup; [apply Permutation_map, Permutation_sym, sort_perm|exact Hn].
  - rewrite !sort_perm. exact Hp.
Qed.
Print Assumptions C63_map_order_irrelevant.

Lemma sorted_strict l : NoDup (map fst l) -> StronglySorted key_le l -> StronglySorted (fun a b => bytes_lt (fst a) (fst b)) l.
Proof.
  intros Hn H. induction H as [|x l Hs IH Hf]; [constructor|]. cbn in Hn. inversion Hn as [|? ? Hni Hn']; subst. constructor; [exact (IH Hn')|].
  rewrite Forall_forall in *. intros y Hy. apply leb_lt; [exact (Hf y Hy)|]. intros E. apply Hni. rewrite E. apply in_map, Hy.
Qed.

(** a map of scalar values *)
Definition scalars (es : list (bytes * bytes)) : list (bytes * gval) := map (fun p => (fst p, VBasic false (snd p))) es.

Lemma enc_entries_scalars es : Forall (fun p => fst p <> []) es ->
  enc_entries (scalars es) = emit (concat (map (fun p => param_text (1%nat, fst p, escaped (snd p))) es)).
Proof.
  intros H. induction H as [|[k v] es Hk H IH]; [reflexivity|]. cbn [scalars map enc_entries fst snd]. fold (scalars es). rewrite IH.
  cbn [enc_value]. unfold eseq, emit, prefixed_write. cbn [fst] in Hk. destruct k; [congruence|]. cbn [map concat]. rewrite escape_eq. reflexivity.
Qed.

Lemma insert_scalars p l : exists q1 q2, l = q1 ++ q2 /\ insert_entry (fst p, VBasic false (snd p)) (scalars l) = scalars (q1 ++ p :: q2).
Proof.
  induction l as [|x l IH]; [exists [], []; auto|]. cbn [scalars map insert_entry fst].
  destruct (bytes_leb (fst p) (fst x)); [exists [], (x :: l); auto|]. destruct IH as (q1 & q2 & -> & E).
  exists (x :: q1), q2. split; [reflexivity|]. fold (scalars (q1 ++ q2)). rewrite E. reflexivity.
Qed.

Lemma sort_scalars l : exists s, Permutation s l /\ sort_entries (scalars l) = scalars s.
Proof.
  induction l as [|p l (s & Hp & E)]; [exists []; auto|]. cbn [scalars map sort_entries]. fold (scalars l). rewrite E.
  destruct (insert_scalars p s) as (q1 & q2 & -> & E2). exists (q1 ++ p :: q2). split; [|exact E2].
  rewrite <- Permutation_middle. constructor. exact Hp.
Qed.

Lemma scalars_fst l : map fst (scalars l) = map fst l.
Proof. unfold scalars. rewrite map_map. reflexivity. Qed.

(** the keys, each once, in byte order *)
Lemma map_encoding id es : NoDup (map fst es) -> Forall (fun p => fst p <> []) es ->
  exists s, Permutation s es /\ StronglySorted (fun a b => bytes_lt (fst a) (fst b)) s /\
    enc_map (Some id) true false (Some (scalars es)) =
      Val (inr (bs "[" ++ id ++ concat (map (fun p => param_text (1%nat, fst p, escaped (snd p))) s) ++ bs "]")).
Proof.
  intros Hn Hk. destruct (sort_scalars es) as (s & Hp & E). exists s. split; [exact Hp|]. split.
  - assert (H : StronglySorted (fun a b : bytes * gval => bytes_lt (fst a) (fst b)) (scalars s)).
    { rewrite <- E. apply sorted_strict; [|apply sort_sorted]. eapply Permutation_NoDup; [apply Permutation_map, Permutation_sym, sort_perm|].
      rewrite scalars_fst. exact Hn. }
    clear -H. induction s as [|x s IH]; [constructor|]. cbn in H. inversion H as [|? ? H1 H2]; subst. constructor; [apply IH; exact H1|].
    unfold scalars in H2. rewrite Forall_map in H2. exact H2.
  - unfold enc_map. cbn [negb]. rewrite E. rewrite enc_entries_scalars.
    + unfold eseq, emit, header_write. f_equal.
    + rewrite Forall_forall in *. intros p Hin. apply Hk. eapply Permutation_in; [exact Hp|exact Hin].
Qed.

Theorem C63_map_keys_sorted : forall uni id pm es, NoDup (map fst es) -> Forall (fun p => fst p <> []) es ->
  exists s, Permutation s es /\ StronglySorted (fun a b => bytes_lt (fst a) (fst b)) s /\
    sd_marshal uni (SDGeneric id pm (VMap true false (Some (scalars es)))) =
      Val (inr (bs "[" ++ id ++ concat (map (fun p => param_text (1%nat, fst p, escaped (snd p))) s) ++ bs "]")).
Proof. intros uni id pm es Hn Hk. exact (map_encoding id es Hn Hk). Qed.
Print Assumptions C63_map_keys_sorted.

Example C63_nonvacuous : sd_marshal (fun _ => true) (SDGeneric (bs "x@1") false (VMap true false (Some (scalars [(bs "b", bs "1"); (bs "ab", bs "2"); (bs "a", bs "3]")])))) =
  Val (inr (bs "[x@1 a=""3\]"" ab=""2"" b=""1""]")).
Proof. vm_compute. reflexivity. Qed.

(** ** C62: no value escapes from its quotes *)
Theorem C62_values_confined : forall uni id pm es,
  id <> [] -> sd_name id -> es <> [] -> NoDup (map fst es) -> Forall (fun p => fst p <> [] /\ sd_name (fst p)) es ->
  exists enc s, sd_marshal uni (SDGeneric id pm (VMap true false (Some (scalars es)))) = Val (inr enc) /\
    Permutation s es /\ StronglySorted (fun a b => bytes_lt (fst a) (fst b)) s /\
    exists raw, unknown_found enc = Val (Some (SDUnknown id raw)) /\ map fst raw = map fst s /\ map (fun p => unescape (snd p)) raw = map snd s.
Proof.
  intros uni id pm es Hid Hidn Hne Hn Hk.
  assert (Hk1 : Forall (fun p : bytes * bytes => fst p <> []) es) by (eapply Forall_impl; [|exact Hk]; cbn; tauto).
  destruct (map_encoding id es Hn Hk1) as (s & Hp & Hs & He).
  set (raw := map (fun p => (fst p, escaped (snd p))) s).
  exists (unknown_marshal id raw), s. split.
  { cbn [sd_marshal enc_root]. rewrite He. f_equal. f_equal. rewrite unknown_marshal_eq. unfold text_of, raw. rewrite !map_map. reflexivity. }
  split; [exact Hp|]. split; [exact Hs|]. exists raw. split; [|split].
  - apply unknown_roundtrip. split; [exact Hid|]. split; [exact Hidn|]. split; [|split].
    + intros E. apply Hne. apply Permutation_nil. apply map_eq_nil in E. rewrite E in Hp. exact Hp.
    + unfold raw. rewrite Forall_map. rewrite Forall_forall in *. intros p Hin. split; [|cbn [snd]; rewrite <- escape_eq; apply escape_well]. cbn.
      apply Hk. eapply Permutation_in; [exact Hp|exact Hin].
    + intros _ E. destruct (exists_last (l := raw)) as (l' & [k v] & El).
      { intros E'. rewrite E' in E. cbn in E. apply Hne. apply map_eq_nil in E'. apply Permutation_nil. rewrite E' in Hp. exact Hp. }
      rewrite El, last_last in E. injection E as -> ->.
      assert (Hin : In ([], []) raw) by (rewrite El; apply in_or_app; right; left; reflexivity).
      unfold raw in Hin. apply in_map_iff in Hin as ([k' v'] & E2 & Hin). cbn in E2. injection E2 as -> _.
      rewrite Forall_forall in Hk1. apply (Hk1 ([], v')); [|reflexivity]. eapply Permutation_in; [exact Hp|exact Hin].
  - unfold raw. rewrite map_map. reflexivity.
  - unfold raw. rewrite map_map. apply map_ext. intros p. cbn [snd]. rewrite <- escape_eq. apply unescape_escape.
Qed.
Print Assumptions C62_values_confined.

Example C62_nonvacuous : let es := [(bs "k", bs "a"" evil=""1""] [x\"); (bs "j", bs "")] in
  NoDup (map fst es) /\ Forall (fun p => fst p <> [] /\ sd_name (fst p)) es /\
  sd_marshal (fun _ => true) (SDGeneric (bs "x@1") false (VMap true false (Some (scalars es)))) = Val (inr (bs "[x@1 j="""" k=""a\"" evil=\""1\""\] [x\\""]")).
Proof.
  cbv zeta. split; [|split; [|vm_compute; reflexivity]].
  - repeat constructor; cbn; intuition discriminate.
  - constructor; [|constructor; [|constructor]]; (split; [discriminate|]); intros c Hc; cbn in Hc; destruct Hc as [<-|[]]; unfold sd_name_byte; lia.
Qed.

(** ** C64: struct encoding *)
(** what one non-empty field named [name] contributes *)
Inductive field_value (name : bytes) : gval -> bytes -> Prop :=
| FV_scalar : forall e printed, field_value name (VBasic e printed) (param_text (1%nat, name, escaped printed))
| FV_nil : field_value name (VPtr None) []
| FV_ptr : forall v t, field_value name v t -> field_value name (VPtr (Some v)) t
| FV_nil_slice : forall ei, field_value name (VSlice ei None) []
| FV_slice : forall vs ts, Forall2 (field_value name) vs ts -> field_value name (VSlice false (Some vs)) (concat ts)
| FV_marshaler_nil : forall e ni r, field_value name (VMar e true ni r) []
| FV_marshaler : forall e b, field_value name (VMar e false false (MRet (inr b))) (param_text (1%nat, name, escaped b)).

(** nested induction on values *)
Fixpoint gval_size (v : gval) : nat :=
  match v with
  | VPtr (Some t) => S (gval_size t)
  | VSlice _ (Some es) => S ((fix go l := match l with [] => 0 | x :: r => gval_size x + go r end) es)
  | _ => 1
  end%nat.
Definition sizes (l : list gval) : nat := (fix go l := match l with [] => 0 | x :: r => gval_size x + go r end)%nat l.
Lemma size_pos v : (1 <= gval_size v)%nat.
Proof. destruct v as [|[]|? []| | | | | |]; cbn; lia. Qed.

Definition enc_list (ro : bool) (prefix : bytes) : list gval -> eres :=
  fix list_loop (es : list gval) : eres :=
    match es with [] => emit [] | x :: r => eseq (enc_value x ro prefix) (list_loop r) end.
Lemma enc_slice ro prefix es : enc_value (VSlice false (Some es)) ro prefix = enc_list ro prefix es.
Proof. cbn [enc_value]. reflexivity. Qed.

Lemma prefixed name data : name <> [] -> prefixed_write name data = param_text (1%nat, name, escaped data).
Proof. intros H. unfold prefixed_write. destruct name; [congruence|]. rewrite escape_eq. reflexivity. Qed.

Lemma field_value_iff_n n : forall v name out, (gval_size v <= n)%nat -> name <> [] ->
  (enc_value v false name = Val (inr out) <-> field_value name v out).
Proof.
  induction n as [|n IH]; intros v name out Hn Hname; [pose proof (size_pos v); lia|].
  destruct v as [e pr|[t|]|ei [es|]|es|ks ei es|fs|nl| |e np ni r].
  - cbn [enc_value]. unfold emit. rewrite prefixed by exact Hname. split; [intros H; injection H as <-; constructor|intros H; inversion H; reflexivity].
  - cbn [enc_value gval_size] in *. rewrite (IH t name out) by (exact Hname || lia). split; [intros H; constructor; exact H|intros H; inversion H; assumption].
  - cbn [enc_value]. unfold emit. split; [intros H; injection H as <-; constructor|intros H; inversion H; reflexivity].
  - destruct ei.
    { cbn [enc_value]. split; [discriminate|intros H; inversion H]. }
    rewrite enc_slice.
    assert (Hs : (sizes es <= n)%nat) by (cbn [gval_size] in Hn; unfold sizes; lia). clear Hn.
    assert (HL : forall out, enc_list false name es = Val (inr out) <-> exists ts, Forall2 (field_value name) es ts /\ out = concat ts).
    { clear out. induction es as [|x es IHe]; intros out.
      - cbn. unfold emit. split; [intros H; injection H as <-; exists []; split; constructor|intros (ts & H & ->); inversion H; reflexivity].
      - assert (Hx : (gval_size x <= n)%nat /\ (sizes es <= n)%nat) by (cbn in Hs; fold (sizes es) in Hs; lia). destruct Hx as [Hx Hes].
        cbn [enc_list]. fold (enc_list false name). unfold eseq. split.
        + destruct (enc_value x false name) as [[er|t]| |] eqn:Ex; try discriminate.
          destruct (enc_list false name es) as [[er|u]| |] eqn:El; try discriminate. intros H. injection H as <-.
          apply (IH x name t Hx Hname) in Ex. destruct (proj1 (IHe Hes u) eq_refl) as (ts & Hts & ->). exists (t :: ts). split; [constructor; assumption|reflexivity].
        + intros (ts & H & ->). inversion H as [|? t ? ts' Ht Hts]; subst. apply (IH x name t Hx Hname) in Ht. rewrite Ht.
          rewrite (proj2 (IHe Hes (concat ts'))); [reflexivity|]. exists ts'. auto. }
    rewrite HL. split; [intros (ts & H & ->); constructor; exact H|intros H; inversion H; subst; eauto].
  - cbn [enc_value]. unfold emit. split; [intros H; injection H as <-; constructor|intros H; inversion H; reflexivity].
  - cbn. split; [discriminate|intros H; inversion H].
  - cbn. split; [discriminate|intros H; inversion H].
  - cbn. split; [discriminate|intros H; inversion H].
  - cbn. split; [discriminate|intros H; inversion H].
  - cbn. split; [discriminate|intros H; inversion H].
  - cbn [enc_value]. destruct np.
    { unfold emit. split; [intros H; injection H as <-; constructor|intros H; inversion H; reflexivity]. }
    destruct ni; [split; [discriminate|intros H; inversion H]|]. destruct r as [[er|b]|er|]; [split; [discriminate|intros H; inversion H]| |split; [discriminate|intros H; inversion H]|split; [discriminate|intros H; inversion H]].
    unfold emit. rewrite prefixed by exact Hname. split; [intros H; injection H as <-; constructor|intros H; inversion H; reflexivity].
Qed.

Lemma field_value_iff v name out : name <> [] -> (enc_value v false name = Val (inr out) <-> field_value name v out).
Proof. intros H. exact (field_value_iff_n (gval_size v) v name out (Nat.le_refl _) H). Qed.

(** the parameter name of a field: none when tagged "-", else the tag name if it is usable, else the
    Go field name; and whether it is tagged mandatory *)
Definition field_named (uni : N -> bool) (f : sfield) (name : bytes) : Prop :=
  (f_tag f = bs "-" /\ name = []) \/
  (f_tag f <> bs "-" /\ name = if is_valid_tag uni (fst (parse_tag (f_tag f))) then fst (parse_tag (f_tag f)) else f_name f).
Definition mandatory (f : sfield) : Prop := f_tag f <> bs "-" /\ In (bs "mandatory") (snd (parse_tag (f_tag f))).

Lemma tag_contains_in o n : tag_contains o n = true <-> In n o.
Proof.
  induction o as [|x o IH]; cbn; [split; [discriminate|tauto]|]. rewrite orb_true_iff, IH, bytes_eqb_eq. intuition congruence.
Qed.

Lemma get_name_spec uni f : field_named uni f (fst (get_name uni f)) /\ (snd (get_name uni f) = true <-> mandatory f).
Proof.
  unfold get_name, field_named, mandatory. destruct (bytes_eqb (f_tag f) (bs "-")) eqn:E.
  - apply bytes_eqb_eq in E. cbn. split; [left; auto|]. split; [discriminate|]. intros [H _]. destruct (H E).
  - assert (Hne : f_tag f <> bs "-") by (intros Hx; apply bytes_eqb_eq in Hx; congruence).
    destruct (parse_tag (f_tag f)) as [tn o]. cbn. split; [right; auto|]. rewrite tag_contains_in. tauto.
Qed.

Lemma field_named_fun uni f n n' : field_named uni f n -> field_named uni f n' -> n = n'.
Proof. intros [[A ->]|[A ->]] [[B ->]|[B ->]]; try reflexivity; [destruct (B A)|destruct (A B)]. Qed.

(** an empty string, slice, array or map; a nil slice, map, pointer or interface (for a scalar or a
    value with its own Marshal5424 the model only keeps whether it is such a value) *)
Inductive empty_value : gval -> Prop :=
| EV_scalar : forall printed, empty_value (VBasic true printed)
| EV_marshaler : forall np ni r, empty_value (VMar true np ni r)
| EV_nil_ptr : empty_value (VPtr None)
| EV_nil_slice : forall ei, empty_value (VSlice ei None)
| EV_slice : forall ei, empty_value (VSlice ei (Some []))
| EV_array : empty_value (VArray [])
| EV_nil_map : forall ks ei, empty_value (VMap ks ei None)
| EV_map : forall ks ei, empty_value (VMap ks ei (Some []))
| EV_iface : empty_value (VIface true).
Lemma empty_iff v : is_empty_value v = true <-> empty_value v.
Proof.
  split.
  - destruct v as [[|] pr|[t|]|ei [[|x es]|]|[|x es]|ks ei [[|x es]|]|fs|[|]| |[|] np ni r]; cbn; intros H; try discriminate H; constructor.
  - intros H. destruct H; reflexivity.
Qed.
Lemma not_empty_iff v : is_empty_value v = false <-> ~ empty_value v.
Proof. rewrite <- empty_iff. destruct (is_empty_value v); split; intros H; congruence. Qed.

(** a whole field: an empty one, or one without name, is left out (and must not be mandatory) *)
Definition field_text (uni : N -> bool) (p : sfield * gval) (out : bytes) : Prop :=
  exists name, field_named uni (fst p) name /\
   (((empty_value (snd p) \/ name = []) /\ ~ mandatory (fst p) /\ out = []) \/
    (~ empty_value (snd p) /\ name <> [] /\ field_value name (snd p) out)).

Lemma enc_fields_iff uni fs : Forall (fun p => f_exported (fst p) = true) fs -> forall out,
  enc_fields uni fs = Val (inr out) <-> exists ts, Forall2 (field_text uni) fs ts /\ out = concat ts.
Proof.
  intros Hex. induction Hex as [|[sf v] fs Hx Hex IH]; intros out.
  - cbn. unfold emit. split; [intros H; injection H as <-; exists []; split; constructor|intros (ts & H & ->); inversion H; reflexivity].
  - cbn [enc_fields fst] in *. destruct (get_name_spec uni sf) as [Hn Hm]. destruct (get_name uni sf) as [name mand]. cbn [fst snd] in Hn, Hm.
    destruct (is_empty_value v || (length name =? 0)%nat) eqn:E.
    + assert (Hemp : empty_value v \/ name = []).
      { apply orb_true_iff in E as [E|E]; [left; apply empty_iff; exact E|right; destruct name; [reflexivity|discriminate]]. }
      destruct mand.
      * split; [discriminate|]. intros (ts & H & _). inversion H as [|? ? ? ? Hft _]; subst. exfalso.
        destruct Hft as (n' & Hn' & Hc). cbn [fst snd] in *. rewrite <- (field_named_fun _ _ _ _ Hn Hn') in Hc.
        destruct Hc as [(_ & Hnm & _)|(H1 & H2 & _)]; [apply Hnm, Hm; reflexivity|destruct Hemp as [He|He]; [destruct (H1 He)|apply H2, He]].
      * rewrite IH. split.
        -- intros (ts & H & ->). exists ([] :: ts). split; [|reflexivity]. constructor; [|exact H]. exists name. split; [exact Hn|]. left.
           split; [exact Hemp|]. split; [|reflexivity]. intros Hx'. apply Hm in Hx'. discriminate.
        -- intros (ts & H & ->). inversion H as [|? t ? ts' Hft Hts]; subst. exists ts'. split; [exact Hts|].
           destruct Hft as (n' & Hn' & Hc). cbn [fst snd] in *. rewrite <- (field_named_fun _ _ _ _ Hn Hn') in Hc.
           destruct Hc as [(_ & _ & ->)|(H1 & H2 & _)]; [reflexivity|destruct Hemp as [He|He]; [destruct (H1 He)|destruct (H2 He)]].
    + apply orb_false_iff in E as [E1 E2]. apply not_empty_iff in E1. assert (Hnn : name <> []) by (intros ->; discriminate). rewrite Hx. cbn [negb].
      unfold eseq. split.
      * destruct (enc_value v false name) as [[er|t]| |] eqn:Ev; try discriminate.
        destruct (enc_fields uni fs) as [[er|u]| |] eqn:Ef; try discriminate. intros H. injection H as <-.
        apply (field_value_iff v name t Hnn) in Ev. destruct (proj1 (IH u) eq_refl) as (ts & Hts & ->). exists (t :: ts).
        split; [|reflexivity]. constructor; [|exact Hts]. exists name. split; [exact Hn|]. right. auto.
      * intros (ts & H & ->). inversion H as [|? t ? ts' Hft Hts]; subst.
        destruct Hft as (n' & Hn' & Hc). cbn [fst snd] in *. rewrite <- (field_named_fun _ _ _ _ Hn Hn') in Hc.
        destruct Hc as [([He|He] & _)|(_ & _ & Hfv)]; [contradiction|congruence|].
        apply (field_value_iff v name t Hnn) in Hfv. rewrite Hfv. rewrite (proj2 (IH (concat ts'))); [reflexivity|]. exists ts'. auto.
Qed.

Theorem C64_struct_encoding : forall uni id pm fs enc, Forall (fun p => f_exported (fst p) = true) fs ->
  (sd_marshal uni (SDGeneric id pm (VStruct fs)) = Val (inr enc) <->
   exists texts, Forall2 (field_text uni) fs texts /\ enc = bs "[" ++ id ++ concat texts ++ bs "]").
Proof.
  intros uni id pm fs enc Hex. cbn [sd_marshal enc_root]. unfold enc_struct.
  pose proof (enc_fields_iff uni fs Hex) as H. unfold eseq at 1, emit, header_write. split.
  - intros He. destruct (enc_fields uni fs) as [[er|u]| |]; try discriminate. cbn [eseq] in He. injection He as <-.
    destruct (proj1 (H u) eq_refl) as (ts & Hts & ->). exists ts. auto.
  - intros (ts & Hts & ->). rewrite (proj2 (H (concat ts))) by eauto. reflexivity.
Qed.
Print Assumptions C64_struct_encoding.

(** unsupported kinds: an error, and no bytes, whatever the other fields are *)
Theorem C64_unsupported_field : forall uni id pm l1 f v l2 texts name e,
  Forall (fun p => f_exported (fst p) = true) l1 -> Forall2 (field_text uni) l1 texts ->
  field_named uni f name -> name <> [] -> ~ empty_value v ->
  ((exists es, v = VArray es) /\ e = EValueError \/
   ((exists ks ei es, v = VMap ks ei es) \/ (exists fs, v = VStruct fs) \/ v = VOther) /\ e = EUnsupportedType) ->
  sd_marshal uni (SDGeneric id pm (VStruct (l1 ++ (f, v) :: l2))) = Val (inl e).
Proof.
  intros uni id pm l1 f v l2 texts name e Hex Ht Hn Hnn He Hv. apply not_empty_iff in He. cbn [sd_marshal enc_root]. unfold enc_struct, emit, eseq at 1.
  assert (Hf : enc_fields uni (l1 ++ (f, v) :: l2) = Val (inl e)).
  { clear -Hex Ht Hn Hnn He Hv. revert texts Ht. induction Hex as [|[sf w] l1 Hx Hex IH]; intros texts Ht.
    - cbn [app enc_fields]. destruct (get_name_spec uni f) as [Hn' _]. destruct (get_name uni f) as [nm md]. cbn [fst] in Hn'.
      rewrite (field_named_fun _ _ _ _ Hn' Hn). rewrite He. destruct name as [|c name]; [congruence|]. cbn [length Nat.eqb orb].
      destruct Hv as [([es ->] & ->)|([(ks & ei & es & ->)|[[fs ->]| ->]] & ->)]; reflexivity.
    - inversion Ht as [|? t ? ts' Hft Hts]; subst. specialize (IH ts' Hts). cbn [app enc_fields fst] in *.
      assert (Hsf : Forall (fun p : sfield * gval => f_exported (fst p) = true) [(sf, w)]) by (constructor; [exact Hx|constructor]).
      pose proof (proj2 (enc_fields_iff uni [(sf, w)] Hsf t)) as Hone. cbn [enc_fields] in Hone. specialize (Hone ltac:(exists [t]; split; [constructor; [exact Hft|constructor]|cbn; rewrite app_nil_r; reflexivity])).
      destruct (get_name uni sf) as [nm md]. destruct (is_empty_value w || (length nm =? 0)%nat).
      + destruct md; [discriminate|exact IH].
      + rewrite Hx in *. cbn [negb] in *. unfold eseq in *. destruct (enc_value w false nm) as [[er|u]| |]; try discriminate. rewrite IH. reflexivity. }
  rewrite Hf. reflexivity.
Qed.
Print Assumptions C64_unsupported_field.

Definition fld (n t : string) : sfield := {| f_name := bs n; f_tag := bs t; f_exported := true |}.
Example C64_nonvacuous :
  let fs := [(fld "A" "", VBasic false (bs "1")); (fld "B" "bee", VSlice false (Some [VBasic false (bs "x"); VBasic false (bs "y")]));
             (fld "C" "-", VBasic false (bs "hidden")); (fld "D" "", VPtr None); (fld "E" "ee,mandatory", VPtr (Some (VBasic false (bs "]"))))] in
  sd_marshal (fun _ => true) (SDGeneric (bs "x@1") false (VStruct fs)) = Val (inr (bs "[x@1 A=""1"" bee=""x"" bee=""y"" ee=""\]""]")) /\
  Forall (fun p => f_exported (fst p) = true) fs /\
  sd_marshal (fun _ => true) (SDGeneric (bs "x@1") false (VStruct [(fld "A" "", VArray [VBasic false (bs "1")])])) = Val (inl EValueError).
Proof. cbv zeta. split; [vm_compute; reflexivity|]. split; [repeat constructor|vm_compute; reflexivity]. Qed.

(** ** C62 for structs: the values a receiver finds are the printed leaves, field by field *)
Inductive leaves : gval -> list bytes -> Prop :=
| LV_scalar : forall e printed, leaves (VBasic e printed) [printed]
| LV_nil : leaves (VPtr None) []
| LV_ptr : forall v l, leaves v l -> leaves (VPtr (Some v)) l
| LV_nil_slice : forall ei, leaves (VSlice ei None) []
| LV_slice : forall vs ls, Forall2 leaves vs ls -> leaves (VSlice false (Some vs)) (concat ls)
| LV_marshaler_nil : forall e ni r, leaves (VMar e true ni r) []
| LV_marshaler : forall e b, leaves (VMar e false false (MRet (inr b))) [b].
Definition field_params (uni : N -> bool) (p : sfield * gval) (kvs : list (bytes * bytes)) : Prop :=
  exists name, field_named uni (fst p) name /\
   (((empty_value (snd p) \/ name = []) /\ kvs = []) \/
    (~ empty_value (snd p) /\ name <> [] /\ exists l, leaves (snd p) l /\ kvs = map (pair name) l)).

Lemma field_leaves_n n : forall v name t, (gval_size v <= n)%nat -> field_value name v t ->
  exists l, leaves v l /\ t = concat (map (fun x => param_text (1%nat, name, escaped x)) l).
Proof.
  induction n as [|n IH]; intros v name t Hn Ht; [pose proof (size_pos v); lia|].
  inversion Ht as [e pr E1 E2| |v' t' Hv E1 E2|ei E1 E2|vs ts Hv E1 E2|e ni r E1 E2|e b E1 E2]; subst; clear Ht.
  - exists [pr]. split; [constructor|cbn [map concat]; rewrite app_nil_r; reflexivity].
  - exists []. split; [constructor|reflexivity].
  - cbn [gval_size] in Hn. destruct (IH v' name t ltac:(lia) Hv) as (l & Hl & ->). exists l. split; [constructor; exact Hl|reflexivity].
  - exists []. split; [constructor|reflexivity].
  - assert (Hs : (sizes vs <= n)%nat) by (cbn [gval_size] in Hn; unfold sizes; lia). clear Hn.
    assert (H : exists ls, Forall2 leaves vs ls /\ concat ts = concat (map (fun x => param_text (1%nat, name, escaped x)) (concat ls))).
    { induction Hv as [|x t0 vs ts Hx Hv IHv]; [exists []; split; [constructor|reflexivity]|].
      assert (Hx2 : (gval_size x <= n)%nat /\ (sizes vs <= n)%nat) by (cbn in Hs; fold (sizes vs) in Hs; lia). destruct Hx2 as [Hx2 Hvs].
      destruct (IH x name t0 Hx2 Hx) as (l & Hl & ->). destruct (IHv Hvs) as (ls & Hls & E). exists (l :: ls). split; [constructor; assumption|].
      cbn [concat]. rewrite E, map_app, concat_app. reflexivity. }
    destruct H as (ls & Hls & ->). exists (concat ls). split; [constructor; exact Hls|reflexivity].
  - exists []. split; [constructor|reflexivity].
  - exists [b]. split; [constructor|cbn [map concat]; rewrite app_nil_r; reflexivity].
Qed.

Lemma fields_params uni fs texts : Forall2 (field_text uni) fs texts ->
  exists kvs, Forall2 (field_params uni) fs kvs /\ concat texts = concat (map (fun p => param_text (1%nat, fst p, escaped (snd p))) (concat kvs)).
Proof.
  intros H. induction H as [|[f v] t fs ts Ht H (kvs & Hk & E)]; [exists []; split; [constructor|reflexivity]|].
  destruct Ht as (name & Hn & [(He & _ & ->)|(He & Hne & Hv)]); cbn [fst snd] in *.
  - exists ([] :: kvs). split; [constructor; [|exact Hk]; exists name; split; [exact Hn|left; auto]|exact E].
  - destruct (field_leaves_n _ v name t (Nat.le_refl _) Hv) as (l & Hl & ->). exists (map (pair name) l :: kvs). split.
    + constructor; [|exact Hk]. exists name. split; [exact Hn|]. right. split; [exact He|]. split; [exact Hne|]. exists l. auto.
    + cbn [concat]. rewrite E, map_app, concat_app, map_map. reflexivity.
Qed.

Theorem C62_struct_values_confined : forall uni id pm fs enc,
  Forall (fun p => f_exported (fst p) = true) fs -> id <> [] -> sd_name id ->
  (forall p name, In p fs -> field_named uni (fst p) name -> sd_name name) ->
  sd_marshal uni (SDGeneric id pm (VStruct fs)) = Val (inr enc) ->
  exists kvs, Forall2 (field_params uni) fs kvs /\
    (concat kvs = [] -> enc = bs "[" ++ id ++ bs "]") /\
    (concat kvs <> [] -> exists raw, unknown_found enc = Val (Some (SDUnknown id raw)) /\
       map (fun q => (fst q, unescape (snd q))) raw = concat kvs).
Proof.
  intros uni id pm fs enc Hex Hid Hidn Hnames Hm. apply C64_struct_encoding in Hm as (texts & Ht & ->); [|exact Hex].
  destruct (fields_params uni fs texts Ht) as (kvs & Hk & E). exists kvs. split; [exact Hk|]. split; [intros E0; rewrite E, E0; reflexivity|]. intros Hne.
  set (raw := map (fun p => (fst p, escaped (snd p))) (concat kvs)). exists raw.
  assert (Hin : forall kv, In kv (concat kvs) -> fst kv <> [] /\ sd_name (fst kv)).
  { intros kv Hin. apply in_concat in Hin as (l & Hl & Hin). clear -Hnames Hk Hl Hin.
    induction Hk as [|p l0 fs kvs Hp Hk IH]; [destruct Hl|]. destruct Hl as [->|Hl]; [|apply IH; [intros q nm Hq; apply Hnames; right; exact Hq|exact Hl]].
    destruct Hp as (name & Hn & [(_ & ->)|(_ & Hne & ls & _ & ->)]); [destruct Hin|]. apply in_map_iff in Hin as (x & <- & _). cbn [fst].
    split; [exact Hne|]. apply (Hnames p name); [left; reflexivity|exact Hn]. }
  split.
  - rewrite E. replace (bs "[" ++ id ++ _ ++ bs "]") with (unknown_marshal id raw).
    2: { rewrite unknown_marshal_eq. unfold text_of, raw. rewrite !map_map. reflexivity. }
    apply unknown_roundtrip. split; [exact Hid|]. split; [exact Hidn|]. split; [|split].
    + intros E0. apply map_eq_nil in E0. contradiction.
    + unfold raw. rewrite Forall_map, Forall_forall. intros kv Hkv. split; [exact (proj2 (Hin kv Hkv))|]. cbn [snd]. rewrite <- escape_eq. apply escape_well.
    + intros _ El. destruct (exists_last (l := concat kvs) Hne) as (l' & kv & Ek). unfold raw in El. rewrite Ek, map_app in El. cbn [map] in El. rewrite last_last in El.
      injection El as E1 _. apply (proj1 (Hin kv ltac:(rewrite Ek; apply in_or_app; right; left; reflexivity))). exact E1.
  - unfold raw. rewrite map_map. erewrite map_ext; [apply map_id|]. intros [k v]. cbn [fst snd]. rewrite <- escape_eq, unescape_escape. reflexivity.
Qed.
Print Assumptions C62_struct_values_confined.

Example C62_struct_nonvacuous :
  let fs := [(fld "A" "", VBasic false (bs "a"" evil=""1""]")); (fld "B" "bee", VSlice false (Some [VBasic false (bs "x]"); VBasic false (bs "\")]))] in
  sd_marshal (fun _ => true) (SDGeneric (bs "x@1") false (VStruct fs)) = Val (inr (bs "[x@1 A=""a\"" evil=\""1\""\]"" bee=""x\]"" bee=""\\""]")) /\
  Forall2 (field_params (fun _ => true)) fs [[(bs "A", bs "a"" evil=""1""]")]; [(bs "bee", bs "x]"); (bs "bee", bs "\")]].
Proof.
  cbv zeta. split; [vm_compute; reflexivity|]. constructor; [|constructor; [|constructor]].
  - exists (bs "A"). split; [right; split; [discriminate|reflexivity]|]. right. split; [intros H; inversion H|]. split; [discriminate|]. exists [bs "a"" evil=""1""]"].
    split; [constructor|reflexivity].
  - exists (bs "bee"). split; [right; split; [discriminate|vm_compute; reflexivity]|]. right. split; [intros H; inversion H|]. split; [discriminate|].
    exists [bs "x]"; bs "\"]. split; [|reflexivity]. exact (LV_slice _ [[bs "x]"]; [bs "\"]] (Forall2_cons _ _ (LV_scalar _ _) (Forall2_cons _ _ (LV_scalar _ _) (Forall2_nil _)))).
Qed.
