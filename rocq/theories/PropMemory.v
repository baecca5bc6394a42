(** PropMemory.v -- aliasing of lists and frames (C71, C77). *)
From Verif Require Import Base BaseFacts MTransport MSlice.

(** ** facts about slices *)
Section Facts.
  Context {A : Type} (zero : A).
  Implicit Types (h : heap A) (s t : gslice) (xs : list A).

  (** a header that lies in its array *)
  Definition valid (h : heap A) (s : gslice) : Prop :=
    (s_len s <= s_cap s)%nat /\ (s_cap s = 0%nat \/ (s_arr s < length h)%nat /\ (s_off s + s_cap s <= length (array h (s_arr s)))%nat).

  (** position [i] of slice [t], as a cell of memory *)
  Definition cell (t : gslice) (i : nat) : nat * nat := (s_arr t, (s_off t + i)%nat).
  (** the cells append writes: the [n] cells after the end of [s] *)
  Definition after (s : gslice) (n : nat) (c : nat * nat) : Prop :=
    fst c = s_arr s /\ (s_off s + s_len s <= snd c < s_off s + s_len s + n)%nat.

  Lemma set_nth_length h a l : length (set_nth h a l) = length h.
  Proof. revert a. induction h; intros [|a']; cbn; auto. Qed.
  Lemma array_set_same h a l : (a < length h)%nat -> array (set_nth h a l) a = l.
  Proof. unfold array. revert a. induction h as [|x h IH]; intros [|a] H; cbn in *; try lia; [reflexivity|]. apply IH. lia. Qed.
  Lemma array_set_other h a b l : a <> b -> array (set_nth h a l) b = array h b.
  Proof. unfold array. revert a b. induction h as [|x h IH]; intros [|a] [|b] H; cbn; try reflexivity; try congruence. apply IH. congruence. Qed.
  Lemma array_app_old h x b : (b < length h)%nat -> array (h ++ x) b = array h b.
  Proof. intros H. unfold array. apply app_nth1. exact H. Qed.
  Lemma array_app_new h x : array (h ++ [x]) (length h) = x.
  Proof. unfold array. rewrite app_nth2 by lia. rewrite Nat.sub_diag. reflexivity. Qed.

  Lemma overwrite_length (l : list A) i xs : (i + length xs <= length l)%nat -> length (overwrite l i xs) = length l.
  Proof. intros H. unfold overwrite. rewrite !app_length, firstn_length, skipn_length. lia. Qed.
  Lemma overwrite_nth (l : list A) i xs j : (i + length xs <= length l)%nat ->
    nth_error (overwrite l i xs) j = if (i <=? j)%nat && (j <? i + length xs)%nat then nth_error xs (j - i) else nth_error l j.
  Proof.
    intros H. unfold overwrite. destruct (Nat.leb_spec i j) as [H1|H1]; cbn [andb].
    - rewrite nth_error_app2 by (rewrite firstn_length; lia). rewrite firstn_length, Nat.min_l by lia.
      destruct (Nat.ltb_spec j (i + length xs)) as [H2|H2].
      + rewrite nth_error_app1 by lia. reflexivity.
      + rewrite nth_error_app2 by lia. rewrite <- (firstn_skipn (i + length xs) l) at 2.
        rewrite (nth_error_app2 (firstn _ _)) by (rewrite firstn_length; lia). rewrite firstn_length, Nat.min_l by lia. f_equal. lia.
    - rewrite nth_error_app1 by (rewrite firstn_length; lia). rewrite <- (firstn_skipn i l) at 2.
      rewrite nth_error_app1 by (rewrite firstn_length; lia). reflexivity.
  Qed.

  Lemma skipn_nth (l : list A) n i : nth_error (skipn n l) i = nth_error l (n + i).
  Proof. revert n. induction l as [|x l IH]; intros [|n]; cbn; try reflexivity; [destruct i; reflexivity|apply IH]. Qed.
  Lemma firstn_nth (l : list A) n i : nth_error (firstn n l) i = if (i <? n)%nat then nth_error l i else None.
  Proof.
    revert n i. induction l as [|x l IH]; intros [|n] [|i]; cbn [firstn nth_error]; try reflexivity.
    - destruct (S i <? S n)%nat; reflexivity.
    - rewrite IH. reflexivity.
  Qed.
  Lemma contents_nth h s i : nth_error (contents h s) i = if (i <? s_len s)%nat then nth_error (array h (s_arr s)) (s_off s + i) else None.
  Proof. unfold contents. rewrite firstn_nth, skipn_nth. reflexivity. Qed.

  Lemma nth_error_ext (l l' : list A) : (forall i, nth_error l i = nth_error l' i) -> l = l'.
  Proof.
    revert l'. induction l as [|x l IH]; intros [|y l'] H; [reflexivity|specialize (H 0%nat); discriminate|specialize (H 0%nat); discriminate|].
    pose proof (H 0%nat) as H0. cbn in H0. injection H0 as ->. f_equal. apply IH. intros i. exact (H (S i)).
  Qed.

  Lemma contents_length h s : valid h s -> length (contents h s) = s_len s.
  Proof.
    intros [Hl Hv]. unfold contents. rewrite firstn_length, skipn_length. destruct Hv as [Hc|[_ Hv]]; lia.
  Qed.

  (** memory after append: a new array, or the cells after [s] overwritten *)
  Lemma append_result newcap h s xs h' s' : valid h s -> (s_len s + length xs <= newcap)%nat -> go_append zero newcap h s xs = (h', s') ->
    contents h' s' = contents h s ++ xs /\ valid h' s' /\ s_len s' = (s_len s + length xs)%nat /\
    (forall t, valid h t -> valid h' t).
  Proof.
    intros Hv Hn E. unfold go_append in E. destruct Hv as [Hl Hv].
    destruct (Nat.leb_spec (s_len s + length xs) (s_cap s)) as [Hc|Hc]; injection E as <- <-.
    - cbn [s_len]. destruct Hv as [Hv|[Ha Hv]].
      { assert (Hx : xs = []) by (destruct xs; [reflexivity|cbn in Hc; lia]). subst xs.
        assert (Hle : forall a, array (set_nth h (s_arr s) (overwrite (array h (s_arr s)) (s_off s + s_len s) [])) a = array h a).
        { intros a. assert (Ho : overwrite (array h (s_arr s)) (s_off s + s_len s) [] = array h (s_arr s)).
          { unfold overwrite. cbn. rewrite Nat.add_0_r. apply firstn_skipn. }
          rewrite Ho. destruct (Nat.eq_dec (s_arr s) a) as [->|Hne]; [|apply array_set_other; exact Hne].
          destruct (Nat.lt_ge_cases a (length h)) as [Hlt|Hge]; [apply array_set_same; exact Hlt|].
          assert (Hs : forall l, set_nth h a l = h). { intros l. clear -Hge. revert a Hge. induction h as [|x h IH]; intros [|a] Hge; cbn in *; try reflexivity; try lia. f_equal. apply IH. lia. }
          rewrite Hs. reflexivity. }
        cbn [length]. rewrite Nat.add_0_r, app_nil_r. unfold contents. cbn [s_len s_off s_arr]. rewrite Hle. split; [reflexivity|].
        split; [split; cbn; [lia|left; exact Hv]|]. split; [reflexivity|]. intros t [Ht1 Ht2]. split; [exact Ht1|].
        rewrite set_nth_length, Hle. exact Ht2. }
      assert (Hw : (s_off s + s_len s + length xs <= length (array h (s_arr s)))%nat) by lia.
      assert (Hval : forall t, valid h t -> valid (set_nth h (s_arr s) (overwrite (array h (s_arr s)) (s_off s + s_len s) xs)) t).
      { intros t [Ht1 [Ht2|[Ht2 Ht3]]]; (split; [exact Ht1|]); [left; exact Ht2|right]. rewrite set_nth_length. split; [exact Ht2|].
        destruct (Nat.eq_dec (s_arr s) (s_arr t)) as [Ee|Hne]; [rewrite <- Ee in *; rewrite array_set_same by exact Ha; rewrite overwrite_length by lia; exact Ht3|].
        rewrite array_set_other by exact Hne. exact Ht3. }
      split; [|split; [|split; [reflexivity|exact Hval]]].
      + apply nth_error_ext. intros i. rewrite contents_nth. cbn [s_len s_arr s_off]. rewrite array_set_same by exact Ha.
        rewrite overwrite_nth by lia.
        destruct (Nat.ltb_spec i (s_len s + length xs)) as [Hi|Hi].
        2: { symmetry. apply nth_error_None. rewrite app_length, contents_length by (split; [exact Hl|right; auto]). lia. }
        destruct (Nat.lt_ge_cases i (s_len s)) as [Hj|Hj].
        * rewrite nth_error_app1 by (rewrite contents_length by (split; [exact Hl|right; auto]); lia). rewrite contents_nth.
          destruct (Nat.ltb_spec i (s_len s)); [|lia]. destruct (Nat.leb_spec (s_off s + s_len s) (s_off s + i)); [lia|]. reflexivity.
        * rewrite nth_error_app2 by (rewrite contents_length by (split; [exact Hl|right; auto]); lia). rewrite contents_length by (split; [exact Hl|right; auto]).
          destruct (Nat.leb_spec (s_off s + s_len s) (s_off s + i)); [|lia]. destruct (Nat.ltb_spec (s_off s + i) (s_off s + s_len s + length xs)); [|lia]. cbn [andb]. f_equal. lia.
      + apply (Hval {| s_arr := s_arr s; s_off := s_off s; s_len := s_len s + length xs; s_cap := s_cap s |}). split; cbn; [exact Hc|]. right. auto.
    - assert (Hlc : length (contents h s) = s_len s) by (apply contents_length; split; assumption).
      split; [|split; [|split; [reflexivity|]]].
      + unfold contents at 1. cbn [s_len s_off s_arr]. rewrite array_app_new. cbn [skipn].
        rewrite app_assoc, firstn_app. rewrite app_length, Hlc. rewrite firstn_all2 by (rewrite app_length, Hlc; lia).
        replace (s_len s + length xs - (s_len s + length xs))%nat with 0%nat by lia. cbn. apply app_nil_r.
      + split; cbn [s_len s_cap s_arr s_off]; [lia|]. right. rewrite app_length. cbn. split; [lia|]. rewrite array_app_new.
        rewrite !app_length, Hlc, repeat_length. lia.
      + intros t [Ht1 [Ht2|[Ht2 Ht3]]]; (split; [exact Ht1|]); [left; exact Ht2|right]. rewrite app_length. split; [lia|]. rewrite array_app_old by exact Ht2. exact Ht3.
  Qed.

  (** which slices change: those that show one of the overwritten cells, with another value *)
  Lemma append_effect newcap h s xs h' s' : valid h s -> go_append zero newcap h s xs = (h', s') -> forall t, valid h t ->
    (contents h' t = contents h t <->
     ((s_len s + length xs <= s_cap s)%nat ->
      forall i j x, (i < s_len t)%nat -> nth_error xs j = Some x -> cell t i = (s_arr s, (s_off s + s_len s + j)%nat) -> nth_error (contents h t) i = Some x)).
  Proof.
    intros Hv E t Ht. unfold go_append in E.
    destruct (Nat.leb_spec (s_len s + length xs) (s_cap s)) as [Hc|Hc]; injection E as <- <-.
    2: { split; [intros _ H; lia|]. intros _. destruct Ht as [Ht1 [Ht2|[Ht2 Ht3]]].
         - assert (s_len t = 0%nat) by lia. unfold contents. rewrite H. reflexivity.
         - unfold contents. rewrite array_app_old by exact Ht2. reflexivity. }
    destruct Hv as [Hl Hv].
    assert (Hzero : s_len t = 0%nat -> contents (set_nth h (s_arr s) (overwrite (array h (s_arr s)) (s_off s + s_len s) xs)) t = contents h t).
    { intros H. unfold contents. rewrite H. reflexivity. }
    destruct Hv as [Hv|[Ha Hv]].
    { assert (Hx : xs = []) by (destruct xs; [reflexivity|cbn in Hc; lia]). subst xs. split.
      - intros _ _ i j x _ Hj. destruct j; discriminate.
      - intros _. unfold contents. destruct (Nat.eq_dec (s_arr s) (s_arr t)) as [Ee|Hne]; [|rewrite array_set_other by exact Hne; reflexivity].
        assert (Ho : overwrite (array h (s_arr s)) (s_off s + s_len s) [] = array h (s_arr s)).
        { unfold overwrite. cbn. rewrite Nat.add_0_r. apply firstn_skipn. }
        rewrite Ho. destruct Ht as [Ht1 [Ht2|[Ht2 Ht3]]]; [replace (s_len t) with 0%nat by lia; reflexivity|]. rewrite <- Ee in *. rewrite array_set_same by exact Ht2. reflexivity. }
    assert (Hw : (s_off s + s_len s + length xs <= length (array h (s_arr s)))%nat) by lia.
    split.
    - intros H _ i j x Hi Hj Hcell. rewrite <- H. rewrite contents_nth. destruct (Nat.ltb_spec i (s_len t)); [|lia].
      injection Hcell as Harr Hoff. rewrite Harr, Hoff. rewrite array_set_same by exact Ha. rewrite overwrite_nth by lia.
      assert (Hjl : (j < length xs)%nat) by (apply nth_error_Some; congruence).
      destruct (Nat.leb_spec (s_off s + s_len s) (s_off s + s_len s + j)); [|lia]. destruct (Nat.ltb_spec (s_off s + s_len s + j) (s_off s + s_len s + length xs)); [|lia]. cbn [andb].
      replace (s_off s + s_len s + j - (s_off s + s_len s))%nat with j by lia. exact Hj.
    - intros H. specialize (H Hc). apply nth_error_ext. intros i. rewrite contents_nth. 
      destruct (Nat.ltb_spec i (s_len t)) as [Hi|Hi]; [|rewrite contents_nth; destruct (Nat.ltb_spec i (s_len t)); [lia|reflexivity]].
      destruct (Nat.eq_dec (s_arr s) (s_arr t)) as [Ee|Hne].
      2: { rewrite array_set_other by exact Hne. rewrite contents_nth. destruct (Nat.ltb_spec i (s_len t)); [reflexivity|lia]. }
      rewrite <- Ee at 1. rewrite array_set_same by exact Ha. rewrite overwrite_nth by lia.
      destruct (Nat.leb_spec (s_off s + s_len s) (s_off t + i)) as [H1|H1]; cbn [andb];
        [|rewrite contents_nth; destruct (Nat.ltb_spec i (s_len t)); [rewrite Ee; reflexivity|lia]].
      destruct (Nat.ltb_spec (s_off t + i) (s_off s + s_len s + length xs)) as [H2|H2];
        [|rewrite contents_nth; destruct (Nat.ltb_spec i (s_len t)); [rewrite Ee; reflexivity|lia]].
      destruct (nth_error xs (s_off t + i - (s_off s + s_len s))) as [x|] eqn:Ex; [|apply nth_error_None in Ex; lia].
      symmetry. apply (H i _ x Hi Ex). unfold cell. f_equal; [symmetry; exact Ee|lia].
  Qed.
End Facts.

(** ** C71: lists of structured data derived from each other *)

(** A history: the list values obtained so far, each with the contents it had when it was obtained,
    and the list values that have been extended with something.  Messages only carry such a list value (every setter
    but StructuredData copies it, StructuredData is Add). *)
Inductive history {A} (zero : A) : heap A -> list (gslice * list A) -> list gslice -> Prop :=
| H_start : history zero [] [] []
| H_empty : forall h vs ex, history zero h vs ex -> history zero h (vs ++ [(empty_list, [])]) ex
| H_copy : forall h vs ex s c, history zero h vs ex -> In (s, c) vs -> history zero h (vs ++ [(s, contents h s)]) ex
| H_add : forall h vs ex s c xs newcap h' s', history zero h vs ex -> In (s, c) vs -> xs <> [] ->
    (s_len s + length xs <= newcap)%nat ->
    list_add zero newcap h s xs = (h', s') -> history zero h' (vs ++ [(s', contents h' s')]) (s :: ex).

(** no non-empty list value was extended twice *)
Definition linear (ex : list gslice) : Prop := NoDup (filter (fun s => negb (s_len s =? 0)%nat) ex).

Section C71.
  Context {A : Type} (zero : A).

  (** all headers start at offset 0, lie in their arrays; headers on one array have its capacity; an
      empty one has no capacity; contents are the original ones; a shorter one on the same array has
      been extended *)
  Definition inv (h : heap A) (vs : list (gslice * list A)) (ex : list gslice) : Prop :=
    (forall s c, In (s, c) vs -> valid h s /\ s_off s = 0%nat /\ (s_len s = 0%nat -> s = empty_list) /\
       ((0 < s_len s)%nat -> s_cap s = length (array h (s_arr s))) /\ contents h s = c) /\
    (forall s c t d, In (s, c) vs -> In (t, d) vs -> (0 < s_len s)%nat -> s_arr s = s_arr t -> (s_len s < s_len t)%nat -> In s ex).

  Lemma linear_tail s ex : linear (s :: ex) -> linear ex /\ ((0 < s_len s)%nat -> ~ In s ex).
  Proof.
    unfold linear. cbn [filter]. destruct (Nat.eqb_spec (s_len s) 0) as [H|H]; cbn [negb].
    - intros Hn. split; [exact Hn|]. lia.
    - intros Hn. inversion Hn as [|? ? Hni Hn']; subst. split; [exact Hn'|]. intros _ Hi. apply Hni. apply filter_In. split; [exact Hi|].
      destruct (Nat.eqb_spec (s_len s) 0); [lia|reflexivity].
  Qed.

  Lemma history_inv h vs ex : history zero h vs ex -> linear ex -> inv h vs ex.
  Proof.
    induction 1 as [|h vs ex H IH|h vs ex s c H IH Hin|h vs ex s c xs newcap h' s' H IH Hin Hne Hn E]; intros Hlin.
    - split; [intros ? ? []|intros ? ? ? ? []].
    - destruct (IH Hlin) as [I1 I2]. split.
      + intros s c Hs. apply in_app_or in Hs as [Hs|[Hs|[]]]; [exact (I1 _ _ Hs)|]. injection Hs as <- <-. split; [split; cbn; auto|]. split; [reflexivity|]. split; [reflexivity|]. split; [cbn; lia|reflexivity].
      + intros s c t d Hs Ht Hp Ha Hl. apply in_app_or in Hs as [Hs|[Hs|[]]]; [|injection Hs as <- <-; cbn in Hp; lia].
        apply in_app_or in Ht as [Ht|[Ht|[]]]; [exact (I2 _ _ _ _ Hs Ht Hp Ha Hl)|injection Ht as <- <-; cbn in Hl; lia].
    - destruct (IH Hlin) as [I1 I2]. split.
      + intros t d Ht. apply in_app_or in Ht as [Ht|[Ht|[]]]; [exact (I1 _ _ Ht)|]. injection Ht as <- <-. destruct (I1 _ _ Hin) as (a & b & d & e & f). auto 6.
      + assert (Hx : forall t d, In (t, d) (vs ++ [(s, contents h s)]) -> exists d', In (t, d') vs).
        { intros t d Ht. apply in_app_or in Ht as [Ht|[Ht|[]]]; [eauto|]. injection Ht as <- <-. eauto. }
        intros t d u e Ht Hu Hp Ha Hl. destruct (Hx _ _ Ht) as [d' Ht'], (Hx _ _ Hu) as [e' Hu']. exact (I2 _ _ _ _ Ht' Hu' Hp Ha Hl).
    - destruct (linear_tail _ _ Hlin) as [Hlin' Hfresh]. destruct (IH Hlin') as [I1 I2].
      destruct (I1 _ _ Hin) as (Hv & Ho & Hz & Hcap & _). unfold list_add in E.
      destruct (append_result zero newcap h s xs h' s' Hv Hn E) as (_ & Hv' & Hl' & Hkeep).
      pose proof (append_effect zero newcap h s xs h' s' Hv E) as Heff.
      assert (Hxl : (0 < length xs)%nat) by (destruct xs; [congruence|cbn; lia]).
      unfold go_append in E. destruct (Nat.leb_spec (s_len s + length xs) (s_cap s)) as [Hc|Hc]; injection E as <- <-.
      + (* in place *)
        assert (Hps : (0 < s_len s)%nat). { destruct (Nat.eq_dec (s_len s) 0) as [Hx|Hx]; [|lia]. rewrite (Hz Hx) in Hc. cbn in Hc. lia. }
        destruct Hv as [Hl [Hv|[Ha Hv]]]; [lia|].
        assert (Hla : length (overwrite (array h (s_arr s)) (s_off s + s_len s) xs) = length (array h (s_arr s))) by (apply overwrite_length; lia).
        assert (Hlen : forall a, length (array (set_nth h (s_arr s) (overwrite (array h (s_arr s)) (s_off s + s_len s) xs)) a) = length (array h a)).
        { intros a. destruct (Nat.eq_dec (s_arr s) a) as [<-|Hna]; [rewrite array_set_same by exact Ha; exact Hla|rewrite array_set_other by exact Hna; reflexivity]. }
        assert (Hshort : forall t d, In (t, d) vs -> s_arr t = s_arr s -> (s_len t <= s_len s)%nat).
        { intros t d Ht Hat. destruct (Nat.le_gt_cases (s_len t) (s_len s)) as [Hx|Hx]; [exact Hx|]. exfalso. apply (Hfresh Hps). exact (I2 _ _ _ _ Hin Ht Hps (eq_sym Hat) Hx). }
        split.
        * intros t d Ht. apply in_app_or in Ht as [Ht|[Ht|[]]].
          -- destruct (I1 _ _ Ht) as (Ht1 & Ht2 & Ht3 & Ht4 & Ht5). split; [apply Hkeep; exact Ht1|]. split; [exact Ht2|]. split; [exact Ht3|]. rewrite Hlen. split; [exact Ht4|].
             rewrite <- Ht5. apply (Heff t Ht1). intros _ i j x Hi _ Hcell. injection Hcell as Hca Hco. pose proof (Hshort _ _ Ht Hca). lia.
          -- injection Ht as <- <-. split; [exact Hv'|]. cbn [s_off s_len s_cap s_arr]. split; [exact Ho|]. split; [lia|]. rewrite Hlen. split; [|reflexivity]. intros _. apply Hcap. exact Hps.
        * intros t d u e Ht Hu Hp Hau Hlu.
          apply in_app_or in Ht as [Ht|[Ht|[]]]; apply in_app_or in Hu as [Hu|[Hu|[]]].
          -- right. exact (I2 _ _ _ _ Ht Hu Hp Hau Hlu).
          -- injection Hu as <- _. cbn [s_arr s_len] in *. pose proof (Hshort _ _ Ht Hau) as Hle.
             destruct (Nat.eq_dec (s_len t) (s_len s)) as [Hx|Hx].
             ++ left. destruct (I1 _ _ Ht) as (Ht1 & Ht2 & _ & Ht4 & _). specialize (Ht4 Hp). specialize (Hcap Hps).
                destruct s, t; cbn in *. subst; f_equal; congruence.
             ++ right. apply (I2 _ _ _ _ Ht Hin Hp Hau). lia.
          -- injection Ht as <- _. cbn [s_arr s_len] in *. pose proof (Hshort _ _ Hu (eq_sym Hau)). lia.
          -- injection Ht as <- _. injection Hu as <- _. lia.
      + (* a new array *)
        split.
        * intros t d Ht. apply in_app_or in Ht as [Ht|[Ht|[]]].
          -- destruct (I1 _ _ Ht) as (Ht1 & Ht2 & Ht3 & Ht4 & Ht5). split; [apply Hkeep; exact Ht1|]. split; [exact Ht2|]. split; [exact Ht3|]. split.
             ++ intros Hp. destruct Ht1 as [Hx1 [Hx2|[Hx2 _]]]; [lia|]. rewrite array_app_old by exact Hx2. apply Ht4. exact Hp.
             ++ rewrite <- Ht5. apply (Heff t Ht1). lia.
          -- injection Ht as <- <-. split; [exact Hv'|]. cbn [s_off s_len s_cap s_arr]. split; [reflexivity|]. split; [lia|]. split; [|reflexivity]. intros _.
             rewrite array_app_new. rewrite !app_length, repeat_length. rewrite contents_length by exact Hv. lia.
        * assert (Hold : forall t d, In (t, d) vs -> (0 < s_len t)%nat -> s_arr t <> length h).
          { intros t d Ht Hp. destruct (I1 _ _ Ht) as ([Hx1 [Hx2|[Hx2 _]]] & _); lia. }
          intros t d u e Ht Hu Hp Hau Hlu.
          apply in_app_or in Ht as [Ht|[Ht|[]]]; apply in_app_or in Hu as [Hu|[Hu|[]]].
          -- right. exact (I2 _ _ _ _ Ht Hu Hp Hau Hlu).
          -- injection Hu as <- _. cbn [s_arr] in Hau. destruct (Hold _ _ Ht Hp Hau).
          -- injection Ht as <- _. cbn [s_arr s_len] in *. assert (Hpu : (0 < s_len u)%nat) by lia. destruct (Hold _ _ Hu Hpu). congruence.
          -- injection Ht as <- _. injection Hu as <- _. lia.
  Qed.
End C71.

(** as long as no non-empty list (message) is extended twice, no list ever changes *)
Theorem C71_linear_stable : forall (A : Type) (zero : A) h vs ex, history zero h vs ex -> linear ex ->
  forall s c, In (s, c) vs -> contents h s = c.
Proof. intros A zero h vs ex H Hl s c Hs. destruct (history_inv zero h vs ex H Hl) as [I _]. destruct (I s c Hs) as (_ & _ & _ & _ & E). exact E. Qed.
Print Assumptions C71_linear_stable.

(** one Add: the result is the operand followed by the data; an existing list [t] keeps its contents
    if and only if the operand has no room left, or [t] shows none of the cells just after the
    operand with a different value; in particular no list that is not longer than the operand on the
    same array changes, so neither the operand nor any list it was derived from *)
Theorem C71_add_effect : forall (A : Type) (zero : A) newcap h s xs h' s', valid h s -> (s_len s + length xs <= newcap)%nat ->
  list_add zero newcap h s xs = (h', s') ->
  contents h' s' = contents h s ++ xs /\
  forall t, valid h t ->
    (contents h' t = contents h t <->
      ((s_len s + length xs <= s_cap s)%nat ->
       forall i j x, (i < s_len t)%nat -> nth_error xs j = Some x ->
         s_arr t = s_arr s -> (s_off t + i = s_off s + s_len s + j)%nat -> nth_error (contents h t) i = Some x)) /\
    ((s_arr t = s_arr s -> (s_off t + s_len t <= s_off s + s_len s)%nat) -> contents h' t = contents h t).
Proof.
  intros A zero newcap h s xs h' s' Hv Hn E. unfold list_add in E. destruct (append_result zero newcap h s xs h' s' Hv Hn E) as (Hc & _). split; [exact Hc|].
  intros t Ht. pose proof (append_effect zero newcap h s xs h' s' Hv E t Ht) as He. split.
  - rewrite He. split; intros H Hle i j x Hi Hj.
    + intros Ha Ho. apply (H Hle i j x Hi Hj). unfold cell. rewrite Ha, Ho. reflexivity.
    + intros Hcell. injection Hcell as Ha Ho. exact (H Hle i j x Hi Hj Ha Ho).
  - intros H. apply He. intros _ i j x Hi _ Hcell. injection Hcell as Ha Ho. specialize (H Ha). lia.
Qed.
Print Assumptions C71_add_effect.

(** the unconditional claim is false: with the runtime's doubling growth, three elements leave room
    for a fourth, and two messages derived from that one overwrite each other's fourth element *)
Theorem C71_siblings_refuted : exists (h : heap nat) vs ex s1 s2,
  history 0%nat h vs ex /\ In (s1, [1; 2; 3; 4]%nat) vs /\ In (s2, [1; 2; 3; 5]%nat) vs /\
  contents h s1 = [1; 2; 3; 5]%nat.
Proof.
  set (g := fun n a => {| s_arr := a; s_off := 0; s_len := n; s_cap := match n with 1 => 1 | 2 => 2 | _ => 4 end |}).
  assert (H0 := H_empty _ _ _ _ (H_start 0%nat)).
  assert (H1 := H_add 0%nat _ _ _ empty_list [] [1%nat] 1%nat _ _ H0 (or_introl eq_refl) ltac:(discriminate) ltac:(cbn; lia) eq_refl).
  assert (H2 := H_add 0%nat _ _ _ (g 1 0)%nat [1%nat] [2%nat] 2%nat _ _ H1 ltac:(cbn; auto) ltac:(discriminate) ltac:(cbn; lia) eq_refl).
  assert (H3 := H_add 0%nat _ _ _ (g 2 1)%nat [1; 2]%nat [3%nat] 4%nat _ _ H2 ltac:(cbn; auto) ltac:(discriminate) ltac:(cbn; lia) eq_refl).
  assert (H4 := H_add 0%nat _ _ _ (g 3 2)%nat [1; 2; 3]%nat [4%nat] 4%nat _ _ H3 ltac:(cbn; auto 8) ltac:(discriminate) ltac:(cbn; lia) eq_refl).
  assert (H5 := H_add 0%nat _ _ _ (g 3 2)%nat [1; 2; 3]%nat [5%nat] 4%nat _ _ H4 ltac:(cbn; auto 8) ltac:(discriminate) ltac:(cbn; lia) eq_refl).
  eexists. eexists. eexists. exists (g 4 2)%nat, (g 4 2)%nat. split; [exact H5|]. split; [cbn; auto 8|]. split; [cbn; auto 8|]. reflexivity.
Qed.
Print Assumptions C71_siblings_refuted.

(** non-vacuity: chains (each message derived from the last one) are linear *)
Example C71_nonvacuous : exists (h : heap nat) vs ex, history 0%nat h vs ex /\ linear ex /\ In ([1; 2; 3]%nat) (map snd vs) /\ In ([1]%nat) (map snd vs).
Proof.
  assert (H0 := H_empty _ _ _ _ (H_start 0%nat)).
  assert (H1 := H_add 0%nat _ _ _ empty_list [] [1%nat] 4%nat _ _ H0 (or_introl eq_refl) ltac:(discriminate) ltac:(cbn; lia) eq_refl).
  assert (H2 := H_add 0%nat _ _ _ {| s_arr := 0; s_off := 0; s_len := 1; s_cap := 4 |} [1%nat] [2; 3]%nat 4%nat _ _ H1 ltac:(cbn; auto) ltac:(discriminate) ltac:(cbn; lia) eq_refl).
  do 3 eexists. split; [exact H2|]. split; [|split; cbn; auto]. unfold linear. cbn. repeat constructor; intros [].
Qed.

(** ** C77: Encode and the caller's memory *)
Theorem C77_encode_effect : forall t newcap (h : heap N) d h' f, valid h d -> (s_len d + 1 <= newcap)%nat ->
  encode_mem t newcap h d = (h', f) ->
  contents h' f = encode t (contents h d) /\
  forall u, valid h u ->
    (contents h' u = contents h u <->
     forall delim, (t = TZeroEnded /\ delim = NUL) \/ (t = TLFEnded /\ delim = LF) -> (s_len d < s_cap d)%nat ->
       forall i, (i < s_len u)%nat -> s_arr u = s_arr d -> (s_off u + i = s_off d + s_len d)%nat -> nth_error (contents h u) i = Some delim).
Proof.
  intros t newcap h d h' f Hv Hn E.
  assert (Happ : forall x, go_append 0%N newcap h d [x] = (h', f) -> contents h' f = contents h d ++ [x] /\
     forall u, valid h u -> (contents h' u = contents h u <->
       ((s_len d < s_cap d)%nat -> forall i, (i < s_len u)%nat -> s_arr u = s_arr d -> (s_off u + i = s_off d + s_len d)%nat -> nth_error (contents h u) i = Some x))).
  { intros x Ex. destruct (append_result 0%N newcap h d [x] h' f Hv ltac:(cbn; lia) Ex) as (Hc & _). split; [exact Hc|]. intros u Hu.
    rewrite (append_effect 0%N newcap h d [x] h' f Hv Ex u Hu). cbn [length]. split.
    - intros H Hlt i Hi Ha Ho. apply (H ltac:(lia) i 0%nat x Hi eq_refl). unfold cell. rewrite Ha, Ho. f_equal. lia.
    - intros H Hlt i j y Hi Hj Hcell. destruct j as [|[|j]]; try discriminate. cbn in Hj. injection Hj as <-. injection Hcell as Ha Ho. apply (H ltac:(lia) i Hi Ha). lia. }
  destruct t; cbn [encode_mem encode] in *.
  - destruct (Happ _ E) as [Hc He]. split; [exact Hc|]. intros u Hu. rewrite (He u Hu). split.
    + intros H delim [[_ ->]|[Hx _]]; [exact H|discriminate].
    + intros H. apply H. left. auto.
  - destruct (Happ _ E) as [Hc He]. split; [exact Hc|]. intros u Hu. rewrite (He u Hu). split.
    + intros H delim [[Hx _]|[_ ->]]; [discriminate|exact H].
    + intros H. apply H. right. auto.
  - unfold go_new in E. injection E as <- <-. rewrite (contents_length h d Hv). split.
    + unfold contents at 1. cbn [s_len s_off s_arr]. rewrite array_app_new. cbn [skipn]. apply firstn_all.
    + intros u Hu. split; [intros _ delim [[Hx _]|[Hx _]]; discriminate|]. intros _.
      destruct Hu as [Hu1 [Hu2|[Hu2 _]]]; [unfold contents; replace (s_len u) with 0%nat by lia; reflexivity|]. unfold contents. rewrite array_app_old by exact Hu2. reflexivity.
Qed.
Print Assumptions C77_encode_effect.

(** so: never with RFC 5425, never the argument itself, and never if the argument has no spare capacity *)
Theorem C77_encode_harmless : forall t newcap (h : heap N) d h' f u, valid h d -> (s_len d + 1 <= newcap)%nat -> valid h u ->
  encode_mem t newcap h d = (h', f) -> t = TRFC5425 \/ u = d \/ s_len d = s_cap d -> contents h' u = contents h u.
Proof.
  intros t newcap h d h' f u Hd Hn Hu E Hc. destruct (C77_encode_effect t newcap h d h' f Hd Hn E) as [_ He]. apply (He u Hu).
  intros delim Ht Hlt i Hi Ha Ho. destruct Hc as [->|[->|Hc]]; [destruct Ht as [[? _]|[? _]]; discriminate|lia|lia].
Qed.
Print Assumptions C77_encode_harmless.

(** a caller that encodes the first half of its buffer sees the second half change *)
Theorem C77_clobber_refuted : let h := [bs "abcdef"] in
  let first := {| s_arr := 0; s_off := 0; s_len := 3; s_cap := 6 |} in
  let second := {| s_arr := 0; s_off := 3; s_len := 3; s_cap := 3 |} in
  valid h first /\ valid h second /\ contents h second = bs "def" /\
  contents (fst (encode_mem TLFEnded 8 h first)) second = LF :: bs "ef".
Proof. cbv zeta. repeat split; cbn; try lia; right; split; cbn; lia. Qed.
Print Assumptions C77_clobber_refuted.
