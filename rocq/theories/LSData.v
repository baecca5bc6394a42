(** LSData.v -- proofs about structured data. *)
From Verif Require Import Base BaseFacts Spec MText MSData LPriority.
From Coq Require Import ZifyBool ZifyNat ZifyN Permutation Sorted.

Ltac cons_inj H E1 E2 :=
  pose proof (f_equal (@hd N 0%N) H) as E1; pose proof (f_equal (@tl N) H) as E2; cbn [hd tl] in E1, E2.

(** ** tokens *)
Lemma value_scan_ok v r : well_escaped v -> value_scan (v ++ QUO :: r) = Some (v, r).
Proof.
  intros H. induction H as [|c v H1 H2 H3 H IH|c v H IH]; cbn [app value_scan].
  - reflexivity.
  - apply N.eqb_neq in H1, H2, H3. rewrite H1, H2, H3, IH. reflexivity.
  - change (N.eqb BSL BSL) with true. cbv iota. rewrite IH. reflexivity.
Qed.

Lemma value_scan_inv n : forall d v r, (length d <= n)%nat -> value_scan d = Some (v, r) ->
  well_escaped v /\ d = v ++ QUO :: r.
Proof.
  induction n as [|n IH]; intros d v r Hl H.
  - destruct d; [discriminate|cbn in Hl; lia].
  - destruct d as [|c d]; [discriminate|]. cbn [value_scan] in H. cbn [length] in Hl.
    destruct (N.eqb_spec c BSL) as [->|Hc].
    + destruct d as [|x d]; [discriminate|]. cbn [length] in Hl.
      destruct (value_scan d) as [[v' r']|] eqn:E; [|discriminate]. inv H.
      destruct (IH d v' r ltac:(lia) E) as [Hw ->]. split; [constructor; exact Hw|reflexivity].
    + destruct (N.eqb_spec c RBR) as [->|Hr]; [discriminate|].
      destruct (N.eqb_spec c QUO) as [->|Hq]; [inv H; split; [constructor|reflexivity]|].
      destruct (value_scan d) as [[v' r']|] eqn:E; [|discriminate]. inv H.
      destruct (IH d v' r ltac:(lia) E) as [Hw ->]. split; [constructor; assumption|reflexivity].
Qed.

Lemma next_sd_value_iff d v r : next_sd_value d = Some (v, r) <-> well_escaped v /\ d = QUO :: v ++ QUO :: r.
Proof.
  split.
  - unfold next_sd_value. destruct d as [|q d]; [discriminate|].
    destruct (Nat.ltb_spec (length (q :: d)) 2); [discriminate|].
    destruct (N.eqb_spec q QUO) as [->|Hq]; cbn [negb]; [|discriminate].
    intros H'. destruct (value_scan_inv (length d) d v r (Nat.le_refl _) H') as [Hw ->]. auto.
  - intros [Hw ->]. unfold next_sd_value.
    destruct (Nat.ltb_spec (length (QUO :: v ++ QUO :: r)) 2) as [H|_].
    { cbn [length] in H. rewrite app_length in H. cbn [length] in H. lia. }
    change (negb (N.eqb QUO QUO)) with false. cbv iota. apply value_scan_ok; exact Hw.
Qed.

Lemma sd_name_cons c n : sd_name (c :: n) <-> sd_name_byte c /\ sd_name n.
Proof.
  unfold sd_name. split.
  - intros H. split; [apply H; left; reflexivity|]. intros x Hx. apply H. right; exact Hx.
  - intros [H1 H2] x [<-|Hx]; auto.
Qed.
Lemma sd_name_nil : sd_name [].
Proof. intros c []. Qed.

Lemma name_scan_iff d n r : name_scan d = Some (n, r) <-> sd_name n /\ d = n ++ EQS :: r.
Proof.
  revert n r. induction d as [|c d IH]; intros n r; cbn [name_scan].
  - split; [discriminate|]. intros [_ H]. destruct n; discriminate.
  - destruct ((c <=? SP)%N || N.eqb c DEL || N.eqb c RBR || N.eqb c QUO) eqn:E.
    + split; [discriminate|]. intros [Hn H]. destruct n as [|x n]; cbn in H.
      * assert (c = _) by (injection H; intros; eassumption). subst c. discriminate.
      * assert (c = x) by congruence. subst x. apply sd_name_cons in Hn as [(H1 & H2 & H3 & H4 & H5) _]. lia.
    + destruct (N.eqb_spec c EQS) as [->|Hc].
      * split.
        -- intros H. inv H. split; [exact sd_name_nil|reflexivity].
        -- intros [Hn H]. destruct n as [|x n]; cbn in H; cons_inj H E1 E2; [subst; reflexivity|].
           apply sd_name_cons in Hn as [(_ & _ & _ & _ & H5) _]. congruence.
      * split.
        -- destruct (name_scan d) as [[h r']|] eqn:Ed; [|discriminate]. intros H. inv H.
           destruct (proj1 (IH h r) eq_refl) as [Hh ->]. split; [|reflexivity].
           apply sd_name_cons. split; [|exact Hh]. unfold sd_name_byte. lia.
        -- intros [Hn H]. destruct n as [|x n]; cbn in H; cons_inj H E1 E2; [congruence|]. subst x.
           apply sd_name_cons in Hn as [_ Hn]. rewrite (proj2 (IH n r) (conj Hn E2)). reflexivity.
Qed.

Lemma next_sd_name_iff d n r : next_sd_name d = Some (n, r) <-> sd_name n /\ d = n ++ EQS :: r /\ (4 <= length d)%nat.
Proof.
  unfold next_sd_name. destruct (Nat.ltb_spec (length d) 4) as [H|H].
  - split; [discriminate|]. intros (_ & _ & H'). lia.
  - rewrite name_scan_iff. split; [intros [A B]; auto|intros (A & B & _); auto].
Qed.

Lemma header_scan_iff d n r : header_scan d = Some (n, r) <-> sd_name n /\ d = n ++ r /\ exists r', r = SP :: r'.
Proof.
  revert n r. induction d as [|c d IH]; intros n r; cbn [header_scan].
  - split; [discriminate|]. intros (_ & H & r' & ->). destruct n; discriminate.
  - destruct ((c <? SP)%N || N.eqb c EQS || N.eqb c DEL || N.eqb c RBR || N.eqb c QUO) eqn:E.
    + split; [discriminate|]. intros (Hn & H & r' & ->). destruct n as [|x n]; cbn in H.
      * assert (c = _) by (injection H; intros; eassumption). subst c. discriminate.
      * assert (c = x) by congruence. subst x. apply sd_name_cons in Hn as [(H1 & H2 & H3 & H4 & H5) _]. lia.
    + destruct (N.eqb_spec c SP) as [->|Hc].
      * split.
        -- intros H. inv H. split; [exact sd_name_nil|]. split; [reflexivity|]. eexists; reflexivity.
        -- intros (Hn & H & r' & ->). destruct n as [|x n]; cbn in H; cons_inj H E1 E2; [subst; reflexivity|].
           apply sd_name_cons in Hn as [(H1 & _) _]. lia.
      * split.
        -- destruct (header_scan d) as [[h r']|] eqn:Ed; [|discriminate]. intros H. inv H.
           destruct (proj1 (IH h r) eq_refl) as (Hh & -> & Hr). split; [|split; [reflexivity|exact Hr]].
           apply sd_name_cons. split; [|exact Hh]. unfold sd_name_byte. lia.
        -- intros (Hn & H & Hr). destruct n as [|x n]; cbn in H.
           { destruct Hr as [r' ->]. cons_inj H E1 E2. congruence. }
           cons_inj H E1 E2. subst x.
           apply sd_name_cons in Hn as [_ Hn]. rewrite (proj2 (IH n r) (conj Hn (conj E2 Hr))). reflexivity.
Qed.

Lemma next_header_iff d n r : next_header d = Some (n, r) <->
  n <> [] /\ sd_name n /\ d = n ++ r /\ (exists r', r = SP :: r') /\ (4 <= length d)%nat.
Proof.
  unfold next_header. destruct (Nat.ltb_spec (length d) 4) as [H|H].
  - split; [discriminate|]. intros (_ & _ & _ & _ & H'). lia.
  - destruct (header_scan d) as [[h r']|] eqn:E.
    + pose proof (proj1 (header_scan_iff d h r') E) as (A & B & C).
      destruct h as [|x h].
      * split; [discriminate|]. intros (Hn & Hs & Hd & Hr & _).
        pose proof (proj2 (header_scan_iff d n r) (conj Hs (conj Hd Hr))) as E2. rewrite E in E2. inv E2. congruence.
      * split.
        -- intros H1. inv H1. split; [discriminate|]. split; [exact A|]. split; [reflexivity|]. split; [exact C|exact H].
        -- intros (_ & Hs & Hd & Hr & _). pose proof (proj2 (header_scan_iff d n r) (conj Hs (conj Hd Hr))) as E2. congruence.
    + split; [discriminate|]. intros (_ & Hs & Hd & Hr & _).
      pose proof (proj2 (header_scan_iff d n r) (conj Hs (conj Hd Hr))) as E2. congruence.
Qed.

Lemma skip_spaces_iff d r : skip_spaces d = Some r <->
  exists n, d = repeat SP n ++ r /\ (exists c r', r = c :: r' /\ c <> SP).
Proof.
  induction d as [|c d IH]; cbn [skip_spaces].
  - split; [discriminate|]. intros (n & H & c & r' & -> & _). destruct n; discriminate.
  - destruct (N.eqb_spec c SP) as [->|Hc].
    + rewrite IH. split.
      * intros (n & -> & H). exists (S n). split; [reflexivity|exact H].
      * intros ([|n] & H & H2); cbn in H.
        -- destruct H2 as (c & r' & -> & Hc). congruence.
        -- exists n. injection H as H. auto.
    + split.
      * intros H. inv H. exists 0%nat. split; [reflexivity|]. eauto.
      * intros ([|n] & H & H2); cbn in H; congruence.
Qed.

Lemma next_non_space_iff d r : next_non_space d = Some r <->
  exists n, (1 <= n)%nat /\ d = repeat SP n ++ r /\ (exists c r', r = c :: r' /\ c <> SP).
Proof.
  unfold next_non_space. destruct d as [|c d].
  - split; [discriminate|]. intros (n & Hn & H & _). destruct n; [lia|discriminate].
  - destruct (N.eqb_spec c SP) as [->|Hc].
    + rewrite skip_spaces_iff. split.
      * intros ([|n] & H & c & r' & Hr & Hc).
        -- cbn in H. congruence.
        -- exists (S n). repeat split; eauto; lia.
      * intros (n & Hn & H & H2). exists n. auto.
    + split; [discriminate|]. intros (n & Hn & H & _). destruct n; [lia|]. cbn in H. congruence.
Qed.

(** ** parameters *)

Lemma param_text_eq n k v : param_text (n, k, v) = repeat SP n ++ k ++ EQS :: QUO :: v ++ [QUO].
Proof. reflexivity. Qed.

Lemma next_param_inv d k v r : next_param d = Some (k, v, r) ->
  exists n, (1 <= n)%nat /\ d = param_text (n, k, v) ++ r /\ param_ok (k, v) /\ (4 <= length (k ++ v ++ r) + 3)%nat.
Proof.
  unfold next_param. destruct (next_non_space d) as [d1|] eqn:E1; [|discriminate].
  destruct (next_sd_name d1) as [[n1 s1]|] eqn:E2; [|discriminate].
  destruct (next_sd_value s1) as [[v1 s2]|] eqn:E3; [|discriminate]. intros H. inv H.
  apply next_non_space_iff in E1 as (n & Hn & -> & _). apply next_sd_name_iff in E2 as (Hk & -> & Hl).
  apply next_sd_value_iff in E3 as (Hv & ->). exists n. split; [exact Hn|].
  split; [rewrite param_text_eq, <- !app_assoc; cbn; rewrite <- !app_assoc; reflexivity|].
  split; [split; assumption|]. rewrite !app_length in *. cbn [length] in Hl. rewrite app_length in Hl. cbn [length] in Hl. lia.
Qed.

Lemma next_param_ok n k v r : (1 <= n)%nat -> param_ok (k, v) -> (1 <= length (k ++ v ++ r))%nat ->
  next_param (param_text (n, k, v) ++ r) = Some (k, v, r).
Proof.
  intros Hn [Hk Hv] Hl. cbn [fst snd] in *. unfold next_param. rewrite param_text_eq, <- !app_assoc. cbn [app].
  rewrite <- app_assoc. cbn [app].
  rewrite (proj2 (next_non_space_iff _ (k ++ EQS :: QUO :: v ++ QUO :: r))).
  - rewrite (proj2 (next_sd_name_iff _ k (QUO :: v ++ QUO :: r))).
    + rewrite (proj2 (next_sd_value_iff _ v r)); [reflexivity|]. split; [exact Hv|reflexivity].
    + split; [exact Hk|]. split; [reflexivity|]. rewrite !app_length in *. cbn [length]. rewrite app_length. cbn [length]. lia.
  - exists n. split; [exact Hn|]. split; [reflexivity|]. destruct k as [|c k].
    + eexists; eexists; split; [reflexivity|]. discriminate.
    + eexists; eexists; split; [reflexivity|]. specialize (Hk c (or_introl eq_refl)). destruct Hk as [Hk _]. lia.
Qed.

Definition text_of (l : list (nat * bytes * bytes)) : bytes := concat (map param_text l).
Definition strip (l : list (nat * bytes * bytes)) : list (bytes * bytes) := map (fun p => (snd (fst p), snd p)) l.

Lemma param_text_length n k v : length (param_text (n, k, v)) = (n + length k + length v + 3)%nat.
Proof. rewrite param_text_eq, !app_length. cbn [length]. rewrite repeat_length, app_length. cbn [length]. lia. Qed.

Lemma params_loop_ok l : forall fuel, Forall (fun p => (1 <= fst (fst p))%nat) l -> Forall param_ok (strip l) ->
  last_ok (strip l) -> (length (text_of l) <= fuel)%nat -> params_loop fuel (text_of l) = Val (Some (strip l)).
Proof.
  induction l as [|[[n k] v] l IH]; intros fuel H1 H2 H3 Hf; [destruct fuel; reflexivity|].
  inv H1. inv H2. cbn [fst snd strip map] in *.
  unfold text_of in *. cbn [map concat] in *. rewrite app_length, param_text_length in Hf.
  destruct fuel as [|fuel]; [lia|].
  assert (Hne : param_text (n, k, v) ++ concat (map param_text l) <> []).
  { intros E. apply (f_equal (@length N)) in E. rewrite app_length, param_text_length in E. cbn in E. lia. }
  cbn [params_loop]. destruct (param_text (n, k, v) ++ concat (map param_text l)) eqn:E; [congruence|]. rewrite <- E. clear E Hne.
  rewrite next_param_ok; auto.
  - rewrite IH; [reflexivity| | | |lia]; auto.
    intros Hne. unfold last_ok in H3. cbn [last] in H3. fold (strip l) in *. destruct (strip l) eqn:E; [congruence|]. apply H3. discriminate.
  - destruct l as [|[[n2 k2] v2] l].
    + cbn. rewrite app_nil_r. unfold last_ok in H3. cbn in H3.
      destruct k; [|cbn; lia]. destruct v; [|cbn; lia]. exfalso. apply H3; [discriminate|reflexivity].
    + cbn [map concat]. rewrite !app_length, param_text_length. lia.
Qed.

Lemma params_loop_inv fuel : forall d ps, params_loop fuel d = Val (Some ps) ->
  exists l, d = text_of l /\ strip l = ps /\ Forall (fun p => (1 <= fst (fst p))%nat) l /\ Forall param_ok ps /\ last_ok ps.
Proof.
  assert (Hnil : exists l, [] = text_of l /\ strip l = [] /\ Forall (fun p => (1 <= fst (fst p))%nat) l /\ Forall param_ok [] /\ last_ok []).
  { exists []. repeat split; try constructor. intros E; congruence. }
  induction fuel as [|fuel IH]; intros d ps H.
  - destruct d; [|discriminate]. cbn in H. inv H. exact Hnil.
  - destruct d as [|c d']; [cbn in H; inv H; exact Hnil|].
    cbn [params_loop] in H.
    destruct (next_param (c :: d')) as [[[k v] r]|] eqn:En; [|discriminate].
    destruct (params_loop fuel r) as [[ps'|]| |] eqn:El; cbn [bind option_map] in H; try discriminate. inv H.
    apply next_param_inv in En as (n & Hn & He & Hok & Hlen).
    destruct (IH r ps' El) as (l & -> & <- & Hl1 & Hl2 & Hl3).
    exists ((n, k, v) :: l). split; [exact He|]. split; [reflexivity|].
    split; [constructor; assumption|]. split; [constructor; assumption|].
    intros _. cbn [last]. destruct (strip l) eqn:Es.
    + intros E. inv E. destruct l; [|discriminate]. cbn in Hlen. lia.
    + apply Hl3. discriminate.
Qed.

Lemma params_loop_total fuel : forall d, (length d <= fuel)%nat -> exists o, params_loop fuel d = Val o.
Proof.
  induction fuel as [|fuel IH]; intros d Hd.
  - destruct d; [|cbn in Hd; lia]. eexists; reflexivity.
  - destruct d as [|c d]; [eexists; reflexivity|]. cbn [params_loop].
    destruct (next_param (c :: d)) as [[[k v] r]|] eqn:En; [|eexists; reflexivity].
    apply next_param_inv in En as (n & Hn & He & _ & _).
    destruct (IH r) as [o Ho].
    { apply (f_equal (@length N)) in He. rewrite app_length, param_text_length in He. lia. }
    rewrite Ho. eexists; reflexivity.
Qed.

(** ** elements *)
Lemma bracketed_cases d : d <> [] ->
  (exists inner, d = LBR :: inner ++ [RBR] /\ bracketed d = Val (Some inner)) \/
  ((forall inner, d <> LBR :: inner ++ [RBR]) /\ bracketed d = Val None).
Proof.
  intros Hne. destruct d as [|c d]; [congruence|]. unfold bracketed.
  change (go_at (c :: d) 0) with (Val c). cbn [bind].
  destruct (N.eqb_spec c LBR) as [->|Hc]; cbn [negb].
  2: { right. split; [intros inner E; inv E; congruence|reflexivity]. }
  destruct d as [|x d].
  { right. split; [intros inner E; injection E; destruct inner; discriminate|reflexivity]. }
  destruct (exists_last (l := x :: d)) as (inner & y & E); [discriminate|]. rewrite E.
  replace (length (LBR :: inner ++ [y]) - 1)%nat with (length (LBR :: inner)) by (cbn; rewrite app_length; cbn; lia).
  change (LBR :: inner ++ [y]) with ((LBR :: inner) ++ y :: []). rewrite go_at_app. cbn [bind].
  destruct (N.eqb_spec y RBR) as [->|Hy]; cbn [negb].
  - left. exists inner. split; [reflexivity|].
    change ((LBR :: inner) ++ [RBR]) with ([LBR] ++ inner ++ [RBR]).
    change (length (LBR :: inner)) with (length [LBR] + length inner)%nat. change 1%nat with (length [LBR]) at 1.
    rewrite go_slice_app. reflexivity.
  - right. split; [|reflexivity]. intros inner' E'. cbn in E'. injection E' as E'. apply app_inj_tail in E' as [_ E']. congruence.
Qed.

Lemma bracketed_ok inner : bracketed (LBR :: inner ++ [RBR]) = Val (Some inner).
Proof.
  destruct (bracketed_cases (LBR :: inner ++ [RBR])) as [(i & E & H)|(H & _)]; [discriminate| |exfalso; exact (H inner eq_refl)].
  injection E as E. apply app_inj_tail in E as [-> _]. exact H.
Qed.

Definition unknown_shape (name : bytes) (l : list (nat * bytes * bytes)) : Prop :=
  name <> [] /\ sd_name name /\ l <> [] /\ Forall (fun p => (1 <= fst (fst p))%nat) l /\
  Forall param_ok (strip l) /\ last_ok (strip l).

Lemma unknown_found_inv d name ps : unknown_found d = Val (Some (SDUnknown name ps)) ->
  exists l, d = LBR :: name ++ text_of l ++ [RBR] /\ strip l = ps /\ unknown_shape name l.
Proof.
  intros H. destruct d as [|c d]; [discriminate|].
  destruct (bracketed_cases (c :: d)) as [(inner & E & Hb)|(_ & Hb)]; [discriminate| |unfold unknown_found in H; rewrite Hb in H; discriminate].
  unfold unknown_found in H. rewrite Hb in H. cbn [bind] in H.
  destruct (next_header inner) as [[h r]|] eqn:Eh; [|discriminate].
  destruct (params_loop (length r) r) as [[ps'|]| |] eqn:Ep; cbn [bind option_map] in H; try discriminate. inv H.
  apply next_header_iff in Eh as (Hn & Hs & -> & (r' & Hr) & _).
  apply params_loop_inv in Ep as (l & El & Hst & H1 & H2 & H3).
  exists l. rewrite E, El, <- app_assoc. split; [reflexivity|]. split; [exact Hst|].
  unfold unknown_shape. rewrite Hst. split; [exact Hn|]. split; [exact Hs|]. split; [|auto]. intros ->. rewrite Hr in El. discriminate.
Qed.

Lemma unknown_found_ok name l : unknown_shape name l ->
  unknown_found (LBR :: name ++ text_of l ++ [RBR]) = Val (Some (SDUnknown name (strip l))).
Proof.
  intros (Hn & Hs & Hl & H1 & H2 & H3). unfold unknown_found. rewrite app_assoc, bracketed_ok. cbn [bind].
  assert (Hh : next_header (name ++ text_of l) = Some (name, text_of l)).
  { apply next_header_iff. split; [exact Hn|]. split; [exact Hs|]. split; [reflexivity|].
    destruct l as [|[[n k] v] l]; [congruence|]. inv H1. cbn [fst] in *. split.
    - unfold text_of. cbn [map concat]. rewrite param_text_eq. destruct n; [lia|]. eexists; reflexivity.
    - unfold text_of. cbn [map concat]. rewrite !app_length, param_text_length. destruct name; [congruence|cbn; lia]. }
  rewrite Hh. rewrite params_loop_ok by auto. reflexivity.
Qed.

Lemma unknown_found_total d : d <> [] -> exists o, unknown_found d = Val o /\
  forall s, o = Some s -> exists name ps, s = SDUnknown name ps.
Proof.
  intros Hne. unfold unknown_found.
  destruct (bracketed_cases d Hne) as [(inner & _ & ->)|(_ & ->)]; cbn [bind]; [|eexists; split; [reflexivity|discriminate]].
  destruct (next_header inner) as [[h r]|]; [|eexists; split; [reflexivity|discriminate]].
  destruct (params_loop_total (length r) r (Nat.le_refl _)) as [o ->]. cbn [bind]. eexists; split; [reflexivity|].
  intros s H. destruct o; [|discriminate]. inv H. eauto.
Qed.

Lemma params_bytes_text ps : params_bytes ps = text_of (map (fun p => (1%nat, fst p, snd p)) ps).
Proof.
  induction ps as [|[k v] ps IH]; [reflexivity|]. cbn [params_bytes map]. unfold text_of in *. cbn [map concat fst snd].
  rewrite param_text_eq, <- IH. change (bs " ") with [SP]. rewrite <- !app_assoc. cbn [repeat app]. rewrite <- !app_assoc. reflexivity.
Qed.

Lemma strip_ones ps : strip (map (fun p => (1%nat, fst p, snd p)) ps) = ps.
Proof. unfold strip. rewrite map_map. rewrite <- (map_id ps) at 2. apply map_ext. intros [k v]; reflexivity. Qed.


Lemma unknown_marshal_eq name ps :
  unknown_marshal name ps = LBR :: name ++ text_of (map (fun p => (1%nat, fst p, snd p)) ps) ++ [RBR].
Proof. unfold unknown_marshal. rewrite params_bytes_text. reflexivity. Qed.

Lemma unknown_roundtrip name ps : unknown_ok name ps ->
  unknown_found (unknown_marshal name ps) = Val (Some (SDUnknown name ps)).
Proof.
  intros (Hn & Hs & Hl & H2 & H3). rewrite unknown_marshal_eq, unknown_found_ok, strip_ones; [reflexivity|].
  unfold unknown_shape. rewrite strip_ones. split; [exact Hn|]. split; [exact Hs|]. split; [|split; [|auto]].
  - destruct ps; [congruence|discriminate].
  - apply Forall_forall. intros p Hp. apply in_map_iff in Hp as (q & <- & _). cbn. lia.
Qed.

Lemma unknown_found_ok_shape d name ps : unknown_found d = Val (Some (SDUnknown name ps)) -> unknown_ok name ps.
Proof.
  intros H. apply unknown_found_inv in H as (l & _ & <- & (Hn & Hs & Hl & _ & H2 & H3)).
  split; [exact Hn|]. split; [exact Hs|]. split; [|auto]. destruct l; [congruence|discriminate].
Qed.

(** ** escaping *)
Lemma escape_eq v : escape v = escaped v.
Proof. induction v as [|c v IH]; [reflexivity|]. cbn [escape escaped flat_map]. fold (escaped v). rewrite IH. destruct (_ || _); reflexivity. Qed.
Lemma escape_well v : well_escaped (escape v).
Proof.
  induction v as [|c v IH]; cbn [escape]; [constructor|].
  destruct (N.eqb_spec c QUO); [constructor; exact IH|]. destruct (N.eqb_spec c BSL); [constructor; exact IH|].
  destruct (N.eqb_spec c RBR); [constructor; exact IH|]. cbn [orb]. constructor; auto.
Qed.

Lemma unescape_escape v : unescape (escape v) = v.
Proof.
  induction v as [|c v IH]; [reflexivity|]. cbn [escape].
  destruct (N.eqb_spec c QUO); [cbn; rewrite IH; reflexivity|]. destruct (N.eqb_spec c BSL) as [|Hb]; [cbn; rewrite IH; reflexivity|].
  destruct (N.eqb_spec c RBR); [cbn; rewrite IH; reflexivity|]. cbn [orb unescape].
  apply N.eqb_neq in Hb. rewrite Hb, IH. reflexivity.
Qed.
