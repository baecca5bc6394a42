(** PropSData3.v -- structured data decoders and registry (C68, C69), struct tags (C72). *)
From Verif Require Import Base BaseFacts Spec MText MSData MMessage MTransport MParse LText LAtoi LSData LParse LRound PropMessage PropParse PropSData PropSData2.
From Coq Require Import Permutation.

(** ** C68: when decoding structured data panics *)

(** the time quality decoder looks at 11 bytes after the '[' without checking they exist *)
Theorem C68_timequality_panics_iff : forall d spare,
  sdid_found IdTimeQuality d spare = Panic <->
  d = [] \/ exists inner, d = bs "[" ++ inner ++ bs "]" /\ (length inner + 1 + length spare < 11)%nat.
Proof.
  intros d spare. cbn [sdid_found]. destruct d as [|c d]; [split; [auto|reflexivity]|]. unfold tq_found.
  destruct (bracketed_cases (c :: d)) as [(inner & E & Hb)|(Hn & Hb)]; [discriminate| |].
  2: { rewrite Hb. cbn [bind]. split; [discriminate|]. intros [H|(inner & H & _)]; [discriminate|]. destruct (Hn inner H). }
  rewrite Hb. cbn [bind]. unfold go_slice_cap. change (0 <=? 11)%nat with true. cbn [andb].
  destruct (Nat.leb_spec 11 (length inner + length (RBR :: spare))) as [Hle|Hgt]; cbn [length] in *.
  - split.
    + cbn [bind]. destruct (bytes_eqb _ (bs "timeQuality")) eqn:Eh; cbn [negb]; [|discriminate].
      assert (Hl : (11 <= length inner)%nat).
      { destruct (Nat.le_gt_cases 11 (length inner)) as [Hl|Hl]; [exact Hl|]. exfalso. apply bytes_eqb_eq in Eh. change (11 - 0)%nat with 11%nat in Eh. cbn [skipn] in Eh.
        assert (Hr : In RBR (bs "timeQuality")).
        { rewrite <- Eh. rewrite firstn_app. apply in_or_app. right. replace (11 - length inner)%nat with (S (10 - length inner)) by lia. left. reflexivity. }
        cbn in Hr. repeat (destruct Hr as [Hr|Hr]; [discriminate|]). destruct Hr. }
      rewrite go_from_val by exact Hl. cbn [bind]. destruct (skipn 11 inner) as [|x data]; [discriminate|].
      destruct (tq_loop_total (length (x :: data)) tq_zero (x :: data) (Nat.le_refl _)) as [o Ho]. rewrite Ho. cbn [bind].
      destruct o as [t|]; [destruct (tq_is_valid t)|]; discriminate.
    + intros [H|(inner' & H & Hl)]; [discriminate|]. exfalso. cbn [bs app] in H. change (N_of_ascii "[") with LBR in H. change (N_of_ascii "]") with RBR in H. rewrite H in E. injection E as E. apply app_inj_tail in E as [-> _]. lia.
  - split; [|reflexivity]. intros _. right. exists inner. split; [exact E|lia].
Qed.
Print Assumptions C68_timequality_panics_iff.

(** the generic decoder of identifier [id] does the same with the length of [id] *)
Theorem C68_generic_panics_iff : forall id d spare,
  sdid_found (IdGeneric id) d spare = Panic <->
  d = [] \/ exists inner, d = bs "[" ++ inner ++ bs "]" /\
     ((length inner + 1 + length spare < length id)%nat \/ exists k, id = inner ++ bs "]" ++ k /\ prefix_of k spare).
Proof.
  intros id d spare. cbn [sdid_found]. destruct d as [|c d]; [split; [auto|reflexivity]|]. unfold generic_found.
  destruct (bracketed_cases (c :: d)) as [(inner & E & Hb)|(Hn & Hb)]; [discriminate| |].
  2: { rewrite Hb. cbn [bind]. split; [discriminate|]. intros [H|(inner & H & _)]; [discriminate|]. destruct (Hn inner H). }
  rewrite Hb. cbn [bind]. unfold go_slice_cap. change (0 <=? length id)%nat with true. cbn [andb].
  destruct (Nat.leb_spec (length id) (length inner + length (RBR :: spare))) as [Hle|Hgt]; cbn [length] in *.
  2: { split; [|reflexivity]. intros _. right. exists inner. split; [exact E|]. left. lia. }
  cbn [bind]. rewrite Nat.sub_0_r. cbn [skipn].
  assert (Huniq : forall inner', c :: d = bs "[" ++ inner' ++ bs "]" -> inner' = inner).
  { intros inner' H. cbn [bs app] in H. change (N_of_ascii "[") with LBR in H. change (N_of_ascii "]") with RBR in H. rewrite H in E. injection E as E. apply app_inj_tail in E as [-> _]. reflexivity. }
  destruct (bytes_eqb (firstn (length id) (inner ++ RBR :: spare)) id) eqn:Eh; cbn [negb].
  2: { split; [discriminate|]. intros [H|(inner' & H & [Hl|(k & Hk & [r Hr])])]; [discriminate| |]; rewrite (Huniq _ H) in *; [lia|]. exfalso.
       assert (X : firstn (length id) (inner ++ RBR :: spare) = id).
       { rewrite Hr. replace (inner ++ RBR :: k ++ r) with (id ++ r) by (rewrite Hk, <- !app_assoc; reflexivity). apply firstn_app_exact. }
       rewrite (proj2 (bytes_eqb_eq _ _) X) in Eh. discriminate. }
  apply bytes_eqb_eq in Eh. unfold go_from. destruct (Nat.leb_spec (length id) (length inner)) as [Hl|Hl].
  - cbn [bind]. split; [destruct (skipn (length id) inner); discriminate|].
    intros [H|(inner' & H & [Hl'|(k & Hk & _)])]; [discriminate| |]; rewrite (Huniq _ H) in *; [lia|]. exfalso. rewrite Hk in Hl. rewrite !app_length in Hl. cbn in Hl. lia.
  - cbn [bind]. split; [|reflexivity]. intros _. right. exists inner. split; [exact E|]. right.
    exists (firstn (length id - length inner - 1) spare). split; [|exists (skipn (length id - length inner - 1) spare); symmetry; apply firstn_skipn].
    rewrite <- Eh at 1. rewrite firstn_app. rewrite firstn_all2 by lia. remember (length id - length inner - 1)%nat as n eqn:En. replace (length id - length inner)%nat with (S n) by lia. reflexivity.
Qed.
Print Assumptions C68_generic_panics_iff.

(** decoders never run out of the model's fuel *)
Lemma tq_no_fuel d spare : tq_found d spare <> NoFuel.
Proof.
  unfold tq_found. destruct d as [|c d]; [discriminate|]. destruct (bracketed_cases (c :: d)) as [(inner & _ & ->)|(_ & ->)]; [discriminate| |discriminate].
  cbn [bind]. unfold go_slice_cap. destruct (_ && _); [|discriminate]. cbn [bind]. destruct (negb _); [discriminate|]. unfold go_from. destruct (_ <=? _)%nat; [|discriminate].
  cbn [bind]. destruct (skipn 11 inner) as [|x data]; [discriminate|]. destruct (tq_loop_total (length (x :: data)) tq_zero (x :: data) (Nat.le_refl _)) as [o ->]. cbn [bind].
  destruct o as [t|]; [destruct (tq_is_valid t)|]; discriminate.
Qed.
Lemma generic_no_fuel id d spare : generic_found id d spare <> NoFuel.
Proof.
  unfold generic_found. destruct d as [|c d]; [discriminate|]. destruct (bracketed_cases (c :: d)) as [(inner & _ & ->)|(_ & ->)]; [discriminate| |discriminate].
  cbn [bind]. unfold go_slice_cap. destruct (_ && _); [|discriminate]. cbn [bind]. destruct (negb _); [discriminate|]. unfold go_from. destruct (_ <=? _)%nat; [|discriminate].
  cbn [bind]. destruct (skipn _ inner); discriminate.
Qed.

(** a lookup panics when a decoder panics before any accepts *)
Definition lookup_panics (order : list sdid) (el after : bytes) : Prop :=
  exists pre d post, order = pre ++ d :: post /\ Forall (fun x => sdid_found x el after = Val None) pre /\ sdid_found d el after = Panic.

Lemma registry_panics order el after : el <> [] -> (registry_found order el after = Panic <-> lookup_panics order el after) /\ registry_found order el after <> NoFuel.
Proof.
  intros Hne. induction order as [|s order [IH IHn]].
  - cbn [registry_found]. destruct (unknown_found_total el Hne) as (o & Ho & _). rewrite Ho. split; [|discriminate].
    split; [discriminate|]. intros ([|? ?] & ? & ? & H & _); discriminate.
  - cbn [registry_found]. destruct (sdid_found s el after) as [[sd|]| |] eqn:Es; cbn [bind].
    + split; [|discriminate]. split; [discriminate|]. intros ([|p pre] & d & post & H & Hf & Hd); cbn in H; [injection H as <- <-; congruence|injection H as <- _; inversion Hf; congruence].
    + split; [|exact IHn]. rewrite IH. split.
      * intros (pre & d & post & -> & Hf & Hd). exists (s :: pre), d, post. split; [reflexivity|]. split; [constructor; assumption|exact Hd].
      * intros ([|p pre] & d & post & H & Hf & Hd); cbn in H; [injection H as <- <-; congruence|injection H as <- ->; inversion Hf; subst; exists pre, d, post; auto].
    + split; [|discriminate]. split; [|reflexivity]. intros _. exists [], s, order. split; [reflexivity|]. split; [constructor|exact Es].
    + exfalso. destruct s; cbn [sdid_found] in Es; [exact (tq_no_fuel _ _ Es)|exact (generic_no_fuel _ _ _ Es)|destruct (found el); discriminate].
Qed.

Lemma sd_elements_panics order spare els : Forall (fun e => e <> []) els -> forall pre post,
  let r := sd_elements order (pre ++ concat els ++ post) spare (length pre) (el_ends (length pre) els) in
  (r = Panic <-> exists els1 el els2, els = els1 ++ el :: els2 /\
     lookup_panics (order (length (pre ++ concat els1))) el (concat els2 ++ post ++ spare)) /\ r <> NoFuel.
Proof.
  intros Hf. induction Hf as [|e els He Hf IH]; intros pre post; cbv zeta.
  { cbn. split; [|discriminate]. split; [discriminate|]. intros ([|? ?] & ? & ? & H & _); discriminate. }
  cbn [el_ends sd_elements concat].
  assert (Hsl : go_slice_cap (pre ++ (e ++ concat els) ++ post) spare (length pre) (length pre + length e) = Val e).
  { unfold go_slice_cap. destruct (Nat.leb_spec (length pre) (length pre + length e)); [|lia].
    destruct (Nat.leb_spec (length pre + length e) (length (pre ++ (e ++ concat els) ++ post) + length spare)) as [_|Hlt];
      [|rewrite !app_length in Hlt; lia].
    cbn [andb]. rewrite <- !app_assoc, skipn_app_exact. replace (length pre + length e - length pre)%nat with (length e) by lia.
    rewrite firstn_app_exact. reflexivity. }
  rewrite Hsl. cbn [bind].
  assert (Hsk : skipn (length pre + length e) ((pre ++ (e ++ concat els) ++ post) ++ spare) = concat els ++ post ++ spare).
  { replace ((pre ++ (e ++ concat els) ++ post) ++ spare) with ((pre ++ e) ++ concat els ++ post ++ spare) by (rewrite <- !app_assoc; reflexivity).
    rewrite <- app_length. apply skipn_app_exact. }
  rewrite Hsk. specialize (IH (pre ++ e) post). cbv zeta in IH. rewrite app_length in IH.
  replace ((pre ++ e) ++ concat els ++ post) with (pre ++ (e ++ concat els) ++ post) in IH by (rewrite <- !app_assoc; reflexivity).
  destruct IH as [IH IHn]. destruct (registry_panics (order (length pre)) e (concat els ++ post ++ spare) He) as [Hr Hrn].
  assert (Hhead : forall P : Prop, lookup_panics (order (length pre)) e (concat els ++ post ++ spare) \/ P <->
     (exists els1 el els2, e :: els = els1 ++ el :: els2 /\ lookup_panics (order (length (pre ++ concat els1))) el (concat els2 ++ post ++ spare) /\ els1 = []) \/ P).
  { intros P. split; (intros [H|H]; [left|right; exact H]).
    - exists [], e, els. cbn [concat]. rewrite app_nil_r. auto.
    - destruct H as (els1 & el & els2 & H & Hl & ->). cbn in H. injection H as <- <-. cbn [concat] in Hl. rewrite app_nil_r in Hl. exact Hl. }
  assert (Htail : (exists els1 el els2, els = els1 ++ el :: els2 /\ lookup_panics (order (length ((pre ++ e) ++ concat els1))) el (concat els2 ++ post ++ spare)) <->
     exists els1 el els2, e :: els = els1 ++ el :: els2 /\ lookup_panics (order (length (pre ++ concat els1))) el (concat els2 ++ post ++ spare) /\ els1 <> []).
  { split.
    - intros (els1 & el & els2 & -> & Hl). exists (e :: els1), el, els2. split; [reflexivity|]. split; [|discriminate]. cbn [concat]. rewrite app_assoc. exact Hl.
    - intros ([|x els1] & el & els2 & H & Hl & Hn); [congruence|]. cbn in H. injection H as <- ->. exists els1, el, els2. split; [reflexivity|]. cbn [concat] in Hl. rewrite app_assoc in Hl. exact Hl. }
  assert (Hall : (exists els1 el els2, e :: els = els1 ++ el :: els2 /\ lookup_panics (order (length (pre ++ concat els1))) el (concat els2 ++ post ++ spare)) <->
     lookup_panics (order (length pre)) e (concat els ++ post ++ spare) \/
     exists els1 el els2, els = els1 ++ el :: els2 /\ lookup_panics (order (length ((pre ++ e) ++ concat els1))) el (concat els2 ++ post ++ spare)).
  { rewrite Hhead, Htail. split.
    - intros (els1 & el & els2 & H & Hl). destruct els1; [left|right]; eauto 8. do 3 eexists. split; [exact H|]. split; [exact Hl|discriminate].
    - intros [H|H]; destruct H as (els1 & el & els2 & H & Hl & _); eauto. }
  rewrite Hall. destruct (registry_found (order (length pre)) e (concat els ++ post ++ spare)) as [o| |].
  - cbn [bind]. set (r := sd_elements _ _ _ _ _) in *. assert (Hnl : ~ lookup_panics (order (length pre)) e (concat els ++ post ++ spare)) by (intros H; apply Hr in H; discriminate).
    rewrite <- IH. destruct r as [l| |]; cbn [bind].
    + split; [|discriminate]. split; [intros H; discriminate H|]. intros [H|H]; [destruct (Hnl H)|discriminate H].
    + split; [|discriminate]. split; [intros _; right; reflexivity|reflexivity].
    + congruence.
  - cbn [bind]. split; [|discriminate]. split; [|reflexivity]. intros _. left. apply Hr. reflexivity.
  - congruence.
Qed.

(** what Parse records of a message that is cut in [ws], [els] and [tl] *)
Definition cut_index (ws els : list bytes) (tl : bytes) : list nat :=
  ends 0 ws ++ match els, tl with
               | [], [c] => if N.eqb c DASH then [(length (join ws) + 2)%nat] else []
               | [], c :: d :: _ => if N.eqb c DASH && N.eqb d SP then [(length (join ws) + 1)%nat] else []
               | _, _ => el_ends (length (join ws)) els
               end.

Lemma late_not_dash text : ~ late_space (DASH :: SP :: text).
Proof.
  intros (x & y & E & Hn & Hl). destruct x as [|a [|b x]]; cbn in Hl; try lia. cbn in E. injection E as _ <- _. apply Hn. right. left. reflexivity.
Qed.

Lemma scanned_accepted data ws els tl : scanned data ws els tl ->
  exists m, accepted data m /\ i_index m = cut_index ws els tl.
Proof.
  intros (Hl & Hw & Hd & Hf & [(-> & [->|(text & ->)])|(Hs & Hc)]).
  - exists (mk data (ends 0 ws ++ [(length (join ws) + 2)%nat]) (-1)). split; [|reflexivity].
    exists ws, [DASH]. split; [exact Hl|]. split; [exact Hw|]. split; [exact Hd|]. split; [reflexivity|]. left. split; [reflexivity|]. split; reflexivity.
  - exists (mk data (ends 0 ws ++ [(length (join ws) + 1)%nat]) (Z.of_nat (length (join ws)) + 2)). split; [|reflexivity].
    exists ws, (DASH :: SP :: text). split; [exact Hl|]. split; [exact Hw|]. split; [exact Hd|]. split; [reflexivity|]. right. left. exists text.
    split; [reflexivity|]. split; reflexivity.
  - assert (Hci : cut_index ws els tl = ends 0 ws ++ el_ends (length (join ws)) els).
    { unfold cut_index. f_equal. destruct els as [|e els]; [|destruct tl as [|? [|? ?]]; reflexivity]. cbn [concat app] in Hs.
      destruct tl as [|c [|d tl]]; [reflexivity| |].
      - destruct Hs as (x & y & E & _ & Hx). apply (f_equal (@length N)) in E. rewrite app_length in E. cbn in E. lia.
      - destruct (N.eqb_spec c DASH) as [->|]; [|reflexivity]. destruct (N.eqb_spec d SP) as [->|]; [|reflexivity]. destruct (late_not_dash _ Hs). }
    destruct Hc as [(-> & Hne)|(Hne & Ht)].
    + exists (mk data (ends 0 ws ++ el_ends (length (join ws)) els) (-1)). split; [|symmetry; exact Hci].
      exists ws, (concat els ++ []). split; [exact Hl|]. split; [exact Hw|]. split; [exact Hd|]. split; [reflexivity|]. right. right. exists els, [].
      split; [exact Hf|]. split; [reflexivity|]. split; [exact Hs|]. split; [reflexivity|]. left. split; [reflexivity|]. split; [exact Hne|reflexivity].
    + exists (mk data (ends 0 ws ++ el_ends (length (join ws)) els) (Z.of_nat (length (join ws) + length (concat els)) + 1)). split; [|symmetry; exact Hci].
      exists ws, (concat els ++ tl). split; [exact Hl|]. split; [exact Hw|]. split; [exact Hd|]. split; [reflexivity|]. right. right. exists els, tl.
      split; [exact Hf|]. split; [reflexivity|]. split; [exact Hs|]. split; [reflexivity|]. right. split; [exact Hne|]. split; [exact Ht|reflexivity].
Qed.

Lemma accepted_scanned data m : accepted data m -> exists ws els tl, scanned data ws els tl.
Proof.
  intros (ws & tail & Hl & Hw & Hd & Hb & [(-> & _)|[(text & -> & _)|(els & tl & Hf & -> & Hs & _ & Hc)]]).
  - exists ws, [], [DASH]. split; [exact Hl|]. split; [exact Hw|]. split; [exact Hd|]. split; [constructor|]. left. split; [reflexivity|]. left. reflexivity.
  - exists ws, [], (DASH :: SP :: text). split; [exact Hl|]. split; [exact Hw|]. split; [exact Hd|]. split; [constructor|]. left. split; [reflexivity|]. right. exists text. reflexivity.
  - exists ws, els, tl. split; [exact Hl|]. split; [exact Hw|]. split; [exact Hd|]. split; [exact Hf|]. right. split; [exact Hs|]. destruct Hc as [(H1 & H2 & _)|(H1 & H2 & _)]; [left|right]; auto.
Qed.

(** every accepted message is cut so, and what StructuredData() then does *)
Lemma scanned_sd data eof p ws els tl : parse data None eof = Val (p, None, None) -> scanned data ws els tl -> forall order spare,
  imm_structured_data order spare p =
    (if match els with [] => true | [c :: _] => N.eqb c DASH | _ => false end then Val []
     else sd_elements order (join ws ++ concat els ++ tl) spare (length (join ws)) (el_ends (length (join ws)) els)).
Proof.
  intros Hp Hc order spare. destruct (scanned_accepted _ _ _ _ Hc) as (m & Ha & Hi). apply (parse_iff _ _ eof) in Ha.
  rewrite Ha in Hp. injection Hp as <-. apply parse_iff in Ha. destruct Hc as (Hl & Hw & Hd & Hf & Hc).
  assert (Hb : i_buf m = data) by (destruct Ha as (? & ? & _ & _ & _ & Hb & _); exact Hb). clear Ha.
  destruct m as [buf idx text]. cbn [i_buf i_index] in *. subst buf idx.
  destruct Hc as [(-> & [->|(t & ->)])|(Hs & Hc)].
  - rewrite Hd. exact (structured_data_dash order spare ws [] _ _ Hl).
  - rewrite Hd. exact (structured_data_dash order spare ws (SP :: t) _ _ Hl).
  - assert (Hci : cut_index ws els tl = ends 0 ws ++ el_ends (length (join ws)) els).
    { unfold cut_index. f_equal. destruct els as [|e els]; [|destruct tl as [|? [|? ?]]; reflexivity]. cbn [concat app] in Hs.
      destruct tl as [|c [|d tl]]; [reflexivity| |].
      - destruct Hs as (x & y & E & _ & Hx). apply (f_equal (@length N)) in E. rewrite app_length in E. cbn in E. lia.
      - destruct (N.eqb_spec c DASH) as [->|]; [|reflexivity]. destruct (N.eqb_spec d SP) as [->|]; [|reflexivity]. destruct (late_not_dash _ Hs). }
    rewrite Hci.
    assert (Hhd : idx_at {| i_buf := data; i_index := ends 0 ws ++ el_ends (length (join ws)) els; i_text := text |} 5
       = Val (length (join ws) - 1)%nat /\ (1 <= length (join ws))%nat).
    { clear -Hl. do 6 (destruct ws as [|? ws]; [discriminate|]). destruct ws; [|discriminate].
      unfold idx_at. cbn [i_index ends app nth_error]. unfold join. cbn [map concat]. rewrite !app_length. cbn [length]. split; [f_equal|]; lia. }
    destruct Hhd as [Hi Hj].
    assert (Hel : length (el_ends (length (join ws)) els) = length els).
    { clear. generalize (length (join ws)) as b. induction els as [|e els IH]; intros b; cbn; [reflexivity|rewrite IH; reflexivity]. }
    unfold imm_structured_data. cbn [i_index i_buf].
    rewrite app_length, ends_length, Hl. destruct (Nat.ltb_spec (6 + length (el_ends (length (join ws)) els)) 5); [lia|].
    assert (Hs5 : length (skipn 5 (ends 0 ws ++ el_ends (length (join ws)) els)) = S (length els)).
    { rewrite skipn_length, app_length, ends_length, Hl, Hel. lia. }
    rewrite Hs5. destruct els as [|e els]; [reflexivity|]. cbn [length]. destruct (Nat.ltb_spec (S (S (length els))) 2) as [|Hge]; [lia|].
    rewrite Hi. cbn [bind]. replace (length (join ws) - 1 + 1)%nat with (length (join ws)) by lia.
    destruct e as [|c e]; [inversion Hf as [|? ? (b & Eb & _)]; destruct b; discriminate|].
    assert (Hg : go_at data (length (join ws)) = Val c) by (rewrite Hd; cbn [concat app]; apply go_at_app).
    rewrite Hg. cbn [bind].
    assert (Hsk : skipn 6 (ends 0 ws ++ el_ends (length (join ws)) ((c :: e) :: els)) = el_ends (length (join ws)) ((c :: e) :: els)).
    { rewrite <- Hl at 1. rewrite <- (ends_length 0 ws) at 1. apply skipn_app_exact. }
    rewrite Hsk. rewrite <- Hd. destruct els as [|e2 els]; cbn [length Nat.eqb bind]; [destruct (N.eqb c DASH)|]; reflexivity.
Qed.

(** A message is accepted exactly when it can be cut. *)
Lemma scanned_iff data eof : (exists p, parse data None eof = Val (p, None, None)) <-> exists ws els tl, scanned data ws els tl.
Proof.
  split.
  - intros (p & H). apply parse_iff in H. exact (accepted_scanned _ _ H).
  - intros (ws & els & tl & H). destruct (scanned_accepted _ _ _ _ H) as (m & Ha & _). exists m. apply parse_iff. exact Ha.
Qed.

(** the only element of a message starting with a dash is taken for the absence of elements *)
Definition lone_dash (els : list bytes) : Prop := exists e, els = [bs "-" ++ e].

(** StructuredData() of a successfully parsed message returns, or panics because the lookup of one
    of its elements does; [order b] is the order in which the decoders are tried on the element that
    starts at offset [b], [spare] what lies between the length and the capacity of the buffer *)
Theorem C68_structured_data_panics_iff : forall data eof p ws els tl order spare,
  parse data None eof = Val (p, None, None) -> scanned data ws els tl ->
  (imm_structured_data order spare p = Panic <->
     ~ lone_dash els /\
     exists els1 el els2, els = els1 ++ el :: els2 /\ lookup_panics (order (length (join ws ++ concat els1))) el (concat els2 ++ tl ++ spare)) /\
  (imm_structured_data order spare p <> Panic -> exists l, imm_structured_data order spare p = Val l).
Proof.
  intros data eof p ws els tl order spare H Hc. rewrite (scanned_sd _ _ _ _ _ _ H Hc order spare). destruct Hc as (Hl & Hw & Hd & Hf & Hc).
  assert (Hne : Forall (fun e : bytes => e <> []) els).
  { eapply Forall_impl; [|exact Hf]. intros e (b & -> & _). destruct b; discriminate. }
  destruct (sd_elements_panics order spare els Hne (join ws) tl) as [Hp Hn].
  destruct (match els with [] => true | [c :: _] => N.eqb c DASH | _ => false end) eqn:El.
  - split; [|eauto]. split; [discriminate|]. intros (Hnd & els1 & el & els2 & E & _). exfalso. destruct els as [|[|c e] [|]]; try discriminate.
    + destruct els1; discriminate.
    + apply Hnd. apply N.eqb_eq in El. subst c. exists e. reflexivity.
  - assert (Hnd : ~ lone_dash els) by (intros (e & ->); cbn in El; discriminate).
    set (r := sd_elements _ _ _ _ _) in *. split; [rewrite Hp; tauto|]. intros Hnp. destruct r; [eauto|congruence|congruence].
Qed.
Print Assumptions C68_structured_data_panics_iff.

(** no panic with the decoders of other packages (total ones), and none with the time quality decoder
    when the buffer has at least 10 spare bytes *)
Theorem C68_structured_data_total : forall data eof p order spare, parse data None eof = Val (p, None, None) ->
  (forall b s, In s (order b) -> (exists n f, s = IdForeign n f /\ forall el, f el <> None) \/ (s = IdTimeQuality /\ (10 <= length spare)%nat)) ->
  exists l, imm_structured_data order spare p = Val l.
Proof.
  intros data eof p order spare H Ho. destruct (proj1 (scanned_iff data eof) (ex_intro _ p H)) as (ws & els & tl & Hc).
  destruct (C68_structured_data_panics_iff data eof p ws els tl order spare H Hc) as (Hp & Ht). destruct Hc as (_ & _ & _ & Hf & _).
  apply Ht. intros E. apply Hp in E as (_ & els1 & el & els2 & -> & pre & d & post & Eo & _ & Hd).
  destruct (Ho (length (join ws ++ concat els1)) d) as [(n & f & -> & Hf')|[-> Hs]].
  - rewrite Eo. apply in_or_app. right. left. reflexivity.
  - cbn [sdid_found] in Hd. destruct (f el) eqn:Ef; [discriminate|exact (Hf' _ Ef)].
  - apply C68_timequality_panics_iff in Hd as [->|(inner & -> & Hx)].
    + apply Forall_app in Hf as [_ Hf]. inversion Hf as [|? ? (b & Hb & _)]; subst. destruct b; discriminate.
    + rewrite !app_length in Hx. lia.
Qed.
Print Assumptions C68_structured_data_total.

(** with the package's time quality decoder registered, a message read from the network can panic *)
Theorem C68_short_element_refuted : exists p, parse (bs "<1>1 - h a p m [x a=""b""]") None true = Val (p, None, None) /\
  imm_structured_data (fun _ => [IdTimeQuality]) [] p = Panic /\
  imm_structured_data (fun _ => []) [] p = Val [SDUnknown (bs "x") [(bs "a", bs "b")]].
Proof. eexists. split; [vm_compute; reflexivity|]. split; vm_compute; reflexivity. Qed.
Print Assumptions C68_short_element_refuted.

(** a decoder of another package is given the element, does what it does, and its panic is not caught: *)
Theorem C68_other_package : forall name f data spare,
  (sdid_found (IdForeign name f) data spare = Panic <-> f data = None) /\
  (forall o, sdid_found (IdForeign name f) data spare = Val o <-> f data = Some o).
Proof.
  intros name f data spare. cbn [sdid_found]. destruct (f data) as [o|]; (split; [split; congruence|]); intros o'; (split; congruence).
Qed.
Print Assumptions C68_other_package.

Theorem C68_other_package_refuted : exists p, parse (bs "<1>1 - h a p m [x a=""b""]") None true = Val (p, None, None) /\
  imm_structured_data (fun _ => [IdForeign (bs "y") (fun _ => None)]) [] p = Panic /\
  imm_structured_data (fun _ => [IdForeign (bs "y") (fun _ => Some None)]) [] p = Val [SDUnknown (bs "x") [(bs "a", bs "b")]].
Proof. eexists. split; [vm_compute; reflexivity|]. split; vm_compute; reflexivity. Qed.
Print Assumptions C68_other_package_refuted.

(** ** C69: the registry *)
Lemma lookup_insert r k s k' : reg_lookup r k = None -> reg_lookup ((k, s) :: r) k' = if bytes_eqb k k' then Some s else reg_lookup r k'.
Proof. reflexivity. Qed.

Theorem C69_register : forall r s name,
  snd (register r s) = s /\
  (reg_lookup (fst (register r s)) name = match reg_lookup r name with
                                           | Some first => Some first
                                           | None => if bytes_eqb (sdid_string s) name then Some s else None
                                           end).
Proof.
  intros r s name. split; [reflexivity|]. unfold register. cbn [fst].
  destruct (reg_lookup r (sdid_string s)) as [x|] eqn:E.
  - destruct (reg_lookup r name) eqn:En; [reflexivity|]. destruct (bytes_eqb (sdid_string s) name) eqn:Ee; [|reflexivity]. apply bytes_eqb_eq in Ee. congruence.
  - cbn [reg_lookup]. destruct (bytes_eqb (sdid_string s) name) eqn:Ee.
    + apply bytes_eqb_eq in Ee as <-. rewrite E. reflexivity.
    + destruct (reg_lookup r name); reflexivity.
Qed.
Print Assumptions C69_register.

Theorem C69_register_group : forall l r, register_group r l = fold_left (fun r s => fst (register r s)) l r.
Proof. induction l as [|s l IH]; intros r; [reflexivity|]. cbn [register_group fold_left]. rewrite IH. reflexivity. Qed.
Print Assumptions C69_register_group.

(** after any registrations, each name has the first decoder registered under it *)
Theorem C69_first_wins : forall l name,
  reg_lookup (register_group [] l) name = find (fun s => bytes_eqb (sdid_string s) name) l.
Proof.
  intros l name. rewrite C69_register_group.
  assert (H : forall r, reg_lookup (fold_left (fun r s => fst (register r s)) l r) name =
     match reg_lookup r name with Some x => Some x | None => find (fun s => bytes_eqb (sdid_string s) name) l end).
  { induction l as [|s l IH]; intros r; cbn [fold_left find]; [destruct (reg_lookup r name); reflexivity|].
    rewrite IH. destruct (C69_register r s name) as [_ ->]. destruct (reg_lookup r name); [reflexivity|]. destruct (bytes_eqb (sdid_string s) name); reflexivity. }
  rewrite H. reflexivity.
Qed.
Print Assumptions C69_first_wins.

(** a lookup returns what an accepting decoder returns, if any accepts, else the unknown decoding *)
Theorem C69_lookup : forall order el after, (forall s, In s order -> exists o, sdid_found s el after = Val o) ->
  (exists s sd, In s order /\ sdid_found s el after = Val (Some sd) /\ registry_found order el after = Val (Some sd)) \/
  ((forall s, In s order -> sdid_found s el after = Val None) /\ registry_found order el after = unknown_found el).
Proof.
  induction order as [|s order IH]; intros el after H.
  - right. split; [intros s []|reflexivity].
  - cbn [registry_found]. destruct (H s (or_introl eq_refl)) as [[sd|] Es]; rewrite Es; cbn [bind].
    + left. exists s, sd. split; [left; reflexivity|]. auto.
    + destruct (IH el after) as [(x & sd & Hx & Hy & Hz)|[Hx Hy]]; [intros x Hx; apply H; right; exact Hx| |].
      * left. exists x, sd. split; [right; exact Hx|]. auto.
      * right. split; [|exact Hy]. intros x [<-|Hi]; [exact Es|exact (Hx x Hi)].
Qed.
Print Assumptions C69_lookup.

Theorem C69_order_irrelevant : forall order order' el after, Permutation order order' ->
  (forall s, In s order -> exists o, sdid_found s el after = Val o) ->
  (forall s s' x y, In s order -> In s' order -> sdid_found s el after = Val (Some x) -> sdid_found s' el after = Val (Some y) -> x = y) ->
  registry_found order el after = registry_found order' el after.
Proof.
  intros order order' el after Hp Ht Hu.
  assert (Hin : forall s, In s order' -> In s order) by (intros s; apply Permutation_in, Permutation_sym, Hp).
  assert (Hin' : forall s, In s order -> In s order') by (intros s; apply Permutation_in, Hp).
  destruct (C69_lookup order el after Ht) as [(s & x & Hs & Hx & ->)|[Hn ->]];
    (destruct (C69_lookup order' el after) as [(s' & y & Hs' & Hy & ->)|[Hn' ->]]; [intros z Hz; apply Ht, Hin, Hz| |]).
  - f_equal. f_equal. exact (Hu s s' x y Hs (Hin _ Hs') Hx Hy).
  - rewrite (Hn' s (Hin' _ Hs)) in Hx. discriminate.
  - rewrite (Hn s' (Hin _ Hs')) in Hy. discriminate.
  - reflexivity.
Qed.
Print Assumptions C69_order_irrelevant.

Example C69_nonvacuous :
  let f1 := IdForeign (bs "x") (fun _ => Some None) in let f2 := IdForeign (bs "x") (fun d => Some (Some (SDUnknown d []))) in
  reg_lookup (register_group [] [f1; IdTimeQuality; f2]) (bs "x") = Some f1 /\
  registry_found [f1; IdTimeQuality] (bs "[timeQuality tzKnown=""1""]") [] = Val (Some (SDTimeQuality {| tzKnown := true; isSynced := false; syncAccuracy := None |})).
Proof. split; vm_compute; reflexivity. Qed.

(** ** C72: struct tags *)
Definition COMMA : N := 44%N.
Definition tag_of (name : bytes) (opts : list bytes) : bytes := name ++ concat (map (fun o => bs "," ++ o) opts).

Lemma split_comma_ok o opts : ~ In COMMA o -> Forall (fun x => ~ In COMMA x) opts -> split_comma (tag_of o opts) = o :: opts.
Proof.
  intros Ho Hopts. revert o Ho. induction Hopts as [|p opts Hp Hf IH]; intros o Ho.
  - unfold tag_of. cbn [map concat]. rewrite app_nil_r. induction o as [|c o IHo]; [reflexivity|]. cbn [split_comma].
    destruct (N.eqb_spec c 44) as [->|Hc]; [exfalso; apply Ho; left; reflexivity|]. rewrite IHo; [reflexivity|]. intros H. apply Ho. right. exact H.
  - unfold tag_of. cbn [map concat]. induction o as [|c o IHo].
    + change (split_comma (44%N :: tag_of p opts) = [] :: p :: opts). cbn [split_comma N.eqb Pos.eqb]. f_equal. exact (IH p Hp).
    + cbn [app split_comma]. destruct (N.eqb_spec c 44) as [->|Hc]; [exfalso; apply Ho; left; reflexivity|]. 
      rewrite IHo; [reflexivity|]. intros H. apply Ho. right. exact H.
Qed.

Lemma index_app_none (c : N) x r : ~ In c x -> index_byte c (x ++ c :: r) = Some (length x).
Proof.
  induction x as [|d x IH]; intros H; cbn.
  - rewrite N.eqb_refl. reflexivity.
  - destruct (N.eqb_spec d c) as [->|Hn]; [exfalso; apply H; left; reflexivity|]. rewrite IH; [reflexivity|]. intros Hi. apply H. right. exact Hi.
Qed.
Lemma index_none (c : N) x : ~ In c x -> index_byte c x = None.
Proof.
  induction x as [|d x IH]; intros H; cbn; [reflexivity|].
  destruct (N.eqb_spec d c) as [->|Hn]; [exfalso; apply H; left; reflexivity|]. rewrite IH; [reflexivity|]. intros Hi. apply H. right. exact Hi.
Qed.

(** a tag is split at its commas: every tag has exactly one such reading, and parseTag returns it *)
Theorem C72_parse_tag : forall tag name opts,
  parse_tag tag = (name, opts) <-> tag = tag_of name opts /\ ~ In COMMA name /\ Forall (fun o => ~ In COMMA o) opts.
Proof.
  assert (Hok : forall name opts, ~ In COMMA name -> Forall (fun o => ~ In COMMA o) opts -> parse_tag (tag_of name opts) = (name, opts)).
  { intros name opts Hn Ho. unfold parse_tag. destruct opts as [|o opts].
    - unfold tag_of. cbn [map concat]. rewrite app_nil_r. rewrite index_none by exact Hn. reflexivity.
    - inversion Ho as [|? ? Ho1 Ho2]; subst. change (tag_of name (o :: opts)) with (name ++ 44%N :: tag_of o opts).
      rewrite index_app_none by exact Hn. rewrite firstn_app_exact. f_equal.
      replace (length name + 1)%nat with (length (name ++ [44%N])) by (rewrite app_length; reflexivity).
      replace (name ++ 44%N :: tag_of o opts) with ((name ++ [44%N]) ++ tag_of o opts) by (rewrite <- app_assoc; reflexivity).
      rewrite skipn_app_exact. apply split_comma_ok; assumption. }
  assert (Hex : forall tag, exists name opts, tag = tag_of name opts /\ ~ In COMMA name /\ Forall (fun o => ~ In COMMA o) opts).
  { induction tag as [|c tag (name & opts & -> & Hn & Ho)].
    - exists [], []. split; [reflexivity|]. split; [intros []|constructor].
    - destruct (N.eqb_spec c 44) as [->|Hc].
      + exists [], (name :: opts). split; [reflexivity|]. split; [intros []|]. constructor; assumption.
      + exists (c :: name), opts. split; [reflexivity|]. split; [|exact Ho]. intros [H|H]; [apply Hc; exact H|exact (Hn H)]. }
  intros tag name opts. split.
  - intros H. destruct (Hex tag) as (n & o & -> & Hn & Ho). rewrite (Hok n o Hn Ho) in H. injection H as <- <-. auto.
  - intros (-> & Hn & Ho). apply Hok; assumption.
Qed.
Print Assumptions C72_parse_tag.

Theorem C72_contains : forall opts name, tag_contains opts name = true <-> In name opts.
Proof. exact tag_contains_in. Qed.
Print Assumptions C72_contains.

(** UTF-8 *)
Definition scalar_value (r : N) : Prop := (r < 55296 \/ 57344 <= r < 1114112)%N.
Definition utf8 (r : N) : bytes :=
  (if r <? 128 then [r]
   else if r <? 2048 then [192 + r / 64; 128 + r mod 64]
   else if r <? 65536 then [224 + r / 4096; 128 + r / 64 mod 64; 128 + r mod 64]
   else [240 + r / 262144; 128 + r / 4096 mod 64; 128 + r / 64 mod 64; 128 + r mod 64])%N.
(** a character allowed in the name part of a tag; [letter] tells the letters and digits outside ASCII *)
Definition tag_char (letter : N -> bool) (r : N) : Prop :=
  (48 <= r <= 57)%N \/ (65 <= r <= 90)%N \/ (97 <= r <= 122)%N \/ In r (bs "!#$%&()*+-./:<=>?@[]^_{|}~ ") \/ ((128 <= r)%N /\ letter r = true).

Lemma rng_true b lo hi : (lo <= b <= hi)%N -> in_rng b lo hi = true.
Proof. intros H. unfold in_rng. apply andb_true_iff. split; apply N.leb_le; lia. Qed.
Lemma rng_false b lo hi : (b < lo \/ hi < b)%N -> in_rng b lo hi = false.
Proof. intros H. unfold in_rng. apply andb_false_iff. destruct H; [left|right]; apply N.leb_gt; lia. Qed.

Lemma decode_utf8 r rest : scalar_value r -> decode_rune (utf8 r ++ rest) = (r, length (utf8 r)).
Proof.
  intros Hs. unfold utf8.
  pose proof (N.div_mod r 64 ltac:(lia)) as D1. pose proof (N.mod_lt r 64 ltac:(lia)) as M1.
  pose proof (N.div_mod (r / 64) 64 ltac:(lia)) as D2. pose proof (N.mod_lt (r / 64) 64 ltac:(lia)) as M2.
  pose proof (N.div_mod (r / 4096) 64 ltac:(lia)) as D3. pose proof (N.mod_lt (r / 4096) 64 ltac:(lia)) as M3.
  assert (Q2 : (r / 64 / 64 = r / 4096)%N) by (rewrite N.div_div by lia; reflexivity).
  assert (Q3 : (r / 4096 / 64 = r / 262144)%N) by (rewrite N.div_div by lia; reflexivity).
  rewrite Q2 in D2. rewrite Q3 in D3.
  destruct (N.ltb_spec r 128) as [H1|H1].
  { cbn [app decode_rune]. destruct (N.ltb_spec r 128); [reflexivity|lia]. }
  destruct (N.ltb_spec r 2048) as [H2|H2].
  { cbn [app decode_rune length]. destruct (N.ltb_spec (192 + r / 64) 128); [lia|].
    rewrite (rng_true (192 + r / 64) 194 223) by lia. rewrite rng_true by lia. f_equal. lia. }
  destruct (N.ltb_spec r 65536) as [H3|H3].
  { cbn [app decode_rune length]. destruct (N.ltb_spec (224 + r / 4096) 128); [lia|].
    rewrite (rng_false (224 + r / 4096) 194 223) by lia. rewrite (rng_true (224 + r / 4096) 224 239) by lia.
    rewrite (rng_true (128 + r mod 64) 128 191) by lia.
    assert (Hr : in_rng (128 + (r / 64) mod 64) (if N.eqb (224 + r / 4096) 224 then 160 else 128) (if N.eqb (224 + r / 4096) 237 then 159 else 191) = true).
    { apply rng_true. unfold scalar_value in Hs. destruct (N.eqb_spec (224 + r / 4096) 224), (N.eqb_spec (224 + r / 4096) 237); lia. }
    rewrite Hr. cbn [andb]. f_equal. lia. }
  cbn [app decode_rune length]. destruct (N.ltb_spec (240 + r / 262144) 128); [lia|]. unfold scalar_value in Hs.
  rewrite (rng_false (240 + r / 262144) 194 223) by lia. rewrite (rng_false (240 + r / 262144) 224 239) by lia.
  rewrite (rng_true (240 + r / 262144) 240 244) by lia.
  rewrite (rng_true (128 + r mod 64) 128 191) by lia. rewrite (rng_true (128 + r / 64 mod 64) 128 191) by lia.
  assert (Hr : in_rng (128 + r / 4096 mod 64) (if N.eqb (240 + r / 262144) 240 then 144 else 128) (if N.eqb (240 + r / 262144) 244 then 143 else 191) = true).
  { apply rng_true. destruct (N.eqb_spec (240 + r / 262144) 240), (N.eqb_spec (240 + r / 262144) 244); lia. }
  rewrite Hr. cbn [andb]. f_equal. lia.
Qed.

Lemma mem_in c l : mem c l = true <-> In c l.
Proof. induction l as [|x l IH]; cbn; [split; [discriminate|tauto]|]. rewrite orb_true_iff, N.eqb_eq, IH. tauto. Qed.

Lemma tag_char_iff letter r : (mem r tag_punct || (if (r <? 128)%N then ascii_alnum r else letter r)) = true <-> tag_char letter r.
Proof.
  unfold tag_char. rewrite orb_true_iff, mem_in. fold tag_punct.
  assert (Hp : In r tag_punct -> (r < 128)%N) by (intros H; cbn in H; repeat (destruct H as [<-|H]; [lia|]); destruct H).
  destruct (N.ltb_spec r 128) as [H|H].
  - unfold ascii_alnum. rewrite !orb_true_iff, !andb_true_iff, !N.leb_le. split; [intros [Hi|[[Hx|Hx]|Hx]]; tauto|]. intros [Hx|[Hx|[Hx|[Hx|[Hx _]]]]]; try tauto. lia.
  - split; [intros [Hi|Hi]; [specialize (Hp Hi); lia|tauto]|]. intros [Hx|[Hx|[Hx|[Hx|[_ Hx]]]]]; try lia; tauto.
Qed.

Lemma utf8_length r : (1 <= length (utf8 r) <= 4)%nat.
Proof. unfold utf8. destruct (r <? 128)%N, (r <? 2048)%N, (r <? 65536)%N; cbn; lia. Qed.

(** a tag name is usable iff it is not empty and all its characters are allowed *)
Theorem C72_valid_tag : forall letter rs, Forall scalar_value rs ->
  (is_valid_tag letter (concat (map utf8 rs)) = true <-> rs <> [] /\ Forall (tag_char letter) rs).
Proof.
  intros letter rs Hs.
  assert (Hloop : forall fuel, (length (concat (map utf8 rs)) <= fuel)%nat -> (valid_tag_loop fuel letter (concat (map utf8 rs)) = true <-> Forall (tag_char letter) rs)).
  { induction Hs as [|r rs Hr Hs IH]; intros fuel Hf.
    - cbn. destruct fuel; cbn; split; auto.
    - cbn [map concat] in *. rewrite app_length in Hf. pose proof (utf8_length r) as Hl. destruct fuel as [|fuel]; [lia|]. cbn [valid_tag_loop].
      pose proof (decode_utf8 r (concat (map utf8 rs)) Hr) as Hd.
      destruct (utf8 r ++ concat (map utf8 rs)) as [|c s] eqn:E; [apply (f_equal (@length N)) in E; rewrite app_length in E; cbn in E; lia|].
      rewrite Hd. rewrite <- E. rewrite skipn_app_exact. pose proof (tag_char_iff letter r) as Hc.
      destruct (mem r tag_punct || (if (r <? 128)%N then ascii_alnum r else letter r)).
      + rewrite IH by lia. split; [intros H; constructor; [apply Hc; reflexivity|exact H]|intros H; inversion H; assumption].
      + split; [discriminate|]. intros H. inversion H as [|? ? Hx _]; subst. apply Hc in Hx. discriminate. }
  unfold is_valid_tag. destruct (concat (map utf8 rs)) as [|c s] eqn:E.
  - destruct rs as [|r rs]; [split; [discriminate|intros [H _]; congruence]|]. cbn in E. apply (f_equal (@length N)) in E. rewrite app_length in E. pose proof (utf8_length r). cbn in E. lia.
  - rewrite Hloop by lia. split; [|tauto]. intros H. split; [|exact H]. intros ->. discriminate.
Qed.
Print Assumptions C72_valid_tag.

Example C72_nonvacuous :
  parse_tag (bs "syncAccuracy,mandatory,x") = (bs "syncAccuracy", [bs "mandatory"; bs "x"]) /\
  is_valid_tag (fun r => N.eqb r 233) (concat (map utf8 [104; 233; 45]%N)) = true /\
  is_valid_tag (fun r => N.eqb r 233) (bs "a""b") = false /\ utf8 8364 = [226; 130; 172]%N.
Proof. repeat split; vm_compute; reflexivity. Qed.
