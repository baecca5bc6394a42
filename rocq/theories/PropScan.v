(** PropScan.v -- what StructuredData() of a parsed message returns (C91). *)
From Coq Require Import List NArith ZArith Lia Bool.
From Verif Require Import Base BaseFacts Spec MPriority MTime MSData MMessage MTransport MParse LSData LTime LParse LRound PropMessage PropTime PropParse PropSData PropSData2 PropSData3 LLines.
Import ListNotations.

(** ** C91: the elements a message is cut into, and what is returned for each of them *)

(** A message is accepted exactly when it can be cut, and it can be cut in one way only. *)
Lemma el_ends_inj els : forall els' b t t', el_ends b els = el_ends b els' -> concat els ++ t = concat els' ++ t' -> els = els' /\ t = t'.
Proof.
  induction els as [|e els IH]; intros [|e' els'] b t t' E Ec; cbn [el_ends] in E; try discriminate; [split; [reflexivity|exact Ec]|].
  assert (Hle : (b + length e = b + length e')%nat) by congruence.
  assert (He : length e = length e') by lia. cbn [concat] in Ec. rewrite <- !app_assoc in Ec.
  assert (Hee : e = e' /\ concat els ++ t = concat els' ++ t').
  { apply (f_equal (firstn (length e))) in Ec as E1. rewrite firstn_app_exact in E1. rewrite He in E1. rewrite firstn_app_exact in E1.
    subst e'. apply app_inv_head in Ec. auto. }
  destruct Hee as [-> Hr]. destruct (IH els' (b + length e')%nat t t') as [-> ->]; [congruence|exact Hr|auto].
Qed.

Theorem C91_cut_unique : forall data eof,
  ((exists p, parse data None eof = Val (p, None, None)) <-> exists ws els tl, scanned data ws els tl) /\
  (forall ws els tl ws' els' tl', scanned data ws els tl -> scanned data ws' els' tl' -> ws = ws' /\ els = els' /\ tl = tl').
Proof.
  intros data eof. split; [apply scanned_iff|]. intros ws els tl ws' els' tl' H H'.
  destruct (scanned_accepted _ _ _ _ H) as (m & Ha & Hi). destruct (scanned_accepted _ _ _ _ H') as (m' & Ha' & Hi').
  apply (parse_iff _ _ true) in Ha. apply (parse_iff _ _ true) in Ha'. rewrite Ha in Ha'. injection Ha' as <-. rewrite Hi in Hi'. clear Ha Hi m.
  destruct H as (Hl & Hw & Hd & Hf & Hc). destruct H' as (Hl' & Hw' & Hd' & Hf' & Hc'). rewrite Hd in Hd'.
  destruct (join_unique ws ws' _ _ (eq_trans Hl (eq_sym Hl')) Hw Hw' Hd') as [<- Ht].
  split; [reflexivity|]. unfold cut_index in Hi'. apply app_inv_head in Hi'.
  assert (Hk : forall els tl text, Forall scan_element els -> late_space (concat els ++ tl) -> concat els ++ tl = bs "-" \/ concat els ++ tl = bs "- " ++ text -> False).
  { intros e t text _ Hs [E|E]; rewrite E in Hs; [|exact (late_not_dash _ Hs)].
    destruct Hs as (x & y & Ex & _ & Hx). apply (f_equal (@length N)) in Ex. rewrite app_length in Ex. cbn in Ex. lia. }
  destruct Hc as [(-> & Hc)|(Hs & Hc)]; destruct Hc' as [(-> & Hc')|(Hs' & Hc')].
  - split; [reflexivity|exact Ht].
  - exfalso. cbn [concat app] in Ht. destruct Hc as [->|(t & ->)]; [apply (Hk els' tl' [] Hf' Hs')|apply (Hk els' tl' t Hf' Hs')]; rewrite <- Ht; auto.
  - exfalso. cbn [concat app] in Ht. destruct Hc' as [->|(t & ->)]; [apply (Hk els tl [] Hf Hs)|apply (Hk els tl t Hf Hs)]; rewrite Ht; auto.
  - assert (Hci : forall els tl, late_space (concat els ++ tl) -> match els, tl with
               | [], [c] => if N.eqb c DASH then [(length (join ws) + 2)%nat] else []
               | [], c :: d :: _ => if N.eqb c DASH && N.eqb d SP then [(length (join ws) + 1)%nat] else []
               | _, _ => el_ends (length (join ws)) els
               end = el_ends (length (join ws)) els).
    { intros e t Hst. destruct e as [|e es]; [|destruct t as [|? [|? ?]]; reflexivity]. cbn [concat app] in Hst.
      destruct t as [|c [|d t]]; [reflexivity| |].
      - destruct Hst as (x & y & E & _ & Hx). apply (f_equal (@length N)) in E. rewrite app_length in E. cbn in E. lia.
      - destruct (N.eqb_spec c DASH) as [->|]; [|reflexivity]. destruct (N.eqb_spec d SP) as [->|]; [|reflexivity]. destruct (late_not_dash _ Hst). }
    rewrite (Hci _ _ Hs), (Hci _ _ Hs') in Hi'. exact (el_ends_inj _ _ _ _ _ Hi' Ht).
Qed.
Print Assumptions C91_cut_unique.

(** The outcome of offering an element to the registered decoders, in the order [order] of the
    lookup, and to the default decoder when none of them takes it. *)
Inductive looked_up (order : list sdid) (el after : bytes) : option sdval -> Prop :=
| LU_registered : forall pre d post sd, order = pre ++ d :: post ->
    Forall (fun x => sdid_found x el after = Val None) pre -> sdid_found d el after = Val (Some sd) -> looked_up order el after (Some sd)
| LU_default : forall o, Forall (fun x => sdid_found x el after = Val None) order -> unknown_found el = Val o -> looked_up order el after o.

(** The values of consecutive elements: one per element that some decoder takes, in order. *)
Inductive values (order : nat -> list sdid) (rest : bytes) : nat -> list bytes -> list sdval -> Prop :=
| VL_nil : forall off, values order rest off [] []
| VL_taken : forall off el els sd l, looked_up (order off) el (concat els ++ rest) (Some sd) ->
    values order rest (off + length el) els l -> values order rest off (el :: els) (sd :: l)
| VL_dropped : forall off el els l, looked_up (order off) el (concat els ++ rest) None ->
    values order rest (off + length el) els l -> values order rest off (el :: els) l.

Lemma looked_up_iff order el after o : looked_up order el after o <-> registry_found order el after = Val o.
Proof.
  induction order as [|s order IH]; cbn [registry_found].
  - split.
    + intros [pre d post sd E|o' _ H]; [destruct pre; discriminate|exact H].
    + intros H. apply LU_default; [constructor|exact H].
  - destruct (sdid_found s el after) as [[sd|]| |] eqn:Es; cbn [bind].
    + split.
      * intros [[|p pre] d post sd' E Hf Hd|o' Hf _]; [injection E as <- <-; congruence| |]; [injection E as <- _|]; inversion Hf; congruence.
      * intros H. injection H as <-. apply (LU_registered _ _ _ [] s order); [reflexivity|constructor|exact Es].
    + rewrite <- IH. split.
      * intros [[|p pre] d post sd' E Hf Hd|o' Hf H]; [injection E as <- <-; congruence| |].
        -- injection E as <- ->. inversion Hf; subst. eapply LU_registered; [reflexivity|eassumption|exact Hd].
        -- inversion Hf; subst. apply LU_default; assumption.
      * intros [pre d post sd' -> Hf Hd|o' Hf H].
        -- apply (LU_registered _ _ _ (s :: pre) d post); [reflexivity|constructor; assumption|exact Hd].
        -- apply LU_default; [constructor; assumption|exact H].
    + split; [|discriminate]. intros [[|p pre] d post sd' E Hf Hd|o' Hf _]; [injection E as <- <-; congruence| |]; [injection E as <- _|]; inversion Hf; congruence.
    + split; [|discriminate]. intros [[|p pre] d post sd' E Hf Hd|o' Hf _]; [injection E as <- <-; congruence| |]; [injection E as <- _|]; inversion Hf; congruence.
Qed.

Lemma sd_elements_values order spare post els : forall pre l,
  sd_elements order (pre ++ concat els ++ post) spare (length pre) (el_ends (length pre) els) = Val l <->
  values order (post ++ spare) (length pre) els l.
Proof.
  induction els as [|e els IH]; intros pre l.
  { cbn [el_ends sd_elements]. split; [intros H; injection H as <-; constructor|intros H; inversion H; reflexivity]. }
  cbn [el_ends sd_elements concat].
  assert (Hsl : go_slice_cap (pre ++ (e ++ concat els) ++ post) spare (length pre) (length pre + length e) = Val e).
  { unfold go_slice_cap. destruct (Nat.leb_spec (length pre) (length pre + length e)); [|lia].
    destruct (Nat.leb_spec (length pre + length e) (length (pre ++ (e ++ concat els) ++ post) + length spare)) as [_|Hlt];
      [|rewrite !app_length in Hlt; lia].
    cbn [andb]. rewrite <- !app_assoc, skipn_app_exact. replace (length pre + length e - length pre)%nat with (length e) by lia.
    rewrite firstn_app_exact. reflexivity. }
  rewrite Hsl. cbn [bind].
  assert (Hsk : skipn (length pre + length e) ((pre ++ (e ++ concat els) ++ post) ++ spare) = concat els ++ post ++ spare).
  { replace ((pre ++ (e ++ concat els) ++ post) ++ spare) with ((pre ++ e) ++ concat els ++ post ++ spare) by (rewrite <- !app_assoc; reflexivity).
    rewrite <- app_length. apply skipn_app_exact. }
  rewrite Hsk. specialize (IH (pre ++ e)). rewrite app_length in IH.
  replace ((pre ++ e) ++ concat els ++ post) with (pre ++ (e ++ concat els) ++ post) in IH by (rewrite <- !app_assoc; reflexivity).
  split.
  - intros H. destruct (registry_found _ _ _) as [o| |] eqn:Eo; cbn [bind] in H; try discriminate.
    destruct (sd_elements _ _ _ _ _) as [l'| |] eqn:El; cbn [bind] in H; try discriminate. injection H as <-.
    apply looked_up_iff in Eo. pose proof (proj1 (IH l') eq_refl) as Hv. destruct o as [sd|]; [apply VL_taken|apply VL_dropped]; assumption.
  - intros H. inversion H as [|off el els' sd l' Hl Hv|off el els' l' Hl Hv]; subst; apply looked_up_iff in Hl; apply IH in Hv; rewrite Hl; cbn [bind]; rewrite Hv; reflexivity.
Qed.

(** StructuredData() returns the values of the elements, in order; the elements no decoder takes are
    silently left out; a single element that starts with a dash is not looked at. *)
Theorem C91_structured_data_iff : forall data eof p ws els tl order spare l,
  parse data None eof = Val (p, None, None) -> scanned data ws els tl ->
  (imm_structured_data order spare p = Val l <->
     (lone_dash els /\ l = []) \/ (~ lone_dash els /\ values order (tl ++ spare) (length (join ws)) els l)).
Proof.
  intros data eof p ws els tl order spare l H Hc. rewrite (scanned_sd _ _ _ _ _ _ H Hc order spare).
  rewrite <- (sd_elements_values order spare tl els (join ws) l). destruct Hc as (Hl & Hw & Hd & Hf & Hc).
  destruct els as [|[|c e] [|e2 els]].
  - assert (Hn : ~ lone_dash []) by (intros (e & H1); discriminate). cbn [el_ends sd_elements concat]. split.
    + intros E. right. split; [exact Hn|exact E].
    + intros [[Hx _]|[_ E]]; [destruct (Hn Hx)|exact E].
  - inversion Hf as [|? ? (b & Eb & _)]; destruct b; discriminate.
  - inversion Hf as [|? ? (b & Eb & _)]; destruct b; discriminate.
  - destruct (N.eqb_spec c DASH) as [->|Hcd].
    + assert (Hy : lone_dash [DASH :: e]) by (exists e; reflexivity). split; [intros E; injection E as <-; left; auto|]. intros [[_ ->]|[Hx _]]; [reflexivity|destruct (Hx Hy)].
    + assert (Hn : ~ lone_dash [c :: e]) by (intros (x & H1); cbn in H1; congruence). split; [intros E; right; split; [exact Hn|exact E]|].
      intros [[Hx _]|[_ E]]; [destruct (Hn Hx)|exact E].
  - assert (Hn : ~ lone_dash ((c :: e) :: e2 :: els)) by (intros (x & H1); discriminate). split; [intros E; right; split; [exact Hn|exact E]|].
    intros [[Hx _]|[_ E]]; [destruct (Hn Hx)|exact E].
Qed.
Print Assumptions C91_structured_data_iff.

(** With no decoder registered, an element is kept exactly when it is of the documented form (C61). *)
Theorem C91_default_decoder : forall data eof p ws els tl spare,
  parse data None eof = Val (p, None, None) -> scanned data ws els tl -> ~ lone_dash els ->
  imm_structured_data (fun _ => []) spare p =
    Val (flat_map (fun el => match unknown_found el with Val (Some sd) => [sd] | _ => [] end) els).
Proof.
  intros data eof p ws els tl spare H Hc Hn.
  apply (C91_structured_data_iff data eof p ws els tl _ spare _ H Hc). right. split; [exact Hn|].
  destruct Hc as (_ & _ & _ & Hf & _). generalize (length (join ws)) as off. clear -Hf. induction Hf as [|e els He Hf IH]; intros off; [constructor|].
  destruct He as (b & -> & _). destruct (unknown_found_total (b ++ [QUO; RBR])) as (o & Ho & _); [destruct b; discriminate|].
  assert (Hlu : looked_up [] (b ++ [QUO; RBR]) (concat els ++ tl ++ spare) o) by (apply LU_default; [constructor|exact Ho]).
  cbn [flat_map]. rewrite Ho. destruct o as [sd|]; cbn [app]; [apply VL_taken|apply VL_dropped]; try assumption; apply IH.
Qed.
Print Assumptions C91_default_decoder.

(** concrete: two elements that decode and one (without "=") that is dropped *)
Example C91_nonvacuous :
  let data := bs "<1>1 - h a p m [x a=""b""][y zz""][z c=""d""] text" in
  exists p, parse data None true = Val (p, None, None) /\
    scanned data [bs "<1>1"; bs "-"; bs "h"; bs "a"; bs "p"; bs "m"] [bs "[x a=""b""]"; bs "[y zz""]"; bs "[z c=""d""]"] (bs " text") /\
    ~ lone_dash [bs "[x a=""b""]"; bs "[y zz""]"; bs "[z c=""d""]"] /\
    imm_structured_data (fun _ => []) [] p = Val [SDUnknown (bs "x") [(bs "a", bs "b")]; SDUnknown (bs "z") [(bs "c", bs "d")]].
Proof.
  cbv zeta. eexists. split; [vm_compute; reflexivity|]. split; [|split; [intros (e & H); discriminate|vm_compute; reflexivity]].
  split; [reflexivity|]. split.
  { repeat constructor; try discriminate; intros H; repeat (destruct H as [H|H]; [discriminate|]); exact H. }
  split; [reflexivity|]. split.
  { assert (Hse : forall body, ~ In RBR body -> scan_element (body ++ [QUO; RBR])).
    { intros body Hn. exists body. split; [reflexivity|]. intros x y E. exfalso. apply Hn. rewrite E. apply in_or_app. right. left. reflexivity. }
    repeat constructor; [apply (Hse (bs "[x a=""b"))|apply (Hse (bs "[y zz"))|apply (Hse (bs "[z c=""d"))]; intros H; repeat (destruct H as [H|H]; [discriminate|]); exact H. }
  right. split.
  { exists (bs "[x"), (bs "a=""b""][y zz""][z c=""d""] text"). split; [reflexivity|]. split; [|cbn; lia]. intros H; repeat (destruct H as [H|H]; [discriminate|]); exact H. }
  right. split; [discriminate|]. split.
  - intros x y E. exfalso. assert (Hi : In RBR (bs " text")) by (rewrite E; apply in_or_app; right; left; reflexivity).
    repeat (destruct Hi as [Hi|Hi]; [discriminate|]); exact Hi.
  - intros (x & E). assert (Hi : In RBR (bs " text")) by (rewrite E; apply in_or_app; right; left; reflexivity).
    repeat (destruct Hi as [Hi|Hi]; [discriminate|]); exact Hi.
Qed.

(** ** C14 with registered decoders *)
(** [s] is written as an element from which the decoders, in whatever order they are tried and
    whatever follows the element, give [s] again *)
Definition decodes_back (uni : N -> bool) (order : nat -> list sdid) (s : sdval) : Prop :=
  exists e, sd_marshal uni s = Val (inr e) /\ sd_element e /\ forall off after, looked_up (order off) e after (Some s).

Theorem C14_registered : forall uni (m : message) enc eof order spare,
  header_ok m -> (0 <= m_prio m <= 299)%Z -> time_valid (m_time m) -> Forall (decodes_back uni order) (m_sd m) ->
  message_marshal uni m = Val (inr enc) ->
  ((exists p, parse enc None eof = Val (p, None, None) /\ imm_string p = enc /\
      imm_writable order spare p = Val (msg_set_time m (at_us (m_time m))))
   <-> (m_sd m = [] \/ m_text m = [] \/ text_safe (m_text m))).
Proof.
  intros uni m enc eof order spare Hh Hp Ht Hsd He. apply (writable_iff uni m enc eof order spare Hh Hp Ht); [|exact He].
  eapply Forall_impl; [|exact Hsd]. intros s (e & H1 & H2 & H3). exists e. split; [exact H1|]. split; [exact H2|]. intros b sp. apply looked_up_iff. apply H3.
Qed.
Print Assumptions C14_registered.

(** Which values of the package's types come back: SDUnknown, when every registered decoder rejects
    its text; a consistent timeQuality that says something, when timeQuality is registered and the decoders
    tried before reject its text; and never a GenericSD. *)
Lemma digits_name c : is_digit c = true -> c <> BSL /\ c <> QUO /\ c <> RBR.
Proof. unfold is_digit. intros H. apply andb_true_iff in H as [H1 H2]. change C0 with 48%N in H1. change C9 with 57%N in H2. repeat split; intros ->; discriminate || lia. Qed.

Theorem C14_which : forall uni order,
  (forall name ps, unknown_ok name ps -> (forall off d sp, In d (order off) -> sdid_found d (unknown_marshal name ps) sp = Val None) ->
     decodes_back uni order (SDUnknown name ps)) /\
  (forall t, tq_consistent t -> tzKnown t = true -> (forall a, syncAccuracy t = Some a -> (0 < a < 2 ^ 63)%Z) ->
     (forall off, exists pre post, order off = pre ++ IdTimeQuality :: post /\ forall d sp, In d pre -> sdid_found d (tq_text t) sp = Val None) ->
     decodes_back uni order (SDTimeQuality t)) /\
  (forall id pm v, (forall off d, In d (order off) -> match d with IdForeign _ _ => False | _ => True end) -> ~ decodes_back uni order (SDGeneric id pm v)).
Proof.
  intros uni order. split; [|split].
  - intros name ps Hok Hd. exists (unknown_marshal name ps). split; [reflexivity|]. split; [exact (unknown_element _ _ Hok)|].
    intros off after. apply looked_up_iff. rewrite registry_rejects by (intros d Hin; exact (Hd off d after Hin)). exact (unknown_roundtrip name ps Hok).
  - intros t Hc Hz Ha Ho. exists (tq_text t).
    assert (Hp : forall a, syncAccuracy t = Some a -> (0 < a)%Z) by (intros a E; destruct (Ha a E); assumption).
    split; [exact (C66_encoding uni t Hp Hc)|]. split.
    + exists (bs "timeQuality"), ([(bs "tzKnown", bs "1")] ++ (if isSynced t then [(bs "isSynced", bs "1")] else []) ++
        match syncAccuracy t with Some a => [(bs "syncAccuracy", decimal (Z.to_N a))] | None => [] end).
      assert (N1 : sd_name (bs "timeQuality")) by (intros c Hx; repeat (destruct Hx as [<-|Hx]; [repeat split; discriminate|]); destruct Hx).
      assert (N2 : sd_name (bs "tzKnown")) by (intros c Hx; repeat (destruct Hx as [<-|Hx]; [repeat split; discriminate|]); destruct Hx).
      assert (N3 : sd_name (bs "isSynced")) by (intros c Hx; repeat (destruct Hx as [<-|Hx]; [repeat split; discriminate|]); destruct Hx).
      assert (N4 : sd_name (bs "syncAccuracy")) by (intros c Hx; repeat (destruct Hx as [<-|Hx]; [repeat split; discriminate|]); destruct Hx).
      assert (W1 : well_escaped (bs "1")) by (apply WE_plain; [discriminate..|constructor]).
      split; [|split; [discriminate|split; [exact N1|split; [discriminate|]]]].
      * unfold tq_text. rewrite Hz. destruct (isSynced t), (syncAccuracy t); cbn [app map concat fst snd param_text]; unfold param_text; cbn [fst snd repeat]; rewrite <- ?app_assoc; reflexivity.
      * apply Forall_app. split; [constructor; [auto|constructor]|]. apply Forall_app. split; [destruct (isSynced t); [constructor; [auto|constructor]|constructor]|].
        destruct (syncAccuracy t) as [a|]; [|constructor]. constructor; [|constructor]. split; [exact N4|]. cbn [snd].
        pose proof (uint_bytes_digits (N.to_uint (Z.to_N a))) as Hd. fold (decimal (Z.to_N a)) in Hd. clear - Hd. induction Hd as [|c l Hc Hl IH]; [constructor|]. destruct (digits_name c Hc) as (D1 & D2 & D3). apply WE_plain; auto.
    + intros off after. destruct (Ho off) as (pre & post & E & Hpre). apply (LU_registered _ _ _ pre IdTimeQuality post); [exact E| |].
      * apply Forall_forall. intros d Hd. exact (Hpre d after Hd).
      * cbn [sdid_found]. destruct (proj1 (C66_round_trip uni t after Ha) Hc) as (enc & E1 & E2). rewrite (C66_encoding uni t Hp Hc) in E1. injection E1 as <-. exact E2.
  - intros id pm v Ho (e & _ & _ & H). specialize (H 0%nat []). inversion H as [pre d post sd Eo Hpre Hd|o Hall Hu].
    + specialize (Ho 0%nat d). rewrite Eo in Ho. specialize (Ho ltac:(apply in_app_iff; right; left; reflexivity)). destruct d as [|id'|]; [| |exact Ho]; cbn [sdid_found] in Hd.
      * destruct (C66_decoded_valid _ _ _ Hd) as (t & E & _). discriminate.
      * unfold generic_found in Hd. destruct (bracketed e) as [[inner|]| |]; try discriminate. cbn [bind] in Hd. destruct (go_slice_cap _ _ _ _); try discriminate. cbn [bind] in Hd.
        destruct (bytes_eqb _ _); [|discriminate]. cbn [negb] in Hd. destruct (go_from _ _) as [[|]| |]; discriminate.
    + assert (Hne : e <> []) by (intros ->; discriminate). destruct (unknown_found_total e Hne) as (o' & E & Hx). rewrite E in Hu. injection Hu as ->. destruct (Hx _ eq_refl) as (? & ? & Es). discriminate.
Qed.
Print Assumptions C14_which.


Example C14_registered_nonvacuous : exists enc, let m := {| m_prio := 14; m_time := {| t_sec := 0; t_nsec := 0; t_off := 0 |}; m_host := bs "h"; m_app := bs "a"; m_procid := bs "p"; m_msgid := bs "m";
     m_sd := [SDTimeQuality {| tzKnown := true; isSynced := true; syncAccuracy := Some 60000000%Z |}; SDUnknown (bs "x@1") [(bs "key", bs "value")]]; m_text := bs "hello" |} in
  message_marshal (fun _ => true) m = Val (inr enc) /\ Forall (decodes_back (fun _ => true) (fun _ => [IdGeneric (bs "y@1"); IdTimeQuality])) (m_sd m) /\ text_safe (m_text m).
Proof.
  eexists. split; [vm_compute; reflexivity|]. split.
  - constructor; [|constructor; [|constructor]].
    + apply C14_which; [split; auto|reflexivity|intros a E; injection E as <-; lia|]. intros off. exists [IdGeneric (bs "y@1")], []. split; [reflexivity|].
      intros d sp [<-|[]]. vm_compute. reflexivity.
    + apply C14_which; [|intros off d sp [<-|[<-|[]]]; vm_compute; reflexivity].
      split; [discriminate|]. split; [|split; [discriminate|split]].
      * intros c Hc. cbn in Hc. unfold sd_name_byte. repeat (destruct Hc as [<-|Hc]; [lia|]). destruct Hc.
      * constructor; [|constructor]. split; [intros c Hc; cbn in Hc; unfold sd_name_byte; repeat (destruct Hc as [<-|Hc]; [lia|]); destruct Hc|].
        cbn [snd]. repeat (apply WE_plain; [discriminate..|]). apply WE_nil.
      * intros _. discriminate.
  - split; [apply bracket_safe_none; cbn; intros H; repeat (destruct H as [H|H]; [discriminate|]); exact H|]. intros [x E]. change (m_text _) with (bs "hell" ++ [111%N]) in E. apply app_inj_tail in E as [_ E]. discriminate.
Qed.
