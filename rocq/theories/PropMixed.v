(** PropMixed.v -- property C34 for LF / NUL streams in which messages may carry structured data. *)
From Verif Require Import Base BaseFacts Spec MPriority MHelpers MText MTime MSData MMessage MTransport MParse MTokenize.
From Verif Require Import LPriority LText LAtoi LTime LSData LParse LTransport LRound LResult PropMessage PropParse PropTransport LTokenize LLines LBlocked PropLines PropSData3 PropScan PropRelay.
From Coq Require Import ZifyBool ZifyNat ZifyN.

(** A message with text: its six header words, its structured data elements and its text. *)
Definition mixed : Type := list bytes * list bytes * bytes.
Definition m_words (f : mixed) : list bytes := fst (fst f).
Definition m_els (f : mixed) : list bytes := snd (fst f).
Definition m_txt (f : mixed) : bytes := snd f.

(** its structured data field, and the whole message, on the wire *)
Definition mixed_wire (f : mixed) : bytes := join (m_words f) ++ sd_field (m_els f) ++ SP :: m_txt f.

(** The text does not contain the delimiter; if there are elements, they do not contain it either and
    the text is one that can be told from them (C15). *)
Definition mixed_of (c : N) (f : mixed) : Prop :=
  length (m_words f) = 6%nat /\ Forall word (m_words f) /\ Forall sd_element (m_els f) /\ ~ In c (m_txt f) /\
  (m_els f <> [] -> text_safe (m_txt f) /\ ~ In c (concat (m_els f))).

(** Some read stops just after the '-' of a message without structured data, or just after an
    element of a message with some. *)
Definition stops_after_data (t : transport) (fs : list mixed) (reads : list (bytes * option read_err)) : Prop :=
  exists n before f after els1 els2, fs = before ++ f :: after /\ m_els f = els1 ++ els2 /\ (els1 = [] -> m_els f = []) /\
    stream (firstn n reads) = concat (map (encode t) (map mixed_wire before)) ++ join (m_words f) ++ sd_field els1.

(** After each message with structured data, some read stops where what has been read past that
    message has a '\' before each ']' and does not end with ']' (nothing at all, for example). *)
Definition clear_after (t : transport) (fs : list mixed) (reads : list (bytes * option read_err)) : Prop :=
  forall before f after, fs = before ++ f :: after -> m_els f <> [] ->
    exists n past, stream (firstn n reads) = concat (map (encode t) (map mixed_wire (before ++ [f]))) ++ past /\ text_safe past.

(** What a receiver must give for it *)
Definition given (f : mixed) (p : immutable * option perr) : Prop :=
  parse (mixed_wire f) None true = Val (fst p, None, None) /\ snd p = None /\ imm_string (fst p) = mixed_wire f /\ imm_text (fst p) = Val (m_txt f).

(** ** one message *)
Definition mixed_index (f : mixed) : list nat :=
  ends 0 (m_words f) ++ match m_els f with [] => [(length (join (m_words f)) + 1)%nat] | els => el_ends (length (join (m_words f))) els end.
Definition mixed_text (f : mixed) : Z := Z.of_nat (length (join (m_words f) ++ sd_field (m_els f) ++ [SP])).
Definition mixed_msg (f : mixed) : immutable := mk (mixed_wire f) (mixed_index f) (mixed_text f).
Definition mixed_pair (f : mixed) : immutable * option perr := (mixed_msg f, None).

Lemma mixed_accepted f text : length (m_words f) = 6%nat -> Forall word (m_words f) -> Forall sd_element (m_els f) ->
  (m_els f <> [] -> text_safe (SP :: text)) ->
  accepted (join (m_words f) ++ sd_field (m_els f) ++ SP :: text) (mk (join (m_words f) ++ sd_field (m_els f) ++ SP :: text) (mixed_index f) (mixed_text f)).
Proof.
  intros Hl Hw Hf Hs. destruct f as [[ws els] txt]. unfold mixed_index, mixed_text, m_words, m_els, m_txt in *. cbn [fst snd] in *.
  exists ws, (sd_field els ++ SP :: text). split; [exact Hl|]. split; [exact Hw|]. split; [reflexivity|]. split; [reflexivity|].
  destruct els as [|e els].
  - right. left. exists text. split; [reflexivity|]. split; [reflexivity|]. cbn [i_text mk sd_field]. rewrite !app_length. cbn [length bs]. lia.
  - right. right. exists (e :: els), (SP :: text). unfold sd_field. split; [eapply Forall_impl; [|exact Hf]; exact element_scan|]. split; [reflexivity|].
    split; [apply concat_el_late; [discriminate|exact Hf]|]. split; [reflexivity|]. right. split; [discriminate|]. split; [apply Hs; discriminate|].
    cbn [i_text mk]. rewrite !app_length. cbn [length]. lia.
Qed.

Lemma safe_space_text text : text_safe text -> text_safe (SP :: text).
Proof.
  intros [H1 H2]. split.
  - change (SP :: text) with ([SP] ++ text). apply bracket_safe_app; [apply bracket_safe_none; intros [H|[]]; discriminate|exact H1].
  - intros [x E]. destruct x as [|x0 x]; [discriminate|]. injection E as _ E. apply H2. exists x. exact E.
Qed.

Lemma text_safe_app a b : bracket_safe a -> text_safe b -> b <> [] -> text_safe (a ++ b).
Proof.
  intros Ha [Hb1 Hb2] Hne. split; [apply bracket_safe_app; assumption|]. intros [x E]. destruct (exists_last Hne) as (b' & k & ->).
  rewrite app_assoc in E. apply app_inj_tail in E as [_ ->]. apply Hb2. exists b'. reflexivity.
Qed.

Lemma text_safe_nil : text_safe [].
Proof. split; [intros [|? x] y E; discriminate|intros [[|? x] E]; discriminate]. Qed.

Lemma text_safe_one k : k <> RBR -> text_safe [k].
Proof. intros H. split; [apply bracket_safe_none; intros [E|[]]; congruence|intros [[|? [|? x]] E]; injection E; intros; congruence]. Qed.

Lemma safe_cons_delim c past : c <> RBR -> text_safe past -> text_safe (c :: past).
Proof.
  intros Hc Hp. destruct past as [|x past]; [apply text_safe_one; exact Hc|]. change (c :: x :: past) with ([c] ++ (x :: past)).
  apply text_safe_app; [apply text_safe_one; exact Hc|exact Hp|discriminate].
Qed.

Lemma mixed_decodes c f : mixed_of c f -> given f (mixed_pair f).
Proof.
  intros (Hl & Hw & Hf & Hn & Hs). unfold given, mixed_pair, mixed_msg. cbn [fst snd]. unfold mixed_wire.
  split; [apply accepted_parses, mixed_accepted; try assumption; intros H; apply safe_space_text, Hs, H|]. split; [reflexivity|]. split; [reflexivity|].
  unfold mixed_text. replace (join (m_words f) ++ sd_field (m_els f) ++ SP :: m_txt f) with ((join (m_words f) ++ sd_field (m_els f) ++ [SP]) ++ m_txt f)
    by (rewrite <- !app_assoc; reflexivity).
  rewrite text_at. destruct (Nat.eqb_spec (length (join (m_words f) ++ sd_field (m_els f) ++ [SP])) 0) as [E|_]; [|reflexivity].
  exfalso. rewrite !app_length in E. cbn [length] in E. lia.
Qed.

Lemma mixed_complete t c f past eof : delim t = Some c -> mixed_of c f -> (m_els f <> [] -> text_safe past) ->
  parse (mixed_wire f ++ c :: past) (Some t) eof = Val (mixed_msg f, Some past, None).
Proof.
  intros Hc (Hl & Hw & Hf & Hn & Hs) Hp. destruct (delim_char t c Hc) as [Hcr Hcs].
  unfold mixed_wire. rewrite <- !app_assoc. cbn [app].
  assert (Hacc := mixed_accepted f (m_txt f ++ c :: past) Hl Hw Hf).
  match type of Hacc with ?A -> _ => assert (HA : A) end.
  { intros H. rewrite app_comm_cons. apply text_safe_app; [apply safe_space_text, Hs, H|apply safe_cons_delim; auto|discriminate]. }
  specialize (Hacc HA). rewrite (parse_accepted t c _ eof _ Hc Hacc).
  destruct (parse_return_cases _ t c eof _ Hc (proj1 (accepted_text_range _ _ Hacc))) as (pre & tl & Hd & Hpl & Hx).
  { cbn [i_text mk]. unfold mixed_text. rewrite !app_length. cbn [length]. rewrite app_length. cbn [length]. lia. }
  assert (E : pre = join (m_words f) ++ sd_field (m_els f) ++ [SP] /\ tl = m_txt f ++ c :: past).
  { symmetry in Hd. replace (join (m_words f) ++ sd_field (m_els f) ++ SP :: m_txt f ++ c :: past) with ((join (m_words f) ++ sd_field (m_els f) ++ [SP]) ++ m_txt f ++ c :: past) in Hd
      by (rewrite <- !app_assoc; reflexivity).
    apply app_inj_len in Hd; [exact Hd|]. cbn [i_text mk] in Hpl. unfold mixed_text in Hpl. lia. }
  destruct E as [-> ->]. destruct Hx as [(E & _)|[(a & b & E & Ha & ->)|(_ & Hno & _)]].
  - apply app_eq_nil in E as [_ E]. discriminate.
  - apply split_unique in E as [<- <-]; [|assumption..]. unfold mixed_msg, mk, mixed_wire. cbn [i_index i_text]. rewrite <- !app_assoc. reflexivity.
  - exfalso. apply Hno, in_or_app. right; left; reflexivity.
Qed.

(** what is between the header and the delimiter does not contain the delimiter *)
Lemma mixed_no_delim t c f : delim t = Some c -> mixed_of c f -> ~ In c (sd_field (m_els f) ++ SP :: m_txt f).
Proof.
  intros Hc (_ & _ & _ & Hn & Hs) H. destruct (delim_char t c Hc) as [Hcr Hcs]. apply in_app_or in H as [H|[H|H]]; [|congruence|contradiction].
  unfold sd_field in H. destruct (m_els f) as [|e els] eqn:Ee.
  - cbn in H. destruct H as [H|[]]. subst c. destruct t; discriminate.
  - destruct (Hs ltac:(discriminate)) as [_ H']. contradiction.
Qed.

(** a message cut short: Parse panics exactly when it is cut just after its structured data *)
Lemma parse_undelimited t c ws y eof : delim t = Some c -> length ws = 6%nat -> Forall word ws -> ~ In c y ->
  (textless (join ws ++ y) /\ parse (join ws ++ y) (Some t) eof = Panic) \/
  (~ textless (join ws ++ y) /\ exists m e, parse (join ws ++ y) (Some t) eof = Val (m, None, e)).
Proof.
  intros Hc Hl Hw Hn. destruct (parse_none_spec (join ws ++ y) eof) as (m & e & Hp & Hs). destruct e as [e|].
  { right. split.
    - rewrite textless_iff. intros (m' & Ha & _). apply (accepted_parses _ _ eof) in Ha. congruence.
    - destruct (parse_not_accepted t c (join ws ++ y) eof Hc) as [e' He]; [|eauto]. intros m' Ha. apply (accepted_parses _ _ eof) in Ha. congruence. }
  destruct (accepted_text_range _ _ Hs) as [Hb Ht].
  destruct (Z.eq_dec (i_text m) (-1)) as [E|E].
  { left. split; [apply textless_iff; eauto|]. apply (parse_textless t c _ eof m Hc Hs E). }
  right. split.
  { rewrite textless_iff. intros (m' & Ha & Hm'). apply (accepted_parses _ _ eof) in Ha. rewrite Hp in Ha. injection Ha as <-. contradiction. }
  rewrite (parse_accepted t c _ eof m Hc Hs). destruct Ht as [Ht|Ht]; [contradiction|].
  destruct (parse_return_cases m t c eof _ Hc Hb ltac:(lia)) as (pre & tl & Hd & Hpl & Hx).
  destruct Hx as [(_ & ->)|[(a & b & Eb & _)|(_ & _ & ->)]]; [eauto| |eauto]. exfalso. subst tl.
  destruct Hs as (ws' & tail & Hl' & Hw' & Hd' & _ & Hc'). apply join_unique in Hd' as [<- <-]; [|congruence|assumption..].
  assert (Hlen : (length (join ws) <= length pre)%nat).
  { destruct Hc' as [(_ & _ & H)|[(x & _ & _ & H)|(els & tl & _ & _ & _ & _ & [(_ & _ & H)|(_ & _ & H)])]]; lia. }
  apply Hn. destruct (prefix_cases _ _ _ _ Hd) as [(z & Ez & E2)|(z & Ez & -> & _)].
  - destruct z as [|z0 z]; [cbn in E2; rewrite <- E2; apply in_or_app; right; left; reflexivity|].
    rewrite Ez, app_length in Hlen. cbn in Hlen. lia.
  - apply in_or_app. right. apply in_or_app. right. left. reflexivity.
Qed.

Definition cut_after (f : mixed) (data : bytes) : Prop :=
  exists els1 els2, m_els f = els1 ++ els2 /\ (els1 = [] -> m_els f = []) /\ data = join (m_words f) ++ sd_field els1.

Lemma scan_prefix els : forall els' z tl, Forall scan_element els -> Forall scan_element els' -> bracket_safe tl ->
  concat els' ++ z = concat els ++ tl -> exists els2, els = els' ++ els2.
Proof.
  induction els as [|e els IH]; intros [|e' els'] z tl Hf Hf' Hb E.
  - exists []. reflexivity.
  - exfalso. cbn [concat app] in E. inversion Hf' as [|? ? He _]; subst. rewrite <- app_assoc in Hb. exact (scan_not_safe _ _ He Hb).
  - exists (e :: els). reflexivity.
  - inversion Hf; subst. inversion Hf'; subst. cbn [concat] in E. rewrite <- !app_assoc in E. apply scan_unique in E as [-> E]; [|assumption..].
    destruct (IH els' z tl) as [els2 ->]; try assumption. exists els2. reflexivity.
Qed.

Lemma el_first e : sd_element e -> exists r, e = 91%N :: r.
Proof. intros (name & ps & -> & _). eexists. reflexivity. Qed.

Lemma mixed_partial t c f data z eof : delim t = Some c -> mixed_of c f -> data ++ z = mixed_wire f ++ [c] -> z <> [] ->
  (cut_after f data /\ parse data (Some t) eof = Panic) \/ (~ cut_after f data /\ exists m e, parse data (Some t) eof = Val (m, None, e)).
Proof.
  intros Hc Hok E Hz. pose proof (mixed_no_delim t c f Hc Hok) as Hnd. destruct Hok as (Hl & Hw & Hf & Hn & Hs). destruct (delim_char t c Hc) as [Hcr Hcs].
  unfold mixed_wire in E. rewrite <- !app_assoc in E. destruct (prefix_cases _ _ _ _ E) as [(y & -> & Ey)|(y & Ey & _ & Hy)].
  2: { right. split.
       - intros (els1 & els2 & _ & _ & ->). rewrite <- app_assoc in Ey. apply (f_equal (@length N)) in Ey. rewrite !app_length in Ey. destruct y; [congruence|]. cbn in Ey. lia.
       - destruct (parse_not_accepted t c data eof Hc) as [e He]; [|eauto]. intros m Hacc.
         destruct (accepted_tail _ _ Hacc) as (ws' & tail & Hl' & Hw' & -> & Hne).
         rewrite <- app_assoc in Ey. rewrite <- (app_nil_r (join (m_words f))) in Ey. apply join_unique in Ey as [_ Ey]; [|congruence|assumption..].
         symmetry in Ey. apply app_eq_nil in Ey as [Ey _]. contradiction. }
  assert (Hny : ~ In c y).
  { destruct (exists_last Hz) as (z' & k & ->). replace (sd_field (m_els f) ++ (SP :: m_txt f) ++ [c]) with ((sd_field (m_els f) ++ SP :: m_txt f) ++ [c]) in Ey by (rewrite <- !app_assoc; reflexivity).
    rewrite app_assoc in Ey. apply app_inj_tail in Ey as [Ey _]. intros H. apply Hnd. rewrite Ey. apply in_or_app. left. exact H. }
  assert (Hiff : textless (join (m_words f) ++ y) <-> cut_after f (join (m_words f) ++ y)).
  { split.
    - intros (ws' & tail & Hl' & Hw' & Hd & Ht). apply join_unique in Hd as [<- <-]; [|congruence|assumption..].
      destruct (m_els f) as [|e els] eqn:Ee.
      + destruct Ht as [->|(Hls & _)]; [exists [], []; rewrite Ee; auto|]. exfalso. cbn [sd_field] in Ey.
        destruct y as [|y0 [|y1 y]]; [destruct Hls as (x & ? & E0 & _ & Hx); destruct x; discriminate| |].
        * destruct Hls as (x & ? & E0 & _ & Hx). destruct x as [|? [|? ?]]; cbn in Hx; try lia; discriminate.
        * cbn [bs app] in Ey. injection Ey as <- <- _. exact (late_not_dash _ Hls).
      + assert (Hfe : sd_field (e :: els) = concat (e :: els)) by reflexivity. rewrite Hfe in Ey.
        destruct Ht as [->|(Hls & els' & Hf' & Hne & ->)].
        * exfalso. inversion Hf as [|? ? He _]; subst. destruct (el_first e He) as [r ->]. cbn in Ey. discriminate.
        * destruct (scan_prefix (e :: els) els' z (SP :: m_txt f ++ [c])) as [els2 E2]; [eapply Forall_impl; [|exact Hf]; exact element_scan|exact Hf'| |symmetry; exact Ey|].
          { rewrite app_comm_cons. apply bracket_safe_app; [|apply bracket_safe_none; intros [H|[]]; congruence]. apply safe_space_text, Hs. discriminate. }
          exists els', els2. rewrite Ee. split; [exact E2|]. split; [congruence|]. destruct els'; [congruence|reflexivity].
    - intros (els1 & els2 & E1 & H1 & E2). apply app_inv_head in E2. subst y. exists (m_words f), (sd_field els1). split; [exact Hl|]. split; [exact Hw|].
      split; [reflexivity|]. destruct els1 as [|e els1]; [left; reflexivity|]. right. rewrite E1 in Hf. apply Forall_app in Hf as [Hf _].
      split; [rewrite <- (app_nil_r (sd_field _)); apply concat_el_late; [discriminate|exact Hf]|]. exists (e :: els1).
      split; [eapply Forall_impl; [|exact Hf]; exact element_scan|]. split; [discriminate|reflexivity]. }
  rewrite <- Hiff. apply (parse_undelimited t c _ _ eof Hc Hl Hw Hny).
Qed.

(** the message is complete, but what follows ends with an escaped ']': Parse waits *)
Lemma mixed_waits t c f past eof : delim t = Some c -> mixed_of c f -> m_els f <> [] -> ~ text_safe past ->
  bracket_safe past -> exists e, parse (mixed_wire f ++ c :: past) (Some t) eof = Val (zero_immutable, None, e).
Proof.
  intros Hc (Hl & Hw & Hf & Hn & Hs) Hne Hu Hb. apply (parse_not_accepted t c _ eof Hc). intros m (ws & tail & Hl' & Hw' & Hd & _ & Hcs).
  unfold mixed_wire in Hd. rewrite <- !app_assoc in Hd. apply join_unique in Hd as [<- Hd]; [|congruence|assumption..].
  destruct (delim_char t c Hc) as [Hcr _]. destruct (Hs Hne) as [Hts _].
  destruct (m_els f) as [|e els] eqn:Ee; [congruence|]. unfold sd_field in Hd. inversion Hf as [|? ? He Hf1]. subst x l. destruct (el_first e He) as [r Er].
  destruct Hcs as [(-> & _)|[(x & -> & _)|(els' & tl & Hf' & Ht & _ & _ & Hcs)]]; [rewrite Er in Hd; cbn in Hd; discriminate..|]. rewrite Ht in Hd. clear tail Ht.
  assert (Hsafe : bracket_safe (SP :: m_txt f ++ c :: past)).
  { rewrite app_comm_cons. apply bracket_safe_app; [apply safe_space_text, Hts|]. change (c :: past) with ([c] ++ past).
    apply bracket_safe_app; [apply text_safe_one; exact Hcr|exact Hb]. }
  assert (Hse : Forall scan_element (e :: els)) by (eapply Forall_impl; [|exact Hf]; exact element_scan).
  destruct (scan_prefix (e :: els) els' tl (SP :: m_txt f ++ c :: past) Hse Hf' Hsafe (eq_sym Hd)) as [els2 E2].
  rewrite E2, concat_app, <- app_assoc in Hd. apply app_inv_head in Hd. subst tl. destruct Hcs as [(E & _)|(_ & Hx & _)].
  - apply app_eq_nil in E as [_ E]. discriminate.
  - destruct els2 as [|e2 els2].
    + cbn [concat app] in Hx. apply Hu. split; [exact Hb|]. intros [x ->]. apply (proj2 Hx). exists (SP :: m_txt f ++ c :: x). rewrite <- app_comm_cons, <- app_assoc. reflexivity.
    + rewrite E2 in Hse. apply Forall_app in Hse as [_ Hse]. inversion Hse as [|? ? He2 _]; subst. cbn [concat] in Hx. rewrite <- !app_assoc in Hx. exact (scan_not_safe _ _ He2 (proj1 Hx)).
Qed.

(** ... and conversely *)
Lemma mixed_delivered_safe t c f data rest eof : delim t = Some c -> mixed_of c f -> m_els f <> [] ->
  parse data (Some t) eof = Val (mixed_msg f, Some rest, None) -> data = mixed_wire f ++ c :: rest /\ text_safe rest.
Proof.
  intros Hc (Hl & Hw & Hf & Hn & Hs) Hne Hp. destruct (delim_char t c Hc) as [Hcr _].
  destruct (parse_delim_inv t c _ _ _ _ _ Hc Hp) as [(_ & H & _)|(m0 & Hacc & Hi & Ht & pre & tl & Hd & _ & Hpl & [(a & b & Htl & Ha & Hb & Hr & _)|(_ & _ & _ & H & _)])]; try discriminate.
  injection Hr as <-. cbn [i_buf i_index i_text mixed_msg mk] in *. split.
  { rewrite Hd, Htl, app_assoc, <- Hb. reflexivity. }
  destruct Hacc as (ws & tail & Hl' & Hw' & Hd' & _ & Hcs).
  assert (E : data = mixed_wire f ++ c :: rest) by (rewrite Hd, Htl, app_assoc, <- Hb; reflexivity).
  rewrite E in Hd'. unfold mixed_wire in Hd'. rewrite <- !app_assoc in Hd'. apply join_unique in Hd' as [<- Hd']; [|congruence|assumption..].
  unfold mixed_index in Hi. destruct (m_els f) as [|e els] eqn:Ee; [congruence|]. unfold sd_field in Hd'.
  inversion Hf as [|? ? He Hf1]. subst x l. destruct (el_first e He) as [r Er].
  destruct Hcs as [(-> & _)|[(x & -> & _)|(els' & tl' & Hf' & Et & _ & Hi' & Hcs)]]; [rewrite Er in Hd'; cbn in Hd'; discriminate..|].
  rewrite Et in Hd'. rewrite Hi' in Hi. apply app_inv_head in Hi. destruct (el_ends_inj _ _ _ _ _ Hi Hd') as [<- <-].
  destruct Hcs as [(E0 & _)|(_ & [Hx1 Hx2] & _)]; [discriminate|]. split.
  - intros x y ->. destruct (Hx1 (SP :: m_txt f ++ c :: x) y) as [x' Ex]; [cbn [app]; rewrite <- app_assoc; reflexivity|].
    rewrite app_comm_cons in Ex. destruct x as [|x0 x]; [|assert (Hnx : x0 :: x <> []) by discriminate].
    + apply app_inj_tail in Ex as [_ Ex]. subst c. destruct t; discriminate.
    + destruct (exists_last Hnx) as (x2 & k & Ek). rewrite Ek in *. exists x2. f_equal. f_equal.
      change (c :: x2 ++ [k]) with ((c :: x2) ++ [k]) in Ex. rewrite app_assoc in Ex. apply app_inj_tail in Ex as [_ Ex]. exact Ex.
  - intros [x ->]. apply Hx2. exists (SP :: m_txt f ++ c :: x). cbn [app]. rewrite <- app_assoc. reflexivity.
Qed.

(** ** streams *)
Definition mlines (c : N) (fs : list mixed) : bytes := concat (map (fun f => mixed_wire f ++ [c]) fs).

Lemma mlines_app c a b : mlines c (a ++ b) = mlines c a ++ mlines c b.
Proof. unfold mlines. rewrite map_app, concat_app. reflexivity. Qed.
Lemma mlines_cons c f fs : mlines c (f :: fs) = (mixed_wire f ++ [c]) ++ mlines c fs.
Proof. reflexivity. Qed.
Lemma mlines_one c f : mlines c [f] = mixed_wire f ++ [c].
Proof. unfold mlines. cbn [map concat]. apply app_nil_r. Qed.
Lemma mlines_last c fs : fs <> [] -> exists x, mlines c fs = x ++ [c].
Proof. intros H. destruct (exists_last H) as (fs' & f & ->). rewrite mlines_app, mlines_one, app_assoc. eauto. Qed.

(** bytes kept after which the goroutine waits *)
Definition stuck (c : N) (fs : list mixed) (left : bytes) : Prop :=
  left = [] \/ (exists f fs', fs = f :: fs' /\ (length left < length (mixed_wire f ++ [c]))%nat) \/
  (exists f fs' past x, fs = f :: fs' /\ m_els f <> [] /\ left = (mixed_wire f ++ [c]) ++ past /\ bracket_safe past /\ past = x ++ [RBR]).

Definition bad (c : N) (fs : list mixed) (read : bytes) : Prop :=
  exists before f after d, fs = before ++ f :: after /\ cut_after f d /\ read = mlines c before ++ d.

Lemma cut_short f d : cut_after f d -> (length d < length (mixed_wire f))%nat.
Proof.
  intros (els1 & els2 & E & H & ->). unfold mixed_wire. rewrite !app_length. cbn [length].
  assert (Hx : (length (sd_field els1) <= length (sd_field (m_els f)))%nat); [|lia].
  rewrite E in *. destruct els1 as [|e els1]; [cbn [app] in *; rewrite H by reflexivity; lia|]. unfold sd_field. cbn [app concat]. rewrite concat_app, !app_length. lia.
Qed.

Lemma stuck_bad t c fs left : delim t = Some c -> Forall (mixed_of c) fs -> stuck c fs left -> (bad c fs left <-> exists f fs', fs = f :: fs' /\ cut_after f left).
Proof.
  intros Hc Hok Hst. destruct (delim_char t c Hc) as [Hcr _]. split.
  2: { intros (f & fs' & -> & H). exists [], f, fs', left. auto. }
  intros (before & f & after & d & -> & Hd & ->). destruct before as [|b before]; [exists f, after; auto|]. exfalso.
  destruct Hst as [E|[(f0 & fs' & E & Hlt)|(f0 & fs' & past & x & E & Hne & El & Hb & Ep)]].
  - rewrite mlines_cons in E. apply app_eq_nil in E as [E _]. apply app_eq_nil in E as [E _]. apply app_eq_nil in E as [_ E]. discriminate.
  - injection E as <- _. rewrite mlines_cons, !app_length in Hlt. cbn in Hlt. lia.
  - injection E as <- _. rewrite mlines_cons, <- app_assoc in El. apply app_inv_head in El.
    destruct Hd as (els1 & els2 & E1 & H1 & ->). destruct els1 as [|e els1].
    + cbn [sd_field] in El. rewrite Ep, !app_assoc in El. apply app_inj_tail in El as [_ El]. discriminate.
    + assert (He : e :: els1 <> []) by discriminate. destruct (exists_last He) as (es & e' & Ee). rewrite Ee in *.
      assert (Hs : scan_element e').
      { apply Forall_app in Hok as [_ Hok]. inversion Hok as [|? ? (_ & _ & Hf & _) _]; subst. rewrite E1 in Hf. apply Forall_app in Hf as [Hf _].
        apply Forall_app in Hf as [_ Hf]. inversion Hf. apply element_scan. assumption. }
      assert (Efield : sd_field (es ++ [e']) = concat es ++ e').
      { unfold sd_field. rewrite <- Ee. rewrite Ee, concat_app. cbn [concat]. rewrite app_nil_r. reflexivity. }
      rewrite Efield in El. destruct Hs as (body & -> & _).
      destruct (Hb (mlines c before ++ join (m_words f) ++ concat es ++ body ++ [QUO]) []) as [x' Ex].
      { rewrite <- El, <- !app_assoc. reflexivity. }
      rewrite !app_assoc in Ex. apply app_inj_tail in Ex as [_ Ex]. discriminate.
Qed.

Lemma stuck_not_clear t c fs left before f after past : delim t = Some c -> stuck c fs left -> fs = before ++ f :: after -> left = mlines c (before ++ [f]) ++ past -> ~ text_safe past.
Proof.
  intros Hc Hst Ef El Hs. destruct (delim_char t c Hc) as [Hcr _].
  destruct Hst as [E|[(f0 & fs' & E & Hlt)|(f0 & fs' & past0 & x & E & Hne & El0 & Hb & Ep)]].
  - rewrite E in El. symmetry in El. apply app_eq_nil in El as [El _]. destruct (mlines_last c (before ++ [f])) as [y Ey]; [destruct before; discriminate|].
    rewrite Ey in El. destruct y; discriminate.
  - assert (Hle : (length (mixed_wire f0 ++ [c]) <= length left)%nat); [|lia]. rewrite El, mlines_app, !app_length.
    rewrite Ef in E. destruct before as [|b before]; cbn [app] in E; injection E as <- _.
    + rewrite mlines_one, app_length. cbn [mlines map concat length]. lia.
    + rewrite mlines_cons, !app_length. lia.
  - rewrite Ep, app_assoc in El0. destruct past as [|p past].
    + rewrite app_nil_r in El. destruct (mlines_last c (before ++ [f])) as [y Ey]; [destruct before; discriminate|].
      rewrite El, Ey in El0. apply app_inj_tail in El0 as [_ E0]. contradiction.
    + assert (Hp : p :: past <> []) by discriminate. destruct (exists_last Hp) as (q & k & Ek). rewrite Ek in *. rewrite El, app_assoc in El0.
      apply app_inj_tail in El0 as [_ E0]. subst k. apply (proj2 Hs). exists q. reflexivity.
Qed.

Lemma mixed_dec : forall past : bytes, text_safe past \/ (bracket_safe past /\ exists x, past = x ++ [RBR]) \/ ~ bracket_safe past.
Proof.
  intros past. destruct (text_safe_dec past) as [H|H]; [left; exact H|]. right.
  destruct (bracket_safe_dec_n (length past) past (le_n _)) as [Hb|Hb]; [|right; exact Hb]. left. split; [exact Hb|].
  destruct past as [|p past]; [exfalso; apply H, text_safe_nil|]. assert (Hp : p :: past <> []) by discriminate. destruct (exists_last Hp) as (q & k & Ek). rewrite Ek in *.
  destruct (N.eq_dec k RBR) as [->|Hk]; [eauto|]. exfalso. apply H. split; [exact Hb|]. intros [x E]. apply app_inj_tail in E as [_ E]. contradiction.
Qed.

Lemma inner_mixed t c fuel : forall fs data unread eof, delim t = Some c -> Forall (mixed_of c) fs -> data ++ unread = mlines c fs -> data <> [] ->
  (length data < fuel)%nat ->
  (forall before f after past, fs = before ++ f :: after -> m_els f <> [] -> data = mlines c (before ++ [f]) ++ past -> bracket_safe past) ->
  exists fs1 fs2 left r, tok_inner fuel t eof data = (map mixed_pair fs1, r) /\ fs = fs1 ++ fs2 /\
    left ++ unread = mlines c fs2 /\ data = mlines c fs1 ++ left /\ stuck c fs2 left /\
    ((bad c fs2 left /\ r = Panic) \/ (~ bad c fs2 left /\ r = Val left)).
Proof.
  induction fuel as [|fu IH]; intros fs data unread eof Hc Hok Hs Hne Hf Hsafe; [lia|]. cbn [tok_inner].
  destruct fs as [|f fs]; [cbn in Hs; apply app_eq_nil in Hs as [-> _]; congruence|].
  inversion Hok as [|? ? Hl Hok']; subst. pose proof Hs as Hs0. rewrite mlines_cons in Hs.
  destruct (prefix_cases _ _ _ _ Hs) as [(z & -> & Hz)|(z & Hz & -> & Hzne)].
  - assert (Hcase : (m_els f <> [] -> text_safe z) \/ (m_els f <> [] /\ bracket_safe z /\ exists x, z = x ++ [RBR])).
    { destruct (m_els f) as [|e els] eqn:Ee; [left; congruence|].
      assert (Hb : bracket_safe z).
      { apply (Hsafe [] f fs z); [reflexivity|rewrite Ee; discriminate|]. cbn [app]. rewrite mlines_one. reflexivity. }
      destruct (mixed_dec z) as [H|[[_ H]|H]]; [left; auto|right; split; [discriminate|auto]|contradiction]. }
    destruct Hcase as [Hsz|(Hels & Hb & x & Ex)].
    + rewrite <- app_assoc. cbn [app]. rewrite (mixed_complete t c f z eof Hc Hl Hsz).
      destruct (Nat.eqb_spec (length z) 0) as [E0|E0].
      * apply length_zero_iff_nil in E0 as ->. exists [f], fs, [], (Val []). split; [reflexivity|]. split; [reflexivity|].
        split; [symmetry; exact Hz|]. split; [rewrite mlines_one, app_nil_r; reflexivity|]. split; [left; reflexivity|]. right. split; [|reflexivity].
        rewrite (stuck_bad t c fs [] Hc Hok' (or_introl eq_refl)). intros (f' & fs' & -> & els1 & els2 & _ & _ & E).
        inversion Hok' as [|? ? (Hl' & _) _]; subst. destruct (m_words f') as [|w ws]; [discriminate|]. rewrite join_cons in E. destruct w; discriminate.
      * destruct (IH fs z unread eof Hc Hok' (eq_sym Hz)) as (fs1 & fs2 & left & r & Hi & -> & Hlu & Hd & Hst & Hr).
        { intros ->. apply E0. reflexivity. }
        { rewrite !app_length in Hf. cbn in Hf. lia. }
        { intros before f' after past -> Hne' Ez. apply (Hsafe (f :: before) f' after past); [reflexivity|exact Hne'|].
          cbn [app]. rewrite mlines_cons, Ez, <- !app_assoc. reflexivity. }
        rewrite Hi. exists (f :: fs1), fs2, left, r. split; [reflexivity|]. split; [reflexivity|]. split; [exact Hlu|].
        split; [rewrite mlines_cons, <- !app_assoc, <- Hd; reflexivity|]. auto.
    + assert (Hst : stuck c (f :: fs) ((mixed_wire f ++ [c]) ++ z)).
      { right. right. exists f, fs, z, x. auto. }
      destruct (mixed_waits t c f z eof Hc Hl Hels) as [e He]; [|exact Hb|].
      { intros [_ H]. apply H. eauto. }
      rewrite <- app_assoc. cbn [app]. rewrite He. exists [], (f :: fs), (mixed_wire f ++ c :: z), (Val (mixed_wire f ++ c :: z)).
      split; [reflexivity|]. split; [reflexivity|]. assert (Ea : (mixed_wire f ++ [c]) ++ z = mixed_wire f ++ c :: z) by (rewrite <- app_assoc; reflexivity). rewrite Ea in Hs0, Hst. split; [exact Hs0|]. split; [reflexivity|]. split; [exact Hst|].
      right. split; [|reflexivity]. rewrite (stuck_bad t c (f :: fs) _ Hc Hok Hst). intros (f' & fs' & E & Hcut). injection E as <- <-. apply cut_short in Hcut.
      rewrite app_length in Hcut. cbn in Hcut. lia.
  - assert (Hst : stuck c (f :: fs) data).
    { right. left. exists f, fs. split; [reflexivity|]. rewrite Hz, app_length. destruct z; [congruence|]. cbn. lia. }
    pose proof (stuck_bad t c (f :: fs) data Hc Hok Hst) as Hbad.
    destruct (mixed_partial t c f data z eof Hc Hl (eq_sym Hz) Hzne) as [(E & Hp)|(E & m & e & Hp)]; rewrite Hp.
    + exists [], (f :: fs), data, Panic. split; [reflexivity|]. split; [reflexivity|]. split; [exact Hs0|]. split; [reflexivity|]. split; [exact Hst|].
      left. split; [apply Hbad; eauto|reflexivity].
    + exists [], (f :: fs), data, (Val data). split; [reflexivity|]. split; [reflexivity|]. split; [exact Hs0|]. split; [reflexivity|]. split; [exact Hst|].
      right. split; [|reflexivity]. rewrite Hbad. intros (f' & fs' & Ef & Hcut). injection Ef as <- <-. contradiction.
Qed.

Lemma app_split_list {A} (a : list A) : forall b x c d, a ++ b = c ++ x :: d -> (exists u, c = a ++ u) \/ (exists v, a = c ++ x :: v).
Proof.
  induction a as [|y a IH]; intros b x [|z c] d E; cbn [app] in E.
  - left. exists []. reflexivity.
  - left. exists (z :: c). reflexivity.
  - injection E as -> _. right. exists a. reflexivity.
  - injection E as -> E. destruct (IH _ _ _ _ E) as [(u & ->)|(v & ->)]; [left; exists u; reflexivity|right; exists v; reflexivity].
Qed.

Lemma mbad_shift c fs1 fs2 r : bad c (fs1 ++ fs2) (mlines c fs1 ++ r) <-> bad c fs2 r.
Proof.
  split.
  - intros (before & f & after & d & E & Hd & Er). destruct (app_split_list _ _ _ _ _ E) as [(u & ->)|(v & ->)].
    + rewrite <- app_assoc in E. apply app_inv_head in E. rewrite mlines_app, <- app_assoc in Er. apply app_inv_head in Er. exists u, f, after, d. auto.
    + exfalso. rewrite mlines_app, <- app_assoc in Er. apply app_inv_head in Er. rewrite mlines_cons in Er. apply (f_equal (@length N)) in Er.
      apply cut_short in Hd. rewrite !app_length in Er. lia.
  - intros (before & f & after & d & -> & Hd & ->). exists (fs1 ++ before), f, after, d. rewrite mlines_app, <- !app_assoc. auto.
Qed.

Definition clear_from (c : N) (fs : list mixed) (pend : bytes) (reads : list (bytes * option read_err)) : Prop :=
  forall before f after, fs = before ++ f :: after -> m_els f <> [] ->
    exists n past, pend ++ stream (firstn n reads) = mlines c (before ++ [f]) ++ past /\ text_safe past.

Lemma run_mixed t c reads : forall st fs, delim t = Some c -> Forall (mixed_of c) fs -> t_pending st ++ stream reads = mlines c fs ->
  stuck c fs (t_pending st) -> ~ bad c fs (t_pending st) -> clear_from c fs (t_pending st) reads -> eof_last reads ->
  ((exists n, bad c fs (t_pending st ++ stream (firstn n reads))) /\ o_next (tok_run t st reads) = TCrash /\ (length (o_sent (tok_run t st reads)) < length fs)%nat) \/
  ((forall n, ~ bad c fs (t_pending st ++ stream (firstn n reads))) /\
   o_sent (tok_run t st reads) = map mixed_pair fs /\ o_errs (tok_run t st reads) = read_errors reads /\
   if ended reads then o_next (tok_run t st reads) = TReturn []
   else exists st', o_next (tok_run t st reads) = TCont st' /\ t_pending st' = []).
Proof.
  induction reads as [|[chunk err] more IH]; intros st fs Hc Hok Hs Hcut Hnb Hclr Hl; cbn [tok_run].
  - right. unfold stream in *. cbn in Hs. rewrite app_nil_r in Hs. split; [intros n; rewrite firstn_nil; cbn; rewrite app_nil_r; exact Hnb|].
    assert (E : fs = []).
    { destruct fs as [|f fs]; [reflexivity|]. exfalso. destruct (mlines_last c (f :: fs)) as [y Ey]; [discriminate|]. destruct Hcut as [E|[(f' & fs' & E & Hlt)|(f' & fs' & past & x & E & _ & El & _ & Ep)]].
      - rewrite Hs, Ey in E. destruct y; discriminate.
      - injection E as <- <-. rewrite Hs, mlines_cons, !app_length in Hlt. cbn in Hlt. lia.
      - rewrite Hs, Ey, Ep, app_assoc in El. apply app_inj_tail in El as [_ El]. destruct (delim_char t c Hc). contradiction. }
    subst fs. cbn. split; [reflexivity|]. split; [reflexivity|]. exists st. auto.
  - cbn [eof_last] in Hl. destruct Hl as [Hl1 Hl2]. unfold stream in Hs. cbn [map fst concat] in Hs. fold (stream more) in Hs.
    assert (Hst : forall n, stream (firstn (S n) ((chunk, err) :: more)) = chunk ++ stream (firstn n more)) by reflexivity.
    assert (Hclr' : forall before f after, fs = before ++ f :: after -> m_els f <> [] ->
              exists n past, (t_pending st ++ chunk) ++ stream (firstn n more) = mlines c (before ++ [f]) ++ past /\ text_safe past).
    { intros before f after E Hne. destruct (Hclr before f after E Hne) as ([|n] & past & En & Hp).
      - exfalso. unfold stream in En. cbn in En. rewrite app_nil_r in En. exact (stuck_not_clear t c fs _ before f after past Hc Hcut E En Hp).
      - exists n, past. rewrite Hst, app_assoc in En. auto. }
    destruct (chunk) as [|x chunk'] eqn:Ech.
    + rewrite step_empty. cbn [o_next o_sent o_errs]. cbn [app] in Hs. unfold read_errors. cbn [ended existsb snd map concat]. fold (ended more). fold (read_errors more).
      rewrite app_nil_r in Hclr'. change (clear_from c fs (t_pending st) more) in Hclr'.
      destruct (is_eof err) eqn:Ee.
      * specialize (Hl1 eq_refl). subst more. cbn [orb o_next o_sent o_errs].
        destruct (IH st fs Hc Hok Hs Hcut Hnb Hclr' I) as [((n & Hb) & _)|(Hno & Hsent & _ & st' & Hn & Hp)].
        { exfalso. rewrite firstn_nil in Hb. cbn in Hb. rewrite app_nil_r in Hb. contradiction. }
        right. split; [intros n; destruct n; [exact (Hno 0%nat)|rewrite Hst, firstn_nil; exact (Hno 0%nat)]|]. cbn in Hsent, Hn. injection Hn as <-.
        split; [exact Hsent|]. split; [cbn; rewrite app_nil_r; reflexivity|]. rewrite Hp. reflexivity.
      * cbn [orb o_next o_sent o_errs app]. destruct (IH st fs Hc Hok Hs Hcut Hnb Hclr' Hl2) as [((n & Hb) & Hn & Hlen)|(Hno & Hsent & Her & Hn)].
        -- left. split; [|split; [exact Hn|exact Hlen]]. exists (S n). rewrite Hst. exact Hb.
        -- right. split; [intros [|n]; [exact (Hno 0%nat)|rewrite Hst; exact (Hno n)]|]. split; [exact Hsent|]. split; [f_equal; exact Her|exact Hn].
    + rewrite <- Ech in *. assert (Hne : chunk <> []) by congruence. clear Ech x chunk'. rewrite app_assoc in Hs.
      destruct (inner_mixed t c (S (length (t_pending st ++ chunk))) fs (t_pending st ++ chunk) (stream more) (is_eof err) Hc Hok Hs)
        as (fs1 & fs2 & left & r & Hi & -> & Hlu & Hd & Hcut' & Hr); [intros E; apply app_eq_nil in E as [_ E]; contradiction|apply Nat.lt_succ_diag_r| |].
      { intros before f after past E Hne' Ed. destruct (Hclr' before f after E Hne') as (n & past' & En & Hp). rewrite Ed, <- app_assoc in En. apply app_inv_head in En.
        destruct Hp as [Hp _]. rewrite <- En in Hp. exact (bracket_safe_cut _ _ Hp). }
      destruct (step_nonempty t st chunk err _ _ Hne Hi) as [Hsent Hnext]. pose proof (step_errs t st chunk err) as Herr.
      pose proof Hok as Hok0. rewrite Forall_app in Hok. destruct Hok as [Hok1 Hok2].
      assert (Hshift : forall n, bad c (fs1 ++ fs2) (t_pending st ++ stream (firstn (S n) ((chunk, err) :: more))) <->
                        bad c fs2 (left ++ stream (firstn n more))).
      { intros n. rewrite Hst, app_assoc, Hd, <- app_assoc. apply mbad_shift. }
      assert (Hclr2 : clear_from c fs2 left more).
      { intros before f after -> Hne'. destruct (Hclr' (fs1 ++ before) f after) as (n & past & En & Hp); [rewrite <- app_assoc; reflexivity|exact Hne'|].
        exists n, past. split; [|exact Hp]. rewrite Hd, <- !app_assoc, mlines_app, <- app_assoc in En. apply app_inv_head in En. exact En. }
      unfold read_errors. cbn [ended existsb snd map concat]. fold (ended more). fold (read_errors more).
      destruct Hr as [[Hb ->]|[Hnb' ->]]; rewrite Hnext.
      * left. split; [|split; [exact Hnext|]].
        -- exists 1%nat. apply (Hshift 0%nat). cbn. rewrite app_nil_r. exact Hb.
        -- rewrite Hsent, map_length, app_length. destruct Hb as (before & f & after & d & -> & _). rewrite app_length. cbn. lia.
      * destruct (is_eof err) eqn:Ee.
        -- specialize (Hl1 eq_refl). subst more. right. cbn [orb].
           destruct (IH {| t_pending := left; t_buflen := 0 |} fs2 Hc Hok2) as [((n & Hb) & _)|(Hno & Hs2 & _ & st' & Hn & Hp)]; try assumption; try exact I.
           { exfalso. rewrite firstn_nil in Hb. cbn in Hb. rewrite app_nil_r in Hb. contradiction. }
           cbn in Hn. injection Hn as <-. cbn in Hp. subst left. cbn in Hs2. symmetry in Hs2. apply map_eq_nil in Hs2. subst fs2.
           split; [|rewrite Hsent, Hnext, Herr, !app_nil_r; auto].
           intros [|n]; [unfold stream; cbn [firstn map concat]; rewrite (app_nil_r (t_pending st)); exact Hnb|rewrite Hshift; exact (Hno n)].
        -- cbn [orb o_sent o_next o_errs].
           match goal with |- context [tok_run t ?s more] => destruct (IH s fs2 Hc Hok2) as [((n & Hb) & Hn & Hlen)|(Hno & Hs2 & Her2 & Hn)]; try assumption end.
           ++ left. split; [|split; [exact Hn|]]. { exists (S n). apply Hshift. exact Hb. }
              rewrite (app_length (o_sent _)), Hsent, map_length, (app_length fs1 fs2). apply Nat.add_lt_mono_l. exact Hlen.
           ++ right. split; [intros [|n]; [unfold stream; cbn [firstn map concat]; rewrite (app_nil_r (t_pending st)); exact Hnb|rewrite Hshift; exact (Hno n)]|].
              rewrite Hsent, map_app, Herr. split; [f_equal; exact Hs2|]. split; [f_equal; exact Her2|exact Hn].
Qed.

(** ** which Parse gave each pair delivered *)
Lemma parse_consumes t c data eof m rest e : delim t = Some c -> parse data (Some t) eof = Val (m, Some rest, e) -> data = i_buf m ++ c :: rest.
Proof.
  intros Hc Hp.
  destruct (parse_delim_inv t c _ _ _ _ _ Hc Hp) as [(_ & H & _)|(m0 & Hacc & Hi & Ht & pre & tl & Hd & _ & Hpl & [(a & b & Htl & Ha & Hb & Hr & _)|(_ & _ & _ & H & _)])]; try discriminate.
  injection Hr as <-. rewrite Hd, Htl, Hb, app_assoc. reflexivity.
Qed.

Definition consumed (c : N) (ps : list (immutable * option perr)) : bytes := concat (map (fun p => i_buf (fst p) ++ [c]) ps).

Lemma inner_trace t c fuel : forall eof data sent r pre p post, delim t = Some c -> tok_inner fuel t eof data = (sent, r) ->
  (sent = pre ++ p :: post -> exists d rest, data = consumed c pre ++ d /\ parse d (Some t) eof = Val (fst p, Some rest, snd p)) /\
  (forall d, r = Val d -> data = consumed c sent ++ d).
Proof.
  induction fuel as [|f IH]; intros eof data sent r pre p post Hc H; cbn [tok_inner] in H.
  { injection H as <- <-. split; [intros E; destruct pre; discriminate|discriminate]. }
  destruct (parse data (Some t) eof) as [[[m [rest|]] e]| |] eqn:Ep.
  2-4: injection H as <- <-; split; [intros E; destruct pre; discriminate|intros d Ed; try discriminate; injection Ed as <-; reflexivity].
  assert (Hcons := parse_consumes t c _ _ _ _ _ Hc Ep).
  destruct (Nat.eqb_spec (length rest) 0) as [E0|E0].
  - injection H as <- <-. split.
    + intros E. destruct pre as [|q pre]; [|injection E as _ E; destruct pre; discriminate]. injection E as <- _. exists data, rest. auto.
    + intros d Ed. injection Ed as <-. apply length_zero_iff_nil in E0 as ->. unfold consumed. cbn [map concat fst]. rewrite !app_nil_r. exact Hcons.
  - destruct (tok_inner f t eof rest) as [sent' r'] eqn:Ei. injection H as <- <-. split.
    + intros E. destruct pre as [|q pre]; injection E as <- E.
      * exists data, rest. auto.
      * destruct (proj1 (IH eof rest sent' r' pre p post Hc Ei) E) as (d & rest' & Hd & Hp). exists d, rest'. split; [|exact Hp].
        rewrite Hcons. unfold consumed. cbn [map concat fst]. rewrite <- !app_assoc. cbn [app]. do 2 f_equal. exact Hd.
    + intros d Ed. rewrite Hcons. unfold consumed. cbn [map concat fst]. rewrite <- !app_assoc. cbn [app]. do 2 f_equal.
      exact (proj2 (IH eof rest sent' r' pre p post Hc Ei) d Ed).
Qed.

Lemma run_trace t c reads : forall st pre p post, delim t = Some c -> o_sent (tok_run t st reads) = pre ++ p :: post ->
  exists n d rest eof, t_pending st ++ stream (firstn n reads) = consumed c pre ++ d /\ parse d (Some t) eof = Val (fst p, Some rest, snd p).
Proof.
  induction reads as [|[chunk err] more IH]; intros st pre p post Hc H; cbn [tok_run] in H; [destruct pre; discriminate|].
  assert (Hst : forall n, stream (firstn (S n) ((chunk, err) :: more)) = chunk ++ stream (firstn n more)) by reflexivity.
  destruct chunk as [|x chunk'] eqn:Ech.
  - rewrite step_empty in H. cbn [o_next o_sent] in H. destruct (is_eof err); cbn [o_sent app] in H; [destruct pre; discriminate|].
    destruct (IH st pre p post Hc H) as (n & d & rest & eof & E & Hp). exists (S n), d, rest, eof. rewrite Hst. auto.
  - rewrite <- Ech in *. assert (Hne : chunk <> []) by congruence. clear Ech x chunk'.
    destruct (tok_inner (S (length (t_pending st ++ chunk))) t (is_eof err) (t_pending st ++ chunk)) as [sent r] eqn:Ei.
    destruct (step_nonempty t st chunk err sent r Hne Ei) as [Hsent Hnext].
    assert (Hhere : forall post', sent = pre ++ p :: post' ->
      exists n d rest eof, t_pending st ++ stream (firstn n ((chunk, err) :: more)) = consumed c pre ++ d /\ parse d (Some t) eof = Val (fst p, Some rest, snd p)).
    { intros post' E. destruct (proj1 (inner_trace t c _ _ _ _ _ pre p post' Hc Ei) E) as (d & rest & Hd & Hp). exists 1%nat, d, rest, (is_eof err).
      rewrite Hst. unfold stream at 1. cbn [firstn map concat]. rewrite app_nil_r. auto. }
    destruct (o_next (tok_step t st chunk err)) as [st'|l|] eqn:En; [|rewrite Hsent in H; exact (Hhere post H)..].
    cbn [o_sent] in H. rewrite Hsent in H.
    destruct (app_split_list _ _ _ _ _ H) as [(u & ->)|(v & Ev)]; [|exact (Hhere v Ev)].
    rewrite <- app_assoc in H. apply app_inv_head in H. destruct (IH st' u p post Hc H) as (n & d & rest & eof & E & Hp).
    exists (S n), d, rest, eof. split; [|exact Hp]. rewrite Hst, app_assoc.
    destruct r as [left| |]; try discriminate. destruct (is_eof err); [discriminate|]. injection Hnext as Est. subst st'. cbn [t_pending] in E.
    rewrite (proj2 (inner_trace t c _ _ _ _ _ [] p [] Hc Ei) left eq_refl). unfold consumed in *. rewrite map_app, concat_app, <- !app_assoc, E. reflexivity.
Qed.

(** ** the theorems *)
Lemma mixed_frames t c fs : delim t = Some c -> concat (map (encode t) (map mixed_wire fs)) = mlines c fs.
Proof. intros Hc. unfold mlines. rewrite map_map. f_equal. apply map_ext. intros f. destruct t; try discriminate; injection Hc as <-; reflexivity. Qed.

Lemma mixed_stops t c fs reads : delim t = Some c -> (stops_after_data t fs reads <-> exists n, bad c fs (stream (firstn n reads))).
Proof.
  intros Hc. split.
  - intros (n & before & f & after & els1 & els2 & E & E1 & H1 & Es). exists n, before, f, after, (join (m_words f) ++ sd_field els1).
    rewrite (mixed_frames t c before Hc) in Es. split; [exact E|]. split; [exists els1, els2; auto|exact Es].
  - intros (n & before & f & after & d & E & (els1 & els2 & E1 & H1 & ->) & Es). exists n, before, f, after, els1, els2.
    rewrite (mixed_frames t c before Hc). auto.
Qed.

Lemma mixed_clear t c fs reads : delim t = Some c -> (clear_after t fs reads <-> clear_from c fs [] reads).
Proof.
  intros Hc. split; intros H before f after E Hne; destruct (H before f after E Hne) as (n & past & En & Hp); exists n, past; (split; [|exact Hp]).
  - rewrite (mixed_frames t c _ Hc) in En. exact En.
  - rewrite (mixed_frames t c _ Hc). exact En.
Qed.

Lemma mixed_start t c fs : delim t = Some c -> Forall (mixed_of c) fs -> ~ bad c fs [].
Proof.
  intros Hc Hok. rewrite (stuck_bad t c fs [] Hc Hok (or_introl eq_refl)). intros (f & fs' & -> & els1 & els2 & _ & _ & E).
  inversion Hok as [|? ? (Hl & _) _]; subst. destruct (m_words f) as [|w ws]; [discriminate|]. rewrite join_cons in E. destruct w; discriminate.
Qed.

Lemma mixed_run t c fs reads : delim t = Some c -> Forall (mixed_of c) fs ->
  stream reads = concat (map (encode t) (map mixed_wire fs)) -> eof_last reads -> clear_after t fs reads ->
  (stops_after_data t fs reads /\ o_next (tok_run t tok_init reads) = TCrash /\ (length (o_sent (tok_run t tok_init reads)) < length fs)%nat) \/
  (~ stops_after_data t fs reads /\ o_sent (tok_run t tok_init reads) = map mixed_pair fs /\ o_errs (tok_run t tok_init reads) = read_errors reads /\
   if ended reads then o_next (tok_run t tok_init reads) = TReturn []
   else exists st', o_next (tok_run t tok_init reads) = TCont st' /\ t_pending st' = []).
Proof.
  intros Hc Hok Hs Hl Hclr. rewrite (mixed_frames t c fs Hc) in Hs. rewrite (mixed_stops t c fs reads Hc). apply (mixed_clear t c fs reads Hc) in Hclr.
  destruct (run_mixed t c reads tok_init fs Hc Hok Hs) as [H|H]; [left; reflexivity|exact (mixed_start t c fs Hc Hok)|exact Hclr|exact Hl|left; exact H|].
  right. destruct H as [H1 H2]. split; [intros [n Hn]; exact (H1 n Hn)|exact H2].
Qed.

Lemma given_pair c f p : mixed_of c f -> given f p -> p = mixed_pair f.
Proof.
  intros Hok (H & Hn & _). destruct (mixed_decodes c f Hok) as (H' & _). rewrite H in H'. injection H' as E. destruct p as [q e]. cbn [fst snd] in *. subst e q. reflexivity.
Qed.

(** Every message is delivered, in order, without error, if and only if no read stops just after the
    structured data field (or one of its elements) of a message and, after each message with
    structured data, some read stops before an unescaped ']'. *)
Theorem C34_mixed_iff : forall t c fs reads, delimiter t = Some c -> Forall (mixed_of c) fs ->
  stream reads = concat (map (encode t) (map mixed_wire fs)) -> eof_last reads ->
  (Forall2 given fs (o_sent (tok_run t tok_init reads)) <-> ~ stops_after_data t fs reads /\ clear_after t fs reads).
Proof.
  intros t c fs reads Hc Hok Hs Hl. rewrite delimiter_delim in Hc. split.
  - intros H2.
    assert (Hsent : o_sent (tok_run t tok_init reads) = map mixed_pair fs).
    { clear -H2 Hok. revert H2. generalize (o_sent (tok_run t tok_init reads)). induction Hok as [|f fs Hf Hok IH]; intros sent H2; inversion H2; subst; [reflexivity|].
      cbn [map]. f_equal; [eapply given_pair; eassumption|auto]. }
    assert (Hclr : clear_after t fs reads).
    { intros before f after E Hne. subst fs. rewrite map_app in Hsent. cbn [map] in Hsent.
      destruct (run_trace t c reads tok_init _ _ _ Hc Hsent) as (n & d & rest & eof & En & Hp). cbn [fst snd mixed_pair] in Hp.
      apply Forall_app in Hok as [_ Hok]. inversion Hok as [|? ? Hf _]; subst.
      destruct (mixed_delivered_safe t c f d rest eof Hc Hf Hne Hp) as [-> Hsafe]. exists n, rest. split; [|exact Hsafe].
      rewrite (mixed_frames t c _ Hc), mlines_app, mlines_one, <- !app_assoc. cbn [t_pending tok_init app] in En. rewrite En. unfold consumed, mlines. rewrite map_map. reflexivity. }
    split; [|exact Hclr]. destruct (mixed_run t c fs reads Hc Hok Hs Hl Hclr) as [(_ & _ & Hlt)|(H & _)]; [|exact H].
    rewrite Hsent, map_length in Hlt. lia.
  - intros [Hno Hclr]. destruct (mixed_run t c fs reads Hc Hok Hs Hl Hclr) as [(H & _)|(_ & Hsent & _)]; [contradiction|]. rewrite Hsent.
    clear -Hok. induction Hok as [|f fs Hf Hok IH]; [constructor|]. cbn [map]. constructor; [exact (mixed_decodes c f Hf)|exact IH].
Qed.
Print Assumptions C34_mixed_iff.

(** ... then nothing else is reported and nothing is left; *)
Theorem C34_mixed_end : forall t c fs reads, delimiter t = Some c -> Forall (mixed_of c) fs ->
  stream reads = concat (map (encode t) (map mixed_wire fs)) -> eof_last reads -> ~ stops_after_data t fs reads -> clear_after t fs reads ->
  o_errs (tok_run t tok_init reads) = read_errors reads /\
  if ended reads then o_next (tok_run t tok_init reads) = TReturn []
  else exists st, o_next (tok_run t tok_init reads) = TCont st /\ t_pending st = [].
Proof.
  intros t c fs reads Hc Hok Hs Hl Hno Hclr. rewrite delimiter_delim in Hc.
  destruct (mixed_run t c fs reads Hc Hok Hs Hl Hclr) as [(H & _)|(_ & _ & H)]; [contradiction|exact H].
Qed.
Print Assumptions C34_mixed_end.

(** ... and if only the first condition fails, the process crashes. *)
Theorem C34_mixed_crash : forall t c fs reads, delimiter t = Some c -> Forall (mixed_of c) fs ->
  stream reads = concat (map (encode t) (map mixed_wire fs)) -> eof_last reads -> clear_after t fs reads ->
  (o_next (tok_run t tok_init reads) = TCrash <-> stops_after_data t fs reads).
Proof.
  intros t c fs reads Hc Hok Hs Hl Hclr. rewrite delimiter_delim in Hc.
  destruct (mixed_run t c fs reads Hc Hok Hs Hl Hclr) as [(H & H' & _)|(H & _ & _ & H')]; split; auto; [|contradiction].
  intros E. rewrite E in H'. destruct (ended reads); [discriminate|]. destruct H' as (st & H' & _). discriminate.
Qed.
Print Assumptions C34_mixed_crash.

(** Non-vacuity: three messages, the second with two elements, read in four pieces; the third contains
    an unescaped ']', read after the second message was delivered. *)
Definition mx : list mixed :=
  [(ex_words, [], bs "hello"); (ex_words, [bs "[x@1 k=""v""]"; bs "[x@1 k=""v""]"], bs "hi \] there"); (ex_words, [], bs "a ] b")].
Definition mx_frame (n : nat) : bytes := encode TLFEnded (mixed_wire (nth n mx ([], [], []))).
Definition mx_reads : list (bytes * option read_err) :=
  [(mx_frame 0 ++ firstn 20 (mx_frame 1), None); (skipn 20 (mx_frame 1) ++ firstn 7 (mx_frame 2), Some (ROther 3)); (skipn 7 (mx_frame 2), None); ([], Some REOF)].

Lemma mx_mixed : Forall (mixed_of 10%N) mx.
Proof.
  destruct ex_words_ok as (A & B & C).
  constructor; [|constructor; [|constructor; [|constructor]]]; (split; [exact A|]); (split; [exact B|]).
  - split; [constructor|]. split; [cbn; intros H; repeat (destruct H as [H|H]; [discriminate|]); exact H|]. intros H. exfalso. apply H. reflexivity.
  - split; [constructor; [exact ex_element|constructor; [exact ex_element|constructor]]|]. split; [cbn; intros H; repeat (destruct H as [H|H]; [discriminate|]); exact H|]. intros _.
    split; [|vm_compute; intros H; repeat (destruct H as [H|H]; [discriminate|]); exact H].
    split.
    + change (bs "hi \] there") with ((bs "hi " ++ [BSL; RBR]) ++ bs " there"). apply bracket_safe_app.
      * apply bracket_safe_escaped. cbn. intros H; repeat (destruct H as [H|H]; [discriminate|]); exact H.
      * apply bracket_safe_none. cbn. intros H; repeat (destruct H as [H|H]; [discriminate|]); exact H.
    + intros [x E]. apply (f_equal (fun l => last l 0%N)) in E. rewrite last_last in E. vm_compute in E. discriminate.
  - split; [constructor|]. split; [cbn; intros H; repeat (destruct H as [H|H]; [discriminate|]); exact H|]. intros H. exfalso. apply H. reflexivity.
Qed.

Lemma mx_clear : clear_after TLFEnded mx mx_reads.
Proof.
  intros before f after E Hne. unfold mx in E. destruct before as [|b0 [|b1 [|b2 before]]].
  - injection E as <- <-. exfalso. apply Hne. reflexivity.
  - injection E as <- <- <-. exists 2%nat, (firstn 7 (mx_frame 2)). split; [vm_compute; reflexivity|]. split; [apply bracket_safe_none; vm_compute; intros H; repeat (destruct H as [H|H]; [discriminate|]); exact H|].
    intros [x Ex]. apply (f_equal (fun l => last l 0%N)) in Ex. rewrite last_last in Ex. vm_compute in Ex. discriminate.
  - injection E as <- <- <- <-. exfalso. apply Hne. reflexivity.
  - exfalso. apply (f_equal (@length _)) in E. cbn in E. rewrite app_length in E. cbn in E. lia.
Qed.

Example C34_mixed_nonvacuous : stream mx_reads = concat (map (encode TLFEnded) (map mixed_wire mx)) /\ eof_last mx_reads /\ ~ stops_after_data TLFEnded mx mx_reads /\ clear_after TLFEnded mx mx_reads /\
  map (fun p => imm_text (fst p)) (o_sent (tok_run TLFEnded tok_init mx_reads)) = [Val (bs "hello"); Val (bs "hi \] there"); Val (bs "a ] b")].
Proof.
  assert (Hs : stream mx_reads = concat (map (encode TLFEnded) (map mixed_wire mx))) by (vm_compute; reflexivity).
  assert (He : eof_last mx_reads) by (cbn; repeat split; intros; discriminate).
  split; [exact Hs|]. split; [exact He|]. split; [|split; [exact mx_clear|vm_compute; reflexivity]].
  intros H. apply (proj2 (C34_mixed_crash TLFEnded 10%N mx mx_reads eq_refl mx_mixed Hs He mx_clear)) in H. vm_compute in H. discriminate.
Qed.

(** Both conditions are needed: the same messages, (a) with a read that stops after the first element
    of the second message, (b) in one read, where the ']' of the third message is taken for the end of
    the structured data of the second one. *)
Example C34_mixed_needed :
  o_next (tok_run TLFEnded tok_init [(mx_frame 0 ++ firstn 26 (mx_frame 1), None); (skipn 26 (mx_frame 1) ++ mx_frame 2, None)]) = TCrash /\
  length (o_sent (tok_run TLFEnded tok_init [(mx_frame 0 ++ mx_frame 1 ++ mx_frame 2, None)])) <> 3%nat.
Proof. split; vm_compute; [reflexivity|discriminate]. Qed.
