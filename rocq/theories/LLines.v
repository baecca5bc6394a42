(** LLines.v -- facts about LF / NUL delimited streams used by PropLines.v. *)
From Verif Require Import Base BaseFacts Spec MPriority MHelpers MText MTime MSData MMessage MTransport MParse MTokenize.
From Verif Require Import LPriority LText LAtoi LTime LSData LParse LTransport LRound LResult PropParse PropTransport LTokenize.
From Coq Require Import ZifyBool ZifyNat ZifyN.

Lemma join_unique ws : forall ws' a b, length ws = length ws' -> Forall word ws -> Forall word ws' -> join ws ++ a = join ws' ++ b -> ws = ws' /\ a = b.
Proof.
  induction ws as [|w ws IH]; intros [|w' ws'] a b Hl Hw Hw' E; try discriminate; [auto|].
  inversion Hw as [|? ? [H1 H2] H3]; inversion Hw' as [|? ? [H4 H5] H6]; subst. rewrite !join_cons, <- !app_assoc in E. cbn [app] in E.
  apply split_unique in E as [-> E]; [|assumption..]. injection Hl as Hl. destruct (IH ws' a b Hl H3 H6 E) as [-> ->]. auto.
Qed.

Lemma accepted_tail data m : accepted data m -> exists ws tail, length ws = 6%nat /\ Forall word ws /\ data = join ws ++ tail /\ tail <> [].
Proof.
  intros (ws & tail & Hl & Hw & Hd & _ & Hc). exists ws, tail. split; [exact Hl|]. split; [exact Hw|]. split; [exact Hd|].
  destruct Hc as [(-> & _)|[(x & -> & _)|(els & tl & _ & _ & (x & y & -> & _) & _)]]; [discriminate..|].
  intros E. apply app_eq_nil in E as [_ E]. discriminate.
Qed.

(** a delimited transport and an input that is not a message: nothing *)
Lemma parse_not_accepted t c data eof : delim t = Some c -> (forall m, ~ accepted data m) ->
  exists e, parse data (Some t) eof = Val (zero_immutable, None, e).
Proof.
  intros Hc Hno. destruct data as [|x data'] eqn:Ed; [destruct t; try discriminate; eexists; reflexivity|].
  rewrite <- Ed in *. rewrite (parse_delim_eq t c data eof Hc) by congruence.
  destruct (parse_none_spec data eof) as (m & e & H & Hs). destruct e as [e|]; [|exfalso; exact (Hno _ Hs)].
  destruct (parse_body_core (Some t) eof data None None eof) as [_ H2]. rewrite (H2 _ _ H). eauto.
Qed.

Lemma parse_accepted t c data eof m : delim t = Some c -> accepted data m ->
  parse data (Some t) eof = parse_return m (Some t) eof data None.
Proof.
  intros Hc Hacc. destruct data as [|x data'] eqn:Ed.
  { destruct (accepted_tail _ _ Hacc) as (ws & tail & _ & _ & E & Hne). symmetry in E. apply app_eq_nil in E as [_ E]. contradiction. }
  rewrite <- Ed in *. rewrite (parse_delim_eq t c data eof Hc) by congruence.
  destruct (parse_body_core (Some t) eof data None None eof) as [H1 _]. apply H1, accepted_parses, Hacc.
Qed.

Lemma parse_textless t c data eof m : delim t = Some c -> accepted data m -> i_text m = (-1)%Z -> parse data (Some t) eof = Panic.
Proof. intros Hc Hacc Ht. rewrite (parse_accepted t c data eof m Hc Hacc). unfold parse_return. rewrite Ht. reflexivity. Qed.

(** a message without structured data, with text: six words, '-', a space and the text *)
Definition line (l : list bytes * bytes) : bytes := join (fst l) ++ bs "- " ++ snd l.
Definition lines (c : N) (ls : list (list bytes * bytes)) : bytes := concat (map (fun l => line l ++ [c]) ls).
Definition line_ok (c : N) (l : list bytes * bytes) : Prop := length (fst l) = 6%nat /\ Forall word (fst l) /\ ~ In c (snd l).

Definition line_msg (l : list bytes * bytes) : immutable :=
  mk (line l) (ends 0 (fst l) ++ [(length (join (fst l)) + 1)%nat]) (Z.of_nat (length (join (fst l))) + 2).

Lemma line_accepted ws text : length ws = 6%nat -> Forall word ws ->
  accepted (join ws ++ bs "- " ++ text) (mk (join ws ++ bs "- " ++ text) (ends 0 ws ++ [(length (join ws) + 1)%nat]) (Z.of_nat (length (join ws)) + 2)).
Proof. intros Hl Hw. exists ws, (bs "- " ++ text). repeat split; auto. right. left. exists text. auto. Qed.

Lemma line_decodes c l : line_ok c l -> parse (line l) None true = Val (line_msg l, None, None).
Proof. intros (Hl & Hw & _). apply accepted_parses, line_accepted; assumption. Qed.

Lemma line_complete t c l tail eof : delim t = Some c -> line_ok c l ->
  parse (line l ++ c :: tail) (Some t) eof = Val (line_msg l, Some tail, None).
Proof.
  intros Hc (Hl & Hw & Hn). destruct l as [ws text]. cbn [fst snd] in *. unfold line_msg, line. cbn [fst snd].
  rewrite <- !app_assoc. pose proof (line_accepted ws (text ++ c :: tail) Hl Hw) as Hacc.
  rewrite (parse_accepted t c _ eof _ Hc Hacc).
  destruct (parse_return_cases _ t c eof _ Hc (proj1 (accepted_text_range _ _ Hacc))) as (pre & tl & Hd & Hp & Hx).
  { cbn [i_text mk]. rewrite !app_length. cbn [length bs]. lia. }
  assert (E : pre = join ws ++ bs "- " /\ tl = text ++ c :: tail).
  { rewrite app_assoc in Hd. symmetry in Hd. apply app_inj_len in Hd; [destruct Hd; auto|]. cbn [i_text mk] in Hp. rewrite app_length. cbn [length bs]. lia. }
  destruct E as [-> ->]. destruct Hx as [(E & _)|[(a & b & E & Ha & ->)|(_ & Hno & _)]].
  - apply app_eq_nil in E as [_ E]. discriminate.
  - apply split_unique in E as [<- <-]; [|assumption..]. rewrite <- app_assoc. reflexivity.
  - exfalso. apply Hno, in_or_app. right; left; reflexivity.
Qed.

Lemma line_partial t c l data z eof : delim t = Some c -> line_ok c l -> data ++ z = line l ++ [c] -> z <> [] ->
  (data = join (fst l) ++ bs "-" /\ parse data (Some t) eof = Panic) \/
  (data <> join (fst l) ++ bs "-" /\ exists m e, parse data (Some t) eof = Val (m, None, e)).
Proof.
  intros Hc (Hl & Hw & Hn) E Hz. destruct l as [ws text]. cbn [fst snd] in *. unfold line in E. cbn [fst snd] in E.
  rewrite <- !app_assoc in E. destruct (prefix_cases _ _ _ _ E) as [(y & -> & Ey)|(y & Ey & _ & Hy)].
  2: { right. split.
       - intros ->. rewrite <- app_assoc in Ey. apply (f_equal (@length N)) in Ey. rewrite !app_length in Ey. cbn in Ey. lia.
       - destruct (parse_not_accepted t c data eof Hc) as [e He]; [|eauto]. intros m Hacc.
         destruct (accepted_tail _ _ Hacc) as (ws' & tail & Hl' & Hw' & -> & Hne).
         rewrite <- app_assoc in Ey. rewrite <- (app_nil_r (join ws)) in Ey. apply join_unique in Ey as [_ Ey]; [|congruence|assumption..].
         symmetry in Ey. apply app_eq_nil in Ey as [Ey _]. contradiction. }
  destruct y as [|y0 y].
  { right. rewrite app_nil_r. split.
    - intros Ex. apply (f_equal (@length N)) in Ex. rewrite app_length in Ex. cbn in Ex. lia.
    - destruct (parse_not_accepted t c (join ws) eof Hc) as [e He]; [|eauto]. intros m Hacc.
      destruct (accepted_tail _ _ Hacc) as (ws' & tail & Hl' & Hw' & Ex & Hne).
      rewrite <- (app_nil_r (join ws)) in Ex. apply join_unique in Ex as [_ Ex]; [|congruence|assumption..]. congruence. }
  cbn [bs app] in Ey. injection Ey as <- Ey. destruct y as [|y1 y].
  { left. split; [reflexivity|]. apply (parse_textless t c _ eof (mk (join ws ++ [DASH]) (ends 0 ws ++ [(length (join ws) + 2)%nat]) (-1)) Hc); [|reflexivity].
    exists ws, [DASH]. repeat split; auto. }
  injection Ey as <- Ey. right. split.
  { intros Ex. apply app_inv_head in Ex. discriminate. }
  change (DASH :: SP :: y) with (bs "- " ++ y). pose proof (line_accepted ws y Hl Hw) as Hacc.
  rewrite (parse_accepted t c _ eof _ Hc Hacc).
  destruct (parse_return_cases _ t c eof _ Hc (proj1 (accepted_text_range _ _ Hacc))) as (pre & tl & Hd & Hp & Hx).
  { cbn [i_text mk]. rewrite !app_length. cbn [length bs]. lia. }
  assert (Ex : pre = join ws ++ bs "- " /\ tl = y).
  { rewrite app_assoc in Hd. symmetry in Hd. apply app_inj_len in Hd; [destruct Hd; auto|]. cbn [i_text mk] in Hp. rewrite app_length. cbn [length bs]. lia. }
  destruct Ex as [-> ->]. destruct Hx as [(_ & ->)|[(a & b & Eb & _)|(_ & _ & ->)]]; [eauto| |eauto].
  exfalso. subst y. rewrite <- app_assoc in Ey. cbn [app] in Ey.
  destruct (exists_last Hz) as (z' & k & ->). rewrite app_comm_cons, !app_assoc in Ey. apply app_inj_tail in Ey as [Ey _].
  apply Hn. rewrite Ey. apply in_or_app. left. apply in_or_app. right. left; reflexivity.
Qed.

Definition dash_cut (ls : list (list bytes * bytes)) (left : bytes) : Prop :=
  exists ws text ls', ls = (ws, text) :: ls' /\ left = join ws ++ bs "-".
Definition line_cut (c : N) (ls : list (list bytes * bytes)) (left : bytes) : Prop :=
  left = [] \/ exists l ls', ls = l :: ls' /\ (length left < length (line l ++ [c]))%nat.

Definition line_pair (l : list bytes * bytes) : immutable * option perr := (line_msg l, None).

Lemma lines_app c a b : lines c (a ++ b) = lines c a ++ lines c b.
Proof. unfold lines. rewrite map_app, concat_app. reflexivity. Qed.
Lemma lines_cons c l ls : lines c (l :: ls) = line l ++ [c] ++ lines c ls.
Proof. unfold lines. cbn [map concat]. rewrite <- app_assoc. reflexivity. Qed.

Lemma inner_lines t c fuel : forall ls data unread eof, delim t = Some c -> Forall (line_ok c) ls -> data ++ unread = lines c ls -> data <> [] ->
  (length data < fuel)%nat ->
  exists ls1 ls2 left r, tok_inner fuel t eof data = (map line_pair ls1, r) /\ ls = ls1 ++ ls2 /\
    left ++ unread = lines c ls2 /\ data = lines c ls1 ++ left /\ line_cut c ls2 left /\
    ((dash_cut ls2 left /\ r = Panic) \/ (~ dash_cut ls2 left /\ r = Val left)).
Proof.
  induction fuel as [|f IH]; intros ls data unread eof Hc Hok Hs Hne Hf; [lia|]. cbn [tok_inner].
  destruct ls as [|l ls]; [cbn in Hs; apply app_eq_nil in Hs as [-> _]; congruence|].
  inversion Hok as [|? ? Hl Hok']; subst. pose proof Hs as Hs0. rewrite lines_cons, app_assoc in Hs.
  destruct (prefix_cases _ _ _ _ Hs) as [(z & -> & Hz)|(z & Hz & -> & Hzne)].
  - rewrite <- app_assoc. cbn [app]. rewrite (line_complete t c l z eof Hc Hl).
    destruct (Nat.eqb_spec (length z) 0) as [E0|E0].
    + apply length_zero_iff_nil in E0 as ->. exists [l], ls, [], (Val []). split; [reflexivity|]. split; [reflexivity|].
      split; [symmetry; exact Hz|]. split; [rewrite lines_cons; cbn; rewrite app_nil_r; reflexivity|]. split; [left; reflexivity|]. right. split; [|reflexivity].
      intros (ws & text & ls' & _ & E). destruct (join ws); discriminate.
    + destruct (IH ls z unread eof Hc Hok' (eq_sym Hz)) as (ls1 & ls2 & left & r & Hi & -> & Hlu & Hd & Hcut & Hr).
      { intros ->. apply E0. reflexivity. }
      { rewrite !app_length in Hf. cbn in Hf. lia. }
      rewrite Hi. exists (l :: ls1), ls2, left, r. split; [reflexivity|]. split; [reflexivity|]. split; [exact Hlu|].
      split; [rewrite lines_cons, <- !app_assoc, <- Hd; reflexivity|]. auto.
  - assert (Hcut : line_cut c (l :: ls) data).
    { right. exists l, ls. split; [reflexivity|]. rewrite Hz, app_length. destruct z; [congruence|]. cbn. lia. }
    assert (Hdc : dash_cut (l :: ls) data <-> data = join (fst l) ++ bs "-").
    { split; [intros (ws & text & ls' & E & ->); injection E as -> _; reflexivity|]. intros ->. destruct l as [ws text]. exists ws, text, ls. auto. }
    destruct (line_partial t c l data z eof Hc Hl (eq_sym Hz) Hzne) as [(E & Hp)|(E & m & e & Hp)]; rewrite Hp.
    + exists [], (l :: ls), data, Panic. split; [reflexivity|]. split; [reflexivity|]. split; [exact Hs0|]. split; [reflexivity|]. split; [exact Hcut|].
      left. split; [apply Hdc, E|reflexivity].
    + exists [], (l :: ls), data, (Val data). split; [reflexivity|]. split; [reflexivity|]. split; [exact Hs0|]. split; [reflexivity|]. split; [exact Hcut|].
      right. split; [rewrite Hdc; exact E|reflexivity].
Qed.

(** ** a read boundary just after the '-' of a message *)
Definition bad_boundary (c : N) (ls : list (list bytes * bytes)) (read : bytes) : Prop :=
  exists before ws text after, ls = before ++ (ws, text) :: after /\ read = lines c before ++ join ws ++ bs "-".

Lemma bad_shift c ls1 ls2 r : bad_boundary c (ls1 ++ ls2) (lines c ls1 ++ r) <-> bad_boundary c ls2 r.
Proof.
  split.
  - intros (before & ws & text & after & E & Er).
    assert (Hx : (exists u, before = ls1 ++ u) \/ (exists u v, ls1 = before ++ u :: v)).
    { clear Er. revert ls1 E. induction before as [|b before IH]; intros [|x ls1] E.
      - left. exists []. reflexivity.
      - right. exists x, ls1. reflexivity.
      - left. exists (b :: before). reflexivity.
      - injection E as <- E. destruct (IH _ E) as [(u & ->)|(u & v & ->)]; [left; exists u; reflexivity|right; exists u, v; reflexivity]. }
    destruct Hx as [(u & ->)|(u & v & ->)].
    + rewrite <- app_assoc in E. apply app_inv_head in E. rewrite lines_app, <- app_assoc in Er. apply app_inv_head in Er.
      exists u, ws, text, after. auto.
    + exfalso. rewrite <- app_assoc in E. apply app_inv_head in E. injection E as -> _.
      rewrite lines_app, <- app_assoc in Er. apply app_inv_head in Er. rewrite lines_cons in Er. apply (f_equal (@length N)) in Er.
      unfold line in Er. cbn [fst snd] in Er. rewrite !app_length in Er. cbn in Er. lia.
  - intros (before & ws & text & after & -> & ->). exists (ls1 ++ before), ws, text, after. rewrite lines_app, <- !app_assoc. auto.
Qed.

Lemma dash_bad c ls left : line_cut c ls left -> (dash_cut ls left <-> bad_boundary c ls left).
Proof.
  intros Hc. split.
  - intros (ws & text & ls' & -> & ->). exists [], ws, text, ls'. auto.
  - intros (before & ws & text & after & -> & ->). destruct before as [|b before]; [exists ws, text, after; auto|].
    exfalso. destruct Hc as [E|(l & ls' & E & Hlt)].
    + rewrite lines_cons in E. apply app_eq_nil in E as [E _]. apply app_eq_nil in E as [_ E]. apply app_eq_nil in E as [E _]. discriminate.
    + injection E as <- _. rewrite lines_cons, !app_length in Hlt. cbn in Hlt. lia.
Qed.

Lemma run_lines t c reads : forall st ls, delim t = Some c -> Forall (line_ok c) ls -> t_pending st ++ stream reads = lines c ls ->
  line_cut c ls (t_pending st) -> ~ bad_boundary c ls (t_pending st) -> eof_last reads ->
  ((exists n, bad_boundary c ls (t_pending st ++ stream (firstn n reads))) /\ o_next (tok_run t st reads) = TCrash) \/
  ((forall n, ~ bad_boundary c ls (t_pending st ++ stream (firstn n reads))) /\
   o_sent (tok_run t st reads) = map line_pair ls /\ o_errs (tok_run t st reads) = read_errors reads /\
   if ended reads then o_next (tok_run t st reads) = TReturn []
   else exists st', o_next (tok_run t st reads) = TCont st' /\ t_pending st' = []).
Proof.
  induction reads as [|[chunk err] more IH]; intros st ls Hc Hok Hs Hcut Hnb Hl; cbn [tok_run].
  - right. unfold stream in *. cbn in Hs. rewrite app_nil_r in Hs. split; [intros n; rewrite firstn_nil; cbn; rewrite app_nil_r; exact Hnb|].
    assert (E : ls = []).
    { destruct ls as [|l ls]; [reflexivity|]. exfalso. rewrite Hs, lines_cons in Hcut. destruct Hcut as [E|(l' & ls' & E & Hlt)].
      - apply app_eq_nil in E as [_ E]. discriminate.
      - injection E as <- <-. rewrite !app_length in Hlt. cbn in Hlt. lia. }
    subst ls. cbn. split; [reflexivity|]. split; [reflexivity|]. exists st. auto.
  - cbn [eof_last] in Hl. destruct Hl as [Hl1 Hl2]. unfold stream in Hs. cbn [map fst concat] in Hs. fold (stream more) in Hs.
    assert (Hst : forall n, stream (firstn (S n) ((chunk, err) :: more)) = chunk ++ stream (firstn n more)) by reflexivity.
    destruct (chunk) as [|x chunk'] eqn:Ech.
    + rewrite step_empty. cbn [o_next o_sent o_errs]. cbn [app] in Hs. unfold read_errors. cbn [ended existsb snd map concat]. fold (ended more). fold (read_errors more).
      destruct (is_eof err) eqn:Ee.
      * specialize (Hl1 eq_refl). subst more. cbn [orb o_next o_sent o_errs].
        destruct (IH st ls Hc Hok Hs Hcut Hnb I) as [((n & Hb) & _)|(Hno & Hsent & _ & st' & Hn & Hp)].
        { exfalso. rewrite firstn_nil in Hb. cbn in Hb. rewrite app_nil_r in Hb. contradiction. }
        right. split; [intros n; destruct n; [exact (Hno 0%nat)|rewrite Hst, firstn_nil; exact (Hno 0%nat)]|]. cbn in Hsent, Hn. injection Hn as <-.
        split; [exact Hsent|]. split; [cbn; rewrite app_nil_r; reflexivity|]. rewrite Hp. reflexivity.
      * cbn [orb o_next o_sent o_errs app]. destruct (IH st ls Hc Hok Hs Hcut Hnb Hl2) as [((n & Hb) & Hn)|(Hno & Hsent & Her & Hn)].
        -- left. split; [|exact Hn]. exists (S n). rewrite Hst. exact Hb.
        -- right. split; [intros [|n]; [exact (Hno 0%nat)|rewrite Hst; exact (Hno n)]|]. split; [exact Hsent|]. split; [f_equal; exact Her|exact Hn].
    + rewrite <- Ech in *. assert (Hne : chunk <> []) by congruence. clear Ech x chunk'. rewrite app_assoc in Hs.
      destruct (inner_lines t c (S (length (t_pending st ++ chunk))) ls (t_pending st ++ chunk) (stream more) (is_eof err) Hc Hok Hs)
        as (ls1 & ls2 & left & r & Hi & -> & Hlu & Hd & Hcut' & Hr); [intros E; apply app_eq_nil in E as [_ E]; contradiction|apply Nat.lt_succ_diag_r|].
      destruct (step_nonempty t st chunk err _ _ Hne Hi) as [Hsent Hnext]. pose proof (step_errs t st chunk err) as Herr.
      rewrite Forall_app in Hok. destruct Hok as [Hok1 Hok2].
      assert (Hshift : forall n, bad_boundary c (ls1 ++ ls2) (t_pending st ++ stream (firstn (S n) ((chunk, err) :: more))) <->
                        bad_boundary c ls2 (left ++ stream (firstn n more))).
      { intros n. rewrite Hst, app_assoc, Hd, <- app_assoc. apply bad_shift. }
      rewrite (dash_bad c ls2 left Hcut') in Hr. unfold read_errors. cbn [ended existsb snd map concat]. fold (ended more). fold (read_errors more).
      destruct Hr as [[Hb ->]|[Hnb' ->]]; rewrite Hnext.
      * left. split; [|exact Hnext]. exists 1%nat. apply (Hshift 0%nat). cbn. rewrite app_nil_r. exact Hb.
      * destruct (is_eof err) eqn:Ee.
        -- specialize (Hl1 eq_refl). subst more. right. cbn [orb].
           destruct (IH {| t_pending := left; t_buflen := 0 |} ls2 Hc Hok2) as [((n & Hb) & _)|(Hno & Hs2 & _ & st' & Hn & Hp)]; try assumption; try exact I.
           { exfalso. rewrite firstn_nil in Hb. cbn in Hb. rewrite app_nil_r in Hb. contradiction. }
           cbn in Hn. injection Hn as <-. cbn in Hp. subst left. cbn in Hs2. symmetry in Hs2. apply map_eq_nil in Hs2. subst ls2.
           split; [|rewrite Hsent, Hnext, Herr, !app_nil_r; auto].
           intros [|n]; [unfold stream; cbn [firstn map concat]; rewrite (app_nil_r (t_pending st)); exact Hnb|rewrite Hshift; exact (Hno n)].
        -- cbn [orb o_sent o_next o_errs].
           match goal with |- context [tok_run t ?s more] => destruct (IH s ls2 Hc Hok2) as [((n & Hb) & Hn)|(Hno & Hs2 & Her2 & Hn)]; try assumption end.
           ++ left. split; [|exact Hn]. exists (S n). apply Hshift. exact Hb.
           ++ right. split; [intros [|n]; [unfold stream; cbn [firstn map concat]; rewrite (app_nil_r (t_pending st)); exact Hnb|rewrite Hshift; exact (Hno n)]|].
              rewrite Hsent, map_app, Herr. split; [f_equal; exact Hs2|]. split; [f_equal; exact Her2|exact Hn].
Qed.
