(** PropMessage.v -- properties C07 (setters), C08..C12 (message.go). *)
From Verif Require Import Base BaseFacts Spec MPriority MHelpers MText MTime MSData MMessage.
From Verif Require Import LPriority LText LTime PropPriority.

(** C07, through the public builders. *)
Theorem C07_setters : forall (m : message) (d : bytes),
  sanitised 255 d (m_host (msg_set_host m d)) /\ sanitised 48 d (m_app (msg_set_app m d)) /\
  sanitised 128 d (m_procid (msg_set_procid m d)) /\ sanitised 32 d (m_msgid (msg_set_msgid m d)).
Proof. intros m d. exact (C07_sanitise d). Qed.
Print Assumptions C07_setters.

Theorem C07_whole_message : forall prio ts host app pid msgid text,
  let m := create_whole_message prio ts host app pid msgid text in
  sanitised 255 host (m_host m) /\ sanitised 48 app (m_app m) /\ sanitised 128 pid (m_procid m) /\
  sanitised 32 msgid (m_msgid m).
Proof.
  intros prio ts host app pid msgid text. cbn.
  destruct (C07_sanitise host) as (H & _). destruct (C07_sanitise app) as (_ & A & _).
  destruct (C07_sanitise pid) as (_ & _ & P & _). destruct (C07_sanitise msgid) as (_ & _ & _ & I).
  exact (conj H (conj A (conj P I))).
Qed.
Print Assumptions C07_whole_message.

(** C08: the text is the argument without its trailing white space; that is a unique string. *)
Theorem C08_text_trimmed : forall (m : message) (s host app pid msgid : bytes) prio ts now,
  trimmed s (m_text (msg_set_text m s)) /\
  trimmed s (m_text (create_message host now app prio s)) /\
  trimmed s (m_text (create_whole_message prio ts host app pid msgid s)) /\
  trimmed s (m_text (forge_message prio ts host app pid msgid s)).
Proof. intros. cbn. pose proof (trim_right_spec s) as H. exact (conj H (conj H (conj H H))). Qed.
Print Assumptions C08_text_trimmed.

Theorem C08_trimmed_unique : forall s t t', trimmed s t -> trimmed s t' -> t = t'.
Proof.
  intros s t t' (w & E & Hw & Hn) (w' & E' & Hw' & Hn').
  rewrite <- (trim_right_unique s t w E Hw Hn). exact (trim_right_unique s t' w' E' Hw' Hn').
Qed.
Print Assumptions C08_trimmed_unique.

Theorem C08_idempotent : forall (m : message) (s : bytes),
  msg_set_text m (m_text (msg_set_text m s)) = msg_set_text m s /\
  (~ ends_with_ws s -> m_text (msg_set_text m s) = s).
Proof.
  intros m s. split; [|exact (trim_right_id s)].
  unfold msg_set_text. cbn. rewrite trim_right_idem. reflexivity.
Qed.
Print Assumptions C08_idempotent.

Example C08_nonvacuous :
  trim_right (bs "hi there" ++ [194; 160; 10; 227; 128; 128; 32]%N) = bs "hi there" /\
  ~ ends_with_ws (bs "hi there") /\ trim_right (bs "   ") = [].
Proof.
  split; [reflexivity|]. split; [|reflexivity]. intros (w & Hw & p & Hp).
  assert (Hl : last (bs "hi there") 0%N = last (p ++ w) 0%N) by (rewrite Hp; reflexivity).
  cbn in Hw. cbn [bs last] in Hl.
  repeat (destruct Hw as [<-|Hw]; [rewrite ?last_last in Hl;
    (change (p ++ ?a) with (p ++ a) in Hl) || idtac;
    match type of Hl with
    | _ = last (p ++ [?a; ?b; ?c]) _ => change (p ++ [a; b; c]) with (p ++ [a; b] ++ [c]) in Hl; rewrite app_assoc, last_last in Hl
    | _ = last (p ++ [?a; ?b]) _ => change (p ++ [a; b]) with (p ++ [a] ++ [b]) in Hl; rewrite app_assoc, last_last in Hl
    | _ => idtac
    end; discriminate|]).
  destruct Hw.
Qed.

(** C09: one field per setter. *)
Inductive field := FPrio | FTime | FHost | FApp | FProcID | FMsgID | FSD | FText.
Inductive fval := ZV (z : Z) | TV (t : gotime) | BV (b : bytes) | SV (l : list sdval).
Definition get (f : field) (m : message) : fval :=
  match f with
  | FPrio => ZV (m_prio m) | FTime => TV (m_time m) | FHost => BV (m_host m) | FApp => BV (m_app m)
  | FProcID => BV (m_procid m) | FMsgID => BV (m_msgid m) | FSD => SV (m_sd m) | FText => BV (m_text m)
  end.
(** the field a public call names *)
Definition named (c : build_call) : field :=
  match c with
  | BNow _ | BTime _ | BTimestamp _ _ | BDelta _ _ _ _ | BEpoch _ _ _ => FTime
  | BHost _ | BLocalHost => FHost | BApp _ => FApp | BProcID _ => FProcID | BMsgID _ => FMsgID
  | BPrio _ => FPrio | BMsg _ => FText | BSD _ => FSD
  end.
Definition field_eq_dec (a b : field) : {a = b} + {a <> b}.
Proof. decide equality. Defined.

Theorem C09_one_field : forall hostname m c f, f <> named c -> get f (build hostname m c) = get f m.
Proof. intros hostname m c f H. destruct c, f; try reflexivity; exfalso; apply H; reflexivity. Qed.
Print Assumptions C09_one_field.

Theorem C09_setters_commute : forall hostname m c1 c2, named c1 <> named c2 ->
  build hostname (build hostname m c1) c2 = build hostname (build hostname m c2) c1.
Proof. intros hostname m c1 c2 H. destruct c1, c2; try reflexivity; exfalso; apply H; reflexivity. Qed.
Print Assumptions C09_setters_commute.

Theorem C09_last_wins : forall hostname m c1 c2, named c1 = named c2 -> named c2 <> FSD ->
  build hostname (build hostname m c1) c2 = build hostname m c2.
Proof. intros hostname m c1 c2 E H. destruct c1, c2; try discriminate; try reflexivity; exfalso; apply H; reflexivity. Qed.
Print Assumptions C09_last_wins.

Theorem C09_structured_data_accumulates : forall hostname m l1 l2,
  m_sd (build hostname (build hostname m (BSD l1)) (BSD l2)) = m_sd m ++ l1 ++ l2.
Proof. intros. cbn. rewrite app_assoc. reflexivity. Qed.
Print Assumptions C09_structured_data_accumulates.

(** the stored value of the setters that store their argument as it is *)
Theorem C09_stored : forall hostname m,
  (forall ts, m_time (build hostname m (BTime ts)) = ts) /\ (forall now, m_time (build hostname m (BNow now)) = now) /\
  (forall p, m_prio (build hostname m (BPrio p)) = p) /\ m_host (build hostname m BLocalHost) = hostname.
Proof. intros. repeat split. Qed.
Print Assumptions C09_stored.

Example C09_nonvacuous : forall hostname m,
  build hostname (build hostname m (BHost (bs "a b"))) (BMsg (bs "x ")) =
  build hostname (build hostname m (BMsg (bs "x "))) (BHost (bs "a b")) /\
  m_host (build hostname m (BHost (bs "a b"))) = bs "a%b".
Proof. intros. split; [apply C09_setters_commute; discriminate|reflexivity]. Qed.

(** C10: header fields of every message the public builders can produce. *)
Inductive origin :=
| OCreate (now : gotime) (app : bytes) (prio : Z) (text : bytes)
| OWhole (prio : Z) (ts : gotime) (host app pid msgid text : bytes)
| OEmpty (off : Z).
Definition start (hostname : bytes) (o : origin) : message :=
  match o with
  | OCreate now app prio text => create_message hostname now app prio text
  | OWhole prio ts host app pid msgid text => create_whole_message prio ts host app pid msgid text
  | OEmpty off => empty_message off
  end.
Definition built (hostname : bytes) (o : origin) (cs : list build_call) : message :=
  fold_left (build hostname) cs (start hostname o).

Definition header_ok (m : message) : Prop :=
  header_word 255 (m_host m) /\ header_word 48 (m_app m) /\ header_word 128 (m_procid m) /\ header_word 32 (m_msgid m).

(** the message gets the machine's host name somewhere *)
Definition uses_local_host (o : origin) (cs : list build_call) : Prop :=
  (exists now app prio text, o = OCreate now app prio text) \/ In BLocalHost cs.

Lemma dash_ok n : (1 <= n)%nat -> header_word n [DASH].
Proof. intros H. split; [discriminate|]. split; [exact H|]. intros c [<-|[]]. unfold printusascii. lia. Qed.

Lemma built_ok_gen hostname cs : forall m,
  header_word 48 (m_app m) /\ header_word 128 (m_procid m) /\ header_word 32 (m_msgid m) ->
  let r := fold_left (build hostname) cs m in
  header_word 48 (m_app r) /\ header_word 128 (m_procid r) /\ header_word 32 (m_msgid r) /\
  (header_word 255 (m_host m) -> (In BLocalHost cs -> header_word 255 hostname) -> header_word 255 (m_host r)).
Proof.
  induction cs as [|c cs IH]; intros m (Ha & Hp & Hi); cbn.
  - split; [exact Ha|]. split; [exact Hp|]. split; [exact Hi|]. intros H _. exact H.
  - assert (Hx : header_word 48 (m_app (build hostname m c)) /\ header_word 128 (m_procid (build hostname m c)) /\
                 header_word 32 (m_msgid (build hostname m c))).
    { destruct c; cbn; (split; [|split]); try exact Ha; try exact Hp; try exact Hi; apply validator_word; lia. }
    destruct (IH _ Hx) as (A & P & I & H). split; [exact A|]. split; [exact P|]. split; [exact I|].
    intros Hh Hl. apply H; [|intros Hin; apply Hl; right; exact Hin].
    destruct c; cbn; try exact Hh; [apply validator_word; lia|]. apply Hl. left; reflexivity.
Qed.

Lemma start_ok hostname o :
  header_word 48 (m_app (start hostname o)) /\ header_word 128 (m_procid (start hostname o)) /\
  header_word 32 (m_msgid (start hostname o)).
Proof.
  destruct o; cbn; (split; [|split]); (apply validator_word; lia) || (apply dash_ok; lia).
Qed.

Theorem C10_header_fields : forall hostname o cs, header_word 255 hostname -> header_ok (built hostname o cs).
Proof.
  intros hostname o cs Hh.
  destruct (built_ok_gen hostname cs (start hostname o) (start_ok hostname o)) as (A & P & I & H).
  split; [|exact (conj A (conj P I))]. apply H; [|auto].
  destruct o; cbn; [exact Hh|apply validator_word; lia|apply dash_ok; lia].
Qed.
Print Assumptions C10_header_fields.

(** whatever os.Hostname() returned, if the machine's host name is not used *)
Theorem C10_header_fields_any_machine : forall hostname o cs, ~ uses_local_host o cs -> header_ok (built hostname o cs).
Proof.
  intros hostname o cs Hu.
  destruct (built_ok_gen hostname cs (start hostname o) (start_ok hostname o)) as (A & P & I & H).
  split; [|exact (conj A (conj P I))]. apply H; [|intros Hin; exfalso; apply Hu; right; exact Hin].
  destruct o; cbn; [exfalso; apply Hu; left; do 4 eexists; reflexivity|apply validator_word; lia|apply dash_ok; lia].
Qed.
Print Assumptions C10_header_fields_any_machine.

(** app name, procid and msgid are valid even then *)
Theorem C10_other_fields : forall hostname o cs, let m := built hostname o cs in
  header_word 48 (m_app m) /\ header_word 128 (m_procid m) /\ header_word 32 (m_msgid m).
Proof.
  intros hostname o cs.
  destruct (built_ok_gen hostname cs (start hostname o) (start_ok hostname o)) as (A & P & I & _). exact (conj A (conj P I)).
Qed.
Print Assumptions C10_other_fields.

(** The claim without hypothesis is false: CreateMessage and LocalHost store os.Hostname()
    unsanitised ("" when it fails). *)
Theorem C10_header_refuted :
  (exists hostname o cs, ~ header_ok (built hostname o cs)) /\
  (exists off, ~ header_ok (built [] (OEmpty off) [BLocalHost])).
Proof.
  split.
  - exists (bs "my host"), (OCreate zero_time (bs "app") 0 (bs "hi")), []. intros ((_ & _ & Hp) & _).
    specialize (Hp 32%N ltac:(cbn; auto)). unfold printusascii in Hp. lia.
  - exists 0%Z. intros ((Hn & _) & _). apply Hn. reflexivity.
Qed.
Print Assumptions C10_header_refuted.

Example C10_nonvacuous :
  header_word 255 (bs "host") /\ ~ uses_local_host (OEmpty 0) [BApp (bs "my app"); BMsgID []] /\
  m_app (built (bs "host") (OEmpty 0) [BApp (bs "my app"); BMsgID []]) = bs "my%app".
Proof.
  split; [|split; [|reflexivity]].
  - split; [discriminate|]. split; [cbn; lia|]. intros c Hc. cbn in Hc. unfold printusascii.
    repeat (destruct Hc as [<-|Hc]; [lia|]). destruct Hc.
  - intros [(n & a & p & t & E)|Hin]; [discriminate|]. cbn in Hin. destruct Hin as [H|[H|[]]]; discriminate.
Qed.

(** C11: exact wire format. *)
Definition sd_field (encs : list bytes) : bytes := match encs with [] => bs "-" | _ => concat encs end.

Definition wire (prio ts host app pid msgid sd text : bytes) : bytes :=
  prio ++ bs " " ++ ts ++ bs " " ++ host ++ bs " " ++ app ++ bs " " ++ pid ++ bs " " ++ msgid ++ bs " " ++ sd
  ++ (match text with [] => [] | _ => bs " " ++ text end).

Lemma marshal_all_ok uni l encs : Forall2 (fun s e => sd_marshal uni s = Val (inr e)) l encs ->
  marshal_all uni l = Val (inr encs).
Proof. intros H. induction H as [|s e l encs H1 H2 IH]; [reflexivity|]. cbn. rewrite H1, IH. reflexivity. Qed.

Lemma list_marshal_ok uni l encs : Forall2 (fun s e => sd_marshal uni s = Val (inr e)) l encs ->
  list_marshal uni l = Val (inr (sd_field encs)).
Proof.
  intros H. destruct H as [|s e l encs H1 H2]; [reflexivity|]. unfold list_marshal.
  rewrite (marshal_all_ok uni (s :: l) (e :: encs)) by (constructor; assumption). reflexivity.
Qed.

Theorem C11_wire_format : forall uni (m : message) (encs : list bytes),
  (0 <= m_prio m <= 299)%Z ->
  Forall2 (fun s e => sd_marshal uni s = Val (inr e)) (m_sd m) encs ->
  let w := wire (bs "<" ++ decimal (Z.to_N (m_prio m)) ++ bs ">1") (time_format (m_time m)) (m_host m) (m_app m)
                (m_procid m) (m_msgid m) (sd_field encs) (m_text m) in
  message_marshal uni m = Val (inr w) /\ message_string uni m = Val w.
Proof.
  intros uni m encs Hp H w.
  assert (E : message_marshal uni m = Val (inr w)).
  { unfold message_marshal. rewrite (list_marshal_ok uni _ _ H). subst w. unfold wire. rewrite <- marshal_canonical by exact Hp.
    change (bs " ") with [SP]. destruct (m_text m); unfold emit; [|reflexivity]. rewrite app_nil_r. reflexivity. }
  split; [exact E|]. unfold message_string. rewrite E. reflexivity.
Qed.
Print Assumptions C11_wire_format.

Example C11_nonvacuous :
  let m := msg_add_sd (create_whole_message 165 {| t_sec := 1061727255; t_nsec := 3000000; t_off := 0 |}
             (bs "host") (bs "app") [] [] (bs "hello ")) [SDUnknown (bs "x@1") [(bs "k", bs "v")]] in
  message_marshal (fun _ => true) m =
    Val (inr (bs "<165>1 2003-08-24T12:14:15.003Z host app - - [x@1 k=""v""] hello")) /\
  Forall2 (fun s e => sd_marshal (fun _ => true) s = Val (inr e)) (m_sd m) [bs "[x@1 k=""v""]"].
Proof. split; [reflexivity|]. repeat constructor. Qed.

(** C12: encoding fails exactly when a structured data element fails, with the first error. *)
Lemma marshal_all_split uni l :
  (exists encs, Forall2 (fun s e => sd_marshal uni s = Val (inr e)) l encs) \/
  (exists l1 s l2 encs, l = l1 ++ s :: l2 /\ Forall2 (fun s e => sd_marshal uni s = Val (inr e)) l1 encs /\
     (forall b, sd_marshal uni s <> Val (inr b))).
Proof.
  induction l as [|s l IH]; [left; exists []; constructor|].
  destruct (sd_marshal uni s) as [[e|b]| |] eqn:E.
  - right. exists [], s, l, []. split; [reflexivity|]. split; [constructor|]. intros b. congruence.
  - destruct IH as [(encs & H)|(l1 & s' & l2 & encs & -> & H & Hb)].
    + left. exists (b :: encs). constructor; assumption.
    + right. exists (s :: l1), s', l2, (b :: encs). split; [reflexivity|]. split; [constructor; assumption|exact Hb].
  - right. exists [], s, l, []. split; [reflexivity|]. split; [constructor|]. intros b. congruence.
  - right. exists [], s, l, []. split; [reflexivity|]. split; [constructor|]. intros b. congruence.
Qed.

Lemma marshal_all_fail uni l1 s l2 encs : Forall2 (fun s e => sd_marshal uni s = Val (inr e)) l1 encs ->
  (forall b, sd_marshal uni s <> Val (inr b)) ->
  marshal_all uni (l1 ++ s :: l2) = match sd_marshal uni s with Val (inl e) => Val (inl e) | Val (inr b) => Val (inr []) | Panic => Panic | NoFuel => NoFuel end.
Proof.
  intros H Hb. induction H as [|x e l1 encs H1 H2 IH]; cbn.
  - destruct (sd_marshal uni s) as [[e|b]| |]; try reflexivity. exfalso; exact (Hb b eq_refl).
  - rewrite H1, IH. destruct (sd_marshal uni s) as [[e'|b]| |]; try reflexivity. exfalso; exact (Hb b eq_refl).
Qed.

Theorem C12_error_iff : forall uni (m : message) (e : sderr),
  message_marshal uni m = Val (inl e) <->
  exists l1 s l2, m_sd m = l1 ++ s :: l2 /\
    (forall x, In x l1 -> exists b, sd_marshal uni x = Val (inr b)) /\ sd_marshal uni s = Val (inl e).
Proof.
  intros uni m e. split.
  - intros H. destruct (marshal_all_split uni (m_sd m)) as [(encs & Hall)|(l1 & s & l2 & encs & E & Hall & Hb)].
    + exfalso. unfold message_marshal in H. rewrite (list_marshal_ok uni _ _ Hall) in H. destruct (m_text m); discriminate.
    + exists l1, s, l2. split; [exact E|]. split.
      * intros x Hx. clear -Hall Hx. induction Hall as [|y b l1 encs H1 H2 IH]; [destruct Hx|].
        destruct Hx as [<-|Hx]; [exists b; exact H1|exact (IH Hx)].
      * unfold message_marshal, list_marshal in H. rewrite (E) in H.
        assert (Hc : l1 ++ s :: l2 <> []) by (destruct l1; discriminate).
        destruct (l1 ++ s :: l2) as [|y ys] eqn:Ey; [congruence|]. rewrite <- Ey in H.
        rewrite (marshal_all_fail uni l1 s l2 encs Hall Hb) in H.
        destruct (sd_marshal uni s) as [[e'|b]| |]; try discriminate; [|exfalso; exact (Hb b eq_refl)].
        unfold efail in H. congruence.
  - intros (l1 & s & l2 & E & Hok & Hs).
    assert (Hall : exists encs, Forall2 (fun s e => sd_marshal uni s = Val (inr e)) l1 encs).
    { clear -Hok. induction l1 as [|x l1 IH]; [exists []; constructor|].
      destruct (Hok x (or_introl eq_refl)) as [b Hb]. destruct IH as [encs He]; [intros y Hy; apply Hok; right; exact Hy|].
      exists (b :: encs). constructor; assumption. }
    destruct Hall as [encs Hall]. unfold message_marshal, list_marshal. rewrite E.
    destruct (l1 ++ s :: l2) as [|y ys] eqn:Ey; [destruct l1; discriminate|]. rewrite <- Ey.
    rewrite (marshal_all_fail uni l1 s l2 encs Hall); [rewrite Hs; reflexivity|]. intros b. congruence.
Qed.
Print Assumptions C12_error_iff.

(** otherwise (no element panics) it succeeds *)
Theorem C12_success_iff : forall uni (m : message),
  (exists b, message_marshal uni m = Val (inr b)) <-> (forall s, In s (m_sd m) -> exists b, sd_marshal uni s = Val (inr b)).
Proof.
  intros uni m. split.
  - intros [b H]. destruct (marshal_all_split uni (m_sd m)) as [(encs & Hall)|(l1 & s & l2 & encs & E & Hall & Hb)].
    + intros x Hx. clear -Hall Hx. induction Hall as [|y e l1 encs H1 H2 IH]; [destruct Hx|].
      destruct Hx as [<-|Hx]; [exists e; exact H1|exact (IH Hx)].
    + exfalso. unfold message_marshal, list_marshal in H. rewrite E in H.
      destruct (l1 ++ s :: l2) as [|y ys] eqn:Ey; [destruct l1; discriminate|]. rewrite <- Ey in H.
      rewrite (marshal_all_fail uni l1 s l2 encs Hall Hb) in H.
      destruct (sd_marshal uni s) as [[e'|b']| |]; try discriminate. exact (Hb b' eq_refl).
  - intros Hok. assert (Hall : exists encs, Forall2 (fun s e => sd_marshal uni s = Val (inr e)) (m_sd m) encs).
    { induction (m_sd m) as [|x l1 IH]; [exists []; constructor|].
      destruct (Hok x (or_introl eq_refl)) as [b Hb]. destruct IH as [encs He]; [intros y Hy; apply Hok; right; exact Hy|].
      exists (b :: encs). constructor; assumption. }
    destruct Hall as [encs Hall]. unfold message_marshal. rewrite (list_marshal_ok uni _ _ Hall).
    destruct (m_text m); eexists; reflexivity.
Qed.
Print Assumptions C12_success_iff.

Example C12_nonvacuous :
  let bad := SDTimeQuality {| tzKnown := false; isSynced := true; syncAccuracy := None |} in
  let m := msg_add_sd (empty_message 0) [SDUnknown (bs "x") []; bad; SDForeign (MRet (inl (EForeign 7)))] in
  message_marshal (fun _ => true) m = Val (inl EInvalidTimeQuality) /\ message_string (fun _ => true) m = Val [].
Proof. split; reflexivity. Qed.
