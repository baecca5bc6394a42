(** PropBuild.v -- property C90: what a built message holds, and what is read back from it, is given
    by the last call naming each field. *)
From Verif Require Import Base BaseFacts Spec MPriority MHelpers MText MTime MSData MMessage MTransport MParse.
From Verif Require Import LPriority LText LTime PropPriority PropMessage LParse LRound PropParse.

(** the last call of the history that names the field [f] *)
Fixpoint last_call (f : field) (cs : list build_call) : option build_call :=
  match cs with
  | [] => None
  | c :: r => match last_call f r with
              | Some c' => Some c'
              | None => if field_eq_dec (named c) f then Some c else None
              end
  end.

(** what the call leaves in the field it names *)
Definition stores (hostname : bytes) (c : build_call) (m : message) : Prop :=
  match c with
  | BNow now => m_time m = now
  | BTime ts => m_time m = ts
  | BTimestamp now s => m_time m = stamp_to_ts now s
  | BDelta loc boot s n => m_time m = delta_boot_to_ts loc boot s n
  | BEpoch loc s n => m_time m = epoch_to_ts loc s n
  | BHost h => sanitised 255 h (m_host m)
  | BLocalHost => m_host m = hostname
  | BApp a => sanitised 48 a (m_app m)
  | BProcID p => sanitised 128 p (m_procid m)
  | BMsgID i => sanitised 32 i (m_msgid m)
  | BPrio p => m_prio m = p
  | BMsg t => trimmed t (m_text m)
  | BSD _ => True
  end.

(** what the constructor leaves in the field [f] *)
Definition starts (hostname : bytes) (o : origin) (f : field) (m : message) : Prop :=
  match o, f with
  | OCreate _ _ prio _, FPrio => m_prio m = prio
  | OCreate now _ _ _, FTime => m_time m = now
  | OCreate _ _ _ _, FHost => m_host m = hostname
  | OCreate _ app _ _, FApp => sanitised 48 app (m_app m)
  | OCreate _ _ _ _, FProcID => m_procid m = bs "-"
  | OCreate _ _ _ _, FMsgID => m_msgid m = bs "-"
  | OCreate _ _ _ text, FText => trimmed text (m_text m)
  | OWhole prio _ _ _ _ _ _, FPrio => m_prio m = prio
  | OWhole _ ts _ _ _ _ _, FTime => m_time m = ts
  | OWhole _ _ host _ _ _ _, FHost => sanitised 255 host (m_host m)
  | OWhole _ _ _ app _ _ _, FApp => sanitised 48 app (m_app m)
  | OWhole _ _ _ _ pid _ _, FProcID => sanitised 128 pid (m_procid m)
  | OWhole _ _ _ _ _ msgid _, FMsgID => sanitised 32 msgid (m_msgid m)
  | OWhole _ _ _ _ _ _ text, FText => trimmed text (m_text m)
  | OEmpty _, FPrio => m_prio m = 0%Z
  | OEmpty off, FTime => m_time m = {| t_sec := 0; t_nsec := 0; t_off := off |}
  | OEmpty _, FHost => m_host m = bs "-"
  | OEmpty _, FApp => m_app m = bs "-"
  | OEmpty _, FProcID => m_procid m = bs "-"
  | OEmpty _, FMsgID => m_msgid m = bs "-"
  | OEmpty _, FText => m_text m = []
  | _, FSD => True
  end.

(** the elements the calls add *)
Definition adds (c : build_call) : list sdval := match c with BSD l => l | _ => [] end.

Lemma stores_build hostname m c : stores hostname c (build hostname m c).
Proof.
  destruct c; cbn; try reflexivity; try exact I; try apply trim_right_spec;
  match goal with |- sanitised _ ?d _ => destruct (C07_sanitise d) as (H1 & H2 & H3 & H4); assumption end.
Qed.
Lemma stores_get hostname c m m' : get (named c) m' = get (named c) m -> stores hostname c m -> stores hostname c m'.
Proof. intros E H. destruct c; cbn in *; try exact I; injection E as E; rewrite E; exact H. Qed.
Lemma starts_get hostname o f m m' : get f m' = get f m -> starts hostname o f m -> starts hostname o f m'.
Proof. intros E H. destruct o, f; cbn in *; try exact I; injection E as E; rewrite E; exact H. Qed.
Lemma starts_start hostname o f : starts hostname o f (start hostname o).
Proof.
  destruct o, f; cbn; try reflexivity; try exact I; try apply trim_right_spec;
  match goal with |- sanitised _ ?d _ => destruct (C07_sanitise d) as (H1 & H2 & H3 & H4); assumption end.
Qed.

Lemma no_call hostname f cs : forall m, last_call f cs = None -> get f (fold_left (build hostname) cs m) = get f m.
Proof.
  induction cs as [|c cs IH]; intros m H; [reflexivity|]. cbn in H. destruct (last_call f cs) eqn:E; [discriminate|].
  destruct (field_eq_dec (named c) f) as [|Hn]; [discriminate|]. cbn. rewrite IH by reflexivity. apply C09_one_field. congruence.
Qed.
Lemma last_call_stores hostname f cs : forall m c, last_call f cs = Some c -> named c = f /\ stores hostname c (fold_left (build hostname) cs m).
Proof.
  induction cs as [|c0 cs IH]; intros m c H; [discriminate|]. cbn in H. cbn. destruct (last_call f cs) as [c'|] eqn:E.
  - injection H as <-. apply IH. reflexivity.
  - destruct (field_eq_dec (named c0) f) as [Hf|]; [|discriminate]. injection H as <-. split; [exact Hf|].
    eapply stores_get; [|apply stores_build]. rewrite Hf. apply no_call. exact E.
Qed.

Theorem C90_last_call_wins : forall hostname o cs f,
  match last_call f cs with
  | Some c => stores hostname c (built hostname o cs)
  | None => starts hostname o f (built hostname o cs)
  end.
Proof.
  intros hostname o cs f. unfold built. destruct (last_call f cs) as [c|] eqn:E.
  - exact (proj2 (last_call_stores hostname f cs _ c E)).
  - eapply starts_get; [|apply starts_start]. apply no_call. exact E.
Qed.
Print Assumptions C90_last_call_wins.

Theorem C90_structured_data : forall hostname o cs, m_sd (built hostname o cs) = concat (map adds cs).
Proof.
  intros hostname o cs. unfold built.
  assert (H : forall m, m_sd (fold_left (build hostname) cs m) = m_sd m ++ concat (map adds cs)).
  { induction cs as [|c cs IH]; intros m; cbn; [rewrite app_nil_r; reflexivity|]. rewrite IH. destruct c; cbn; try reflexivity.
    rewrite app_assoc. reflexivity. }
  rewrite H. destruct o; reflexivity.
Qed.
Print Assumptions C90_structured_data.

(** Through the wire: a history without structured data, marshalled and parsed, gives back for each
    field what the last call naming it stored (the timestamp to the microsecond). *)
Definition read (p : immutable) (m : message) (f : field) : Prop :=
  match f with
  | FPrio => imm_priority p = Val (m_prio m)
  | FTime => imm_timestamp p = Val {| t_sec := t_sec (m_time m); t_nsec := t_nsec (m_time m) / 1000 * 1000; t_off := t_off (m_time m) |}
  | FHost => imm_hostname p = Val (m_host m) | FApp => imm_appname p = Val (m_app m)
  | FProcID => imm_procid p = Val (m_procid m) | FMsgID => imm_msgid p = Val (m_msgid m)
  | FText => imm_text p = Val (m_text m)
  | FSD => True
  end.

Theorem C90_read_back : forall uni hostname o cs enc eof, let m := built hostname o cs in
  header_word 255 hostname \/ ~ uses_local_host o cs -> concat (map adds cs) = [] ->
  (0 <= m_prio m <= 299)%Z -> time_valid (m_time m) -> message_marshal uni m = Val (inr enc) ->
  exists p, parse enc None eof = Val (p, None, None) /\ imm_string p = enc /\
    forall f, exists m', read p m' f /\
      match last_call f cs with Some c => stores hostname c m' | None => starts hostname o f m' end.
Proof.
  intros uni hostname o cs enc eof m Hh Hs Hp Ht Hm.
  assert (Hok : header_ok m) by (destruct Hh; [apply C10_header_fields|apply C10_header_fields_any_machine]; assumption).
  destruct (C13_parse_recovers_fields uni m enc eof Hok Hp Ht) as (p & Hpa & Hst & (R1 & R2 & R3 & R4 & R5 & R6 & R7) & _);
    [unfold m; rewrite C90_structured_data; exact Hs|exact Hm|].
  exists p. split; [exact Hpa|]. split; [exact Hst|]. intros f. exists m. split; [destruct f; cbn; assumption || exact I|].
  apply C90_last_call_wins.
Qed.
Print Assumptions C90_read_back.

Example C90_nonvacuous :
  let o := OCreate zero_time (bs "app") 13 (bs "hi") in
  let cs := [BApp (bs "a b"); BMsg (bs "one"); BEpoch (fun _ => 0%Z) (bs "1061727255") (bs "3000"); BMsg (bs "two  "); BApp (bs "x")] in
  let m := built (bs "host") o cs in
  header_word 255 (bs "host") /\ concat (map adds cs) = [] /\ (0 <= m_prio m <= 299)%Z /\ time_valid (m_time m) /\
  message_marshal (fun _ => true) m = Val (inr (bs "<13>1 2003-08-24T12:14:15.000003Z host x - - - two")) /\
  last_call FText cs = Some (BMsg (bs "two  ")) /\ last_call FHost cs = None.
Proof.
  intros o cs m. split; [|split; [reflexivity|split; [cbn; lia|split; [|split; [vm_compute; reflexivity|split; reflexivity]]]]].
  - split; [discriminate|]. split; [cbn; lia|]. intros c Hc. cbn in Hc. unfold printusascii.
    repeat (destruct Hc as [<-|Hc]; [lia|]). destruct Hc.
  - unfold time_valid. vm_compute. repeat split; discriminate || reflexivity.
Qed.
