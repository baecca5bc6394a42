(** LResult.v -- what Parse can return, for each transport. *)
From Verif Require Import Base BaseFacts Spec MPriority MHelpers MText MTime MSData MMessage MTransport MParse.
From Verif Require Import LPriority LText LTime LSData LParse LTransport LRound.
From Coq Require Import ZifyBool ZifyNat ZifyN.

Lemma parse_body_result t eof body rest0 me m rest e : parse_body (Some t) eof body rest0 me = Val (m, rest, e) ->
  (m = zero_immutable /\ rest = rest0 /\ exists e0, parse body None eof = Val (zero_immutable, None, Some e0) /\ e = dispatch_error me e0) \/
  (exists m0, accepted body m0 /\ parse_return m0 (Some t) eof body rest0 = Val (m, rest, e)).
Proof.
  intros H. destruct (parse_none_spec body eof) as (m0 & e0 & H0 & Hs).
  destruct (parse_body_core (Some t) eof body rest0 me eof) as [Hc1 Hc2]. destruct e0 as [e0|].
  - left. rewrite (Hc2 _ _ H0) in H. injection H as <- <- <-. split; [reflexivity|]. split; [reflexivity|]. subst m0. exists e0. auto.
  - right. exists m0. split; [exact Hs|]. rewrite (Hc1 _ H0) in H. exact H.
Qed.

(** no delimiter: the error at the end of the stream *)
Definition eof_err (t : transport) (eof : bool) : option perr :=
  match t with TLFEnded => if eof then Some ErrTransportIncomplete else None | _ => None end.

Lemma parse_delim_inv t c data eof m rest e : delim t = Some c -> parse data (Some t) eof = Val (m, rest, e) ->
  (m = zero_immutable /\ rest = None /\
     ((data = [] /\ e = None) \/ (exists e0, parse data None eof = Val (zero_immutable, None, Some e0) /\ e = Some e0) \/
      (exists m0, accepted data m0 /\ i_text m0 = Z.of_nat (length data) /\ e = None))) \/
  (exists m0, accepted data m0 /\ i_index m = i_index m0 /\ i_text m = i_text m0 /\
    exists pre tl, data = pre ++ tl /\ (1 <= length pre)%nat /\ Z.of_nat (length pre) = i_text m0 /\
     ((exists a b, tl = a ++ c :: b /\ ~ In c a /\ i_buf m = pre ++ a /\ rest = Some b /\ e = None) \/
      (tl <> [] /\ ~ In c tl /\ m = m0 /\ rest = None /\ e = eof_err t eof))).
Proof.
  intros Hc H. destruct data as [|x data'] eqn:Ed.
  { left. destruct t; try discriminate; cbn in H; injection H as <- <- <-; (split; [reflexivity|]); (split; [reflexivity|]); left; auto. }
  rewrite <- Ed in *. assert (Hne : data <> []) by congruence. clear Ed x data'.
  rewrite (parse_delim_eq t c data eof Hc Hne) in H.
  destruct (parse_body_result _ _ _ _ _ _ _ _ H) as [(-> & -> & e0 & H0 & ->)|(m0 & Hacc & Hr)].
  { left. split; [reflexivity|]. split; [reflexivity|]. right. left. exists e0. auto. }
  destruct (accepted_text_range _ _ Hacc) as [Hbuf [Htx|Htx]].
  { unfold parse_return in Hr. rewrite Htx in Hr. cbn in Hr. discriminate. }
  destruct (parse_return_cases m0 t c eof data Hc Hbuf Htx) as (pre & tl & Hd & Hpl & [(Htl & Hr')|[(a & b & Htl & Hn & Hr')|(Htl & Hn & Hr')]]);
    rewrite Hr in Hr'.
  - left. injection Hr' as -> -> ->. split; [reflexivity|]. split; [reflexivity|]. right. right. exists m0. split; [exact Hacc|].
    split; [|reflexivity]. rewrite Hd, Htl, app_nil_r. lia.
  - right. exists m0. split; [exact Hacc|]. injection Hr' as -> -> ->. cbn [i_index i_text i_buf]. split; [reflexivity|]. split; [reflexivity|].
    exists pre, tl. split; [exact Hd|]. split; [lia|]. split; [exact Hpl|]. left. exists a, b. auto.
  - right. exists m0. split; [exact Hacc|]. injection Hr' as -> -> ->. split; [reflexivity|]. split; [reflexivity|].
    exists pre, tl. split; [exact Hd|]. split; [lia|]. split; [exact Hpl|]. right. unfold eof_err. auto 10.
Qed.

(** RFC 5425 *)
Lemma parse_rfc_inv data eof m rest e : parse data (Some TRFC5425) eof = Val (m, rest, e) ->
  (m = zero_immutable /\ rest = None /\
     (((length data < 20)%nat /\ e = None) \/
      (e = Some ErrTransportNoHeader /\ (20 <= length data)%nat /\ (~ In SP data \/ exists r, data = SP :: r)) \/
      (exists h r, data = h ++ SP :: r /\ h <> [] /\ ~ In SP h /\
        ((atoi h = None /\ e = Some ErrTransportInvHeader) \/
         (exists n, atoi h = Some n /\ (Z.of_nat (length data) < wrap64 (Z.of_nat (length h + 1) + n))%Z /\ eof = false /\ e = None))))) \/
  (exists h n d q, data = h ++ SP :: d ++ q /\ h <> [] /\ ~ In SP h /\ atoi h = Some n /\
     Z.of_nat (length d) = (wrap64 (Z.of_nat (length h + 1) + n) - Z.of_nat (length h + 1))%Z /\
     rest = Some q /\ parse d None eof = Val (m, None, e)) \/
  (exists h n d, data = h ++ SP :: d /\ h <> [] /\ ~ In SP h /\ atoi h = Some n /\ eof = true /\ rest = None /\
     (Z.of_nat (length data) < wrap64 (Z.of_nat (length h + 1) + n))%Z /\
     ((m = zero_immutable /\ e = Some ErrTransportIncomplete /\ exists e0, parse d None eof = Val (zero_immutable, None, Some e0)) \/
      (exists m0, accepted d m0 /\ e = None /\
          ((i_text m0 = Z.of_nat (length d) /\ m = zero_immutable) \/ ((1 <= i_text m0 < Z.of_nat (length d))%Z /\ m = m0))))).
Proof.
  intros H. unfold parse in H. cbn [prefix_strip] in H.
  assert (Hz : forall er, parse_body (Some TRFC5425) eof [] None (Some er) = Val (zero_immutable, None, Some er)) by reflexivity.
  destruct (rfc_strip_cases data eof) as [(Hl & Hs)|(Hl & [(Hs & Hc)|(h & r & Hd & Hh & Hnh & Hx)])].
  - rewrite Hs in H. cbn in H. injection H as <- <- <-. left. split; [reflexivity|]. split; [reflexivity|]. left. auto.
  - rewrite Hs in H. cbn [bind] in H. rewrite Hz in H. injection H as <- <- <-. left. split; [reflexivity|]. split; [reflexivity|]. right. left. auto.
  - destruct Hx as [(Ha & Hs)|(n & Ha & Hx)].
    { rewrite Hs in H. cbn [bind] in H. rewrite Hz in H. injection H as <- <- <-. left. split; [reflexivity|]. split; [reflexivity|].
      right. right. exists h, r. auto 10. }
    cbv zeta in Hx. destruct Hx as [(Hlt & Hs)|[(_ & Hs)|(Hle & d & q & Hdq & Hld & Hs)]].
    + destruct eof.
      * right. right. rewrite Hs in H. cbn [bind] in H. exists h, n, r. split; [exact Hd|]. split; [exact Hh|]. split; [exact Hnh|].
        split; [exact Ha|]. split; [reflexivity|].
        destruct (parse_body_result _ _ _ _ _ _ _ _ H) as [(-> & -> & e0 & H0 & ->)|(m0 & Hacc & Hr)].
        { split; [reflexivity|]. split; [exact Hlt|]. left. split; [reflexivity|]. split; [reflexivity|]. exists e0. exact H0. }
        unfold parse_return in Hr. destruct (accepted_text_range _ _ Hacc) as [Hbuf [Htx|Htx]]; [rewrite Htx in Hr; discriminate|].
        unfold go_from_z in Hr. destruct (Z.ltb_spec (i_text m0) 0); [lia|].
        rewrite go_from_val in Hr by lia. cbn [bind] in Hr. unfold suffix_strip in Hr.
        destruct (Nat.eqb_spec (length (skipn (Z.to_nat (i_text m0)) r)) 0) as [E0|E0].
        -- injection Hr as <- <- <-. split; [reflexivity|]. split; [exact Hlt|]. right. exists m0. split; [exact Hacc|]. split; [reflexivity|].
           left. split; [|reflexivity]. rewrite skipn_length in E0. lia.
        -- rewrite skipn_length in *.
           destruct (Z.ltb_spec (i_text m0 + Z.of_nat (length r - Z.to_nat (i_text m0))) (Z.of_nat (length (i_buf m0)))) as [Hlt'|_].
           ++ exfalso. rewrite Hbuf in Hlt'. lia.
           ++ injection Hr as <- <- <-. split; [reflexivity|]. split; [exact Hlt|]. right. exists m0. split; [exact Hacc|]. split; [reflexivity|]. right. split; [lia|reflexivity].
      * rewrite Hs in H. cbn in H. injection H as <- <- <-. left. split; [reflexivity|]. split; [reflexivity|]. right. right.
        exists h, r. split; [exact Hd|]. split; [exact Hh|]. split; [exact Hnh|]. right. exists n. auto.
    + rewrite Hs in H. discriminate.
    + right. left. rewrite Hs in H. cbn [bind] in H. exists h, n, d, q. split; [rewrite Hd, Hdq; reflexivity|]. split; [exact Hh|]. split; [exact Hnh|].
      split; [exact Ha|]. split; [exact Hld|].
      destruct (parse_none_spec d eof) as (m0 & e0 & H0 & _).
      rewrite (parse_body_rest TRFC5425 eof d q m0 e0 H0) in H. injection H as <- <- <-. auto.
Qed.

(** every message Parse returns is zero or an accepted one, maybe cut after its text started *)
Lemma parse_result data t eof m rest e : parse data t eof = Val (m, rest, e) ->
  m = zero_immutable \/
  exists body m0, accepted body m0 /\ i_index m = i_index m0 /\ i_text m = i_text m0 /\
    (m = m0 \/ exists pre a cut, body = pre ++ a ++ cut /\ i_buf m = pre ++ a /\ (1 <= length pre)%nat /\ Z.of_nat (length pre) = i_text m).
Proof.
  intros H. destruct t as [t|].
  - assert (Hd : forall c, delim t = Some c -> m = zero_immutable \/
      exists body m0, accepted body m0 /\ i_index m = i_index m0 /\ i_text m = i_text m0 /\
       (m = m0 \/ exists pre a cut, body = pre ++ a ++ cut /\ i_buf m = pre ++ a /\ (1 <= length pre)%nat /\ Z.of_nat (length pre) = i_text m)).
    { intros c Hc. destruct (parse_delim_inv t c data eof m rest e Hc H) as [(-> & _)|(m0 & Hacc & Hi & Ht & pre & tl & Hd & Hp1 & Hp & Hx)]; [auto|].
      right. exists data, m0. split; [exact Hacc|]. split; [exact Hi|]. split; [exact Ht|].
      destruct Hx as [(a & b & Htl & _ & Hb & _)|(_ & _ & -> & _)]; [|auto]. right. exists pre, a, (c :: b).
      rewrite Hd, Htl, Ht. auto. }
    destruct t; [exact (Hd NUL eq_refl)|exact (Hd LF eq_refl)|]. clear Hd.
    destruct (parse_rfc_inv data eof m rest e H) as [(-> & _)|[(h & n & d & q & _ & _ & _ & _ & _ & _ & Hp)|(h & n & d & _ & _ & _ & _ & _ & _ & _ & Hx)]]; [auto| |].
    + destruct (parse_none_spec d eof) as (m' & e' & H' & Hs). rewrite Hp in H'. injection H' as <- <-.
      destruct e as [e|]; [left; exact Hs|]. right. exists d, m. auto.
    + destruct Hx as [(-> & _)|(m0 & Hacc & _ & [(_ & ->)|(_ & ->)])]; [auto|auto|]. right. exists d, m0. auto.
  - destruct (parse_none_spec data eof) as (m' & e' & H' & Hs). rewrite H in H'. injection H' as <- _ <-.
    destruct e as [e|]; [left; exact Hs|]. right. exists data, m. auto.
Qed.
